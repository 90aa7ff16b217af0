(** The number reader computes the value of numerals. *)
From Coq Require Import List String Ascii Bool Arith ZArith QArith Qpower Lia.
From Verif Require Import Base Reader NumeralSpec.
Import ListNotations.
Open Scope nat_scope.
Open Scope list_scope.

Local Arguments digit_char : simpl never.
Local Arguments is_digit : simpl never.
Local Arguments digit_value : simpl never.
Local Arguments Ascii.eqb : simpl never.

Lemma digit_char_code d : d < 10 -> nat_of_ascii (digit_char d) = 48 + d.
Proof. intros L. unfold digit_char. apply nat_ascii_embedding. lia. Qed.

Lemma digit_char_is d : d < 10 -> is_digit (digit_char d) = true.
Proof. intros L. unfold is_digit. rewrite digit_char_code by auto. apply andb_true_iff. split; apply Nat.leb_le; lia. Qed.

Lemma digit_char_value d : d < 10 -> digit_value (digit_char d) = Z.of_nat d.
Proof. intros L. unfold digit_value. rewrite digit_char_code by auto. f_equal. lia. Qed.

Lemma digit_not a c : is_digit a = true -> is_digit c = false -> Ascii.eqb a c = false.
Proof. intros A B. destruct (Ascii.eqb_spec a c) as [->|]; congruence. Qed.

Lemma point_not : is_digit "." = false. Proof. reflexivity. Qed.
Lemma e_not : is_digit "e" = false. Proof. reflexivity. Qed.

#[local] Opaque digit_char is_digit digit_value.

Lemma digits_all ds : digits ds -> forallb is_digit (map digit_char ds) = true.
Proof. induction 1; simpl; auto. rewrite digit_char_is by auto. auto. Qed.

Lemma horner ds : digits ds -> forall acc, fold_left (fun acc a => (acc * 10 + digit_value a)%Z) (map digit_char ds) acc = (acc * 10 ^ Z.of_nat (List.length ds) + positional ds)%Z.
Proof.
  induction 1 as [|d ds L D IH]; intros acc; [simpl; ring|]. cbn [map fold_left positional List.length]. rewrite IH, digit_char_value by auto.
  rewrite Nat2Z.inj_succ, Z.pow_succ_r by lia. ring.
Qed.

Lemma digits_value_text ds : digits ds -> digits_value (map digit_char ds) = positional ds.
Proof. intros D. unfold digits_value. rewrite (horner ds D 0%Z). ring. Qed.

Lemma positional_app a b : positional (a ++ b) = (positional a * 10 ^ Z.of_nat (List.length b) + positional b)%Z.
Proof.
  induction a as [|d a IH]; simpl; auto. rewrite IH, app_length, Nat2Z.inj_add, Z.pow_add_r by lia. ring.
Qed.

Lemma positional_nonneg ds : (0 <= positional ds)%Z.
Proof. induction ds as [|d ds IH]; simpl; [lia|]. assert (0 < 10 ^ Z.of_nat (List.length ds))%Z by (apply Z.pow_pos_nonneg; lia). nia. Qed.

Lemma py_int_text ds : digits ds -> ds <> [] -> py_int (map digit_char ds) = Ok (positional ds).
Proof.
  intros D N. destruct ds as [|d ds]; [congruence|]. unfold py_int. rewrite (digits_all (d :: ds) D). cbn [map]. apply (f_equal Ok). exact (digits_value_text (d :: ds) D).
Qed.

Lemma py_int_bad l : l <> [] -> forallb is_digit l = false -> py_int l = Err ValueError.
Proof. intros N E. destruct l; [congruence|]. unfold py_int. now rewrite E. Qed.

Lemma split_digits ds : digits ds -> split_point (map digit_char ds) = (map digit_char ds, None).
Proof.
  induction 1 as [|d ds L D IH]; simpl; auto. rewrite (digit_not (digit_char d) ".") by (auto using digit_char_is). now rewrite IH.
Qed.

Lemma split_digits_point ds r : digits ds -> split_point (map digit_char ds ++ "."%char :: r) = (map digit_char ds, Some r).
Proof.
  induction 1 as [|d ds L D IH]; simpl; auto. rewrite (digit_not (digit_char d) ".") by (auto using digit_char_is). now rewrite IH.
Qed.

Lemma pow10_pos n : (0 < 10 ^ Z.of_nat n)%Z.
Proof. apply Z.pow_pos_nonneg; lia. Qed.

Lemma Q10 n : (inject_Z (10 ^ Z.of_nat n) == 10 ^ Z.of_nat n)%Q.
Proof. rewrite Zpower_Qpower by lia. reflexivity. Qed.

Lemma py_float_text n : numeral_ok n -> exists v, py_float (mantissa_text n) = Ok v /\
  (v == inject_Z (positional (nu_int n)) + inject_Z (positional (frac_digits n)) / 10 ^ Z.of_nat (List.length (frac_digits n)))%Q.
Proof.
  intros [DI DF NE _]. unfold mantissa_text, frac_digits in *. destruct (nu_frac n) as [f|].
  - unfold py_float. rewrite split_digits_point by auto. rewrite (digits_all f DF). cbn [negb].
    destruct (Nat.eqb_spec (List.length (map digit_char (nu_int n)) + List.length (map digit_char f)) 0) as [E|_].
    { rewrite !map_length in E. destruct (nu_int n), f; simpl in *; try lia; congruence. }
    exists (digits_value (map digit_char (nu_int n) ++ map digit_char f) # Z.to_pos (10 ^ Z.of_nat (List.length (map digit_char f))))%Q.
    split; [destruct (map digit_char (nu_int n)); reflexivity|]. rewrite <- map_app, digits_value_text by (apply Forall_app; auto). rewrite positional_app, map_length.
    pose proof (pow10_pos (List.length f)) as P. rewrite <- (Q10 (List.length f)).
    generalize dependent (10 ^ Z.of_nat (List.length f))%Z. intros p P. rewrite Qmake_Qdiv, Z2Pos.id by auto. rewrite inject_Z_plus, inject_Z_mult. field.
    unfold Qeq. simpl. lia.
  - rewrite List.app_nil_r in *. unfold py_float. rewrite split_digits by auto. destruct (nu_int n) as [|d ds] eqn:E; [simpl in NE; congruence|].
    cbn [map]. eexists. split; [reflexivity|]. change (digit_char d :: map digit_char ds) with (map digit_char (d :: ds)). rewrite digits_value_text by auto.
    simpl positional at 3. cbn [List.length]. simpl (Z.of_nat 0). simpl (10 ^ 0)%Q. field.
Qed.

(** Characters that the reader passes over. *)
Definition skipped (a : ascii) : Prop := is_digit a = false /\ a <> "."%char /\ a <> "e"%char.

Lemma scan_skipped : forall l r num, Forall skipped l -> scan (l ++ r) num = scan r num.
Proof.
  induction l as [|a l IH]; intros r num F; [reflexivity|]. inversion F as [|? ? (A & B & C) F']; subst. cbn [app scan]. rewrite A.
  destruct (Ascii.eqb_spec a "."); [congruence|]. destruct (Ascii.eqb_spec a "e"); [congruence|]. auto.
Qed.

Lemma scan_digits : forall ds r num, digits ds -> scan (map digit_char ds ++ r) num = scan r (num ++ map digit_char ds).
Proof.
  induction ds as [|d ds IH]; intros r num D; [simpl; now rewrite List.app_nil_r|]. inversion D; subst. cbn [map app scan].
  rewrite digit_char_is by auto. rewrite IH by auto. f_equal. rewrite <- app_assoc. reflexivity.
Qed.

Lemma scan_mantissa n r num : numeral_ok n -> scan (mantissa_text n ++ r) num = scan r (num ++ mantissa_text n).
Proof.
  intros [DI DF NE _]. unfold mantissa_text, frac_digits in *. destruct (nu_frac n) as [f|].
  - rewrite <- app_assoc. rewrite scan_digits by auto. cbn [app scan]. rewrite point_not. change (Ascii.eqb "." ".") with true. cbv iota.
    rewrite scan_digits by auto. f_equal. now rewrite <- !app_assoc.
  - rewrite List.app_nil_r. now apply scan_digits.
Qed.

Definition exponent (n : numeral) : Z := match nu_exp n with Some (neg, e) => if neg then - positional e else positional e | None => 0 end.

Lemma scan_exponent n num : numeral_ok n -> exists m, scan (exponent_text n) num = Ok (num, m) /\ (m == 10 ^ exponent n)%Q.
Proof.
  intros [_ _ _ NE]. unfold exponent_text, exponent. destruct (nu_exp n) as [[neg e]|]; [|exists 1%Q; split; reflexivity].
  destruct (NE neg e eq_refl) as [D N]. cbn [scan]. rewrite e_not. change (Ascii.eqb "e" ".") with false. change (Ascii.eqb "e" "e") with true. cbv iota.
  cbn [skipn]. rewrite py_int_text by auto. cbn [rbind]. pose proof (positional_nonneg e) as P. destruct neg.
  - change (Ascii.eqb "-" "+") with false. cbv iota. eexists. split; [reflexivity|]. rewrite Zpower_Qpower by auto. rewrite Qpower_opp. reflexivity.
  - change (Ascii.eqb "+" "+") with true. cbv iota. eexists. split; [reflexivity|]. rewrite Zpower_Qpower by auto. reflexivity.
Qed.

Lemma mantissa_nonempty n : numeral_ok n -> mantissa_text n <> [].
Proof.
  intros [_ _ NE _]. unfold mantissa_text, frac_digits in *. destruct (nu_frac n) as [f|]; [intros E; apply app_eq_nil in E as [_ E]; discriminate|].
  rewrite List.app_nil_r in *. destruct (nu_int n); [congruence|discriminate].
Qed.

Lemma get_digit_scan str num m : scan str [] = Ok (num, m) -> num <> [] -> get_digit str =
  do v <- py_float num; Ok (Some ((match str with a :: _ => if Ascii.eqb a "-" then (m * -1)%Q else m | [] => m end) * v)%Q).
Proof. intros E N. unfold get_digit. rewrite E. cbn [rbind fst snd]. destruct num; [congruence|reflexivity]. Qed.

(** Reading [pre ++ text ++ suf] when the scan goes through. *)
Lemma read_number n pre suf : numeral_ok n -> Forall skipped pre -> (nu_exp n = None \/ suf = []) -> Forall skipped suf ->
  exists v, get_digit (pre ++ unsigned_text n ++ suf) = Ok (Some v) /\
    (v == (if match pre with a :: _ => Ascii.eqb a "-" | [] => false end then - unsigned_value n else unsigned_value n))%Q.
Proof.
  intros OK FP ES FS. destruct (py_float_text n OK) as (v & EV & HV). destruct (scan_exponent n (mantissa_text n) OK) as (m & EM & HM).
  assert (E : scan (pre ++ unsigned_text n ++ suf) [] = Ok (mantissa_text n, m)).
  { rewrite scan_skipped by auto. unfold unsigned_text. rewrite <- app_assoc, scan_mantissa by auto. cbn [app].
    destruct ES as [ES| ->]; [|now rewrite List.app_nil_r].
    unfold exponent_text, exponent in *. rewrite ES in *. cbn [app scan] in *. injection EM as <-. rewrite <- (List.app_nil_r suf). rewrite scan_skipped by auto. reflexivity. }
  rewrite (get_digit_scan _ _ _ E) by (now apply mantissa_nonempty). rewrite EV. cbn [rbind]. eexists. split; [reflexivity|].
  assert (U : (m * v == unsigned_value n)%Q) by (unfold unsigned_value; fold (exponent n); rewrite HM, HV; ring).
  destruct pre as [|a pre].
  - cbn [app]. assert (NM : match unsigned_text n ++ suf with a :: _ => if Ascii.eqb a "-" then (m * -1)%Q else m | [] => m end = m).
    { destruct OK as [DI DF NE _]. unfold unsigned_text, mantissa_text, frac_digits in *. destruct (nu_int n) as [|d ds]; cbn [map app].
      - destruct (nu_frac n); [reflexivity|simpl in NE; congruence].
      - rewrite (digit_not (digit_char d) "-"); auto. apply digit_char_is. now inversion DI. }
    rewrite NM. exact U.
  - cbn [app]. destruct (Ascii.eqb a "-"); [|exact U]. rewrite <- U. ring.
Qed.

(** An exponent followed by anything but digits is not an integer. *)
Lemma read_exponent_suffix n pre suf : numeral_ok n -> Forall skipped pre -> nu_exp n <> None -> suf <> [] -> Forall (fun a => is_digit a = false) suf ->
  get_digit (pre ++ unsigned_text n ++ suf) = Err ValueError.
Proof.
  intros OK FP NE NS FS. unfold get_digit. rewrite scan_skipped by auto. unfold unsigned_text. rewrite <- app_assoc, scan_mantissa by auto. cbn [app].
  unfold exponent_text. destruct (nu_exp n) as [[neg e]|]; [|congruence]. cbn [app scan]. rewrite e_not. change (Ascii.eqb "e" ".") with false. change (Ascii.eqb "e" "e") with true. cbv iota.
  cbn [skipn]. rewrite py_int_bad; [reflexivity| |].
  - intros E. apply app_eq_nil in E as [_ E]. congruence.
  - rewrite forallb_app. destruct suf as [|a suf]; [congruence|]. inversion FS; subst. cbn [forallb]. rewrite H1. apply andb_false_r.
Qed.
