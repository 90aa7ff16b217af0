(** Lemmas about the converter of case files. *)
From Coq Require Import List String Ascii Bool Arith ZArith QArith Qpower Lia.
From Verif Require Import Base Container Reader NumeralSpec NumeralProofs MatFile MatFileSpec MatFileProofs Converter ConverterSpec.
Import ListNotations.
Open Scope string_scope.
Open Scope nat_scope.
Open Scope list_scope.

Local Ltac sp := repeat match goal with |- _ /\ _ => split end.
Local Arguments digit_char : simpl never.
Local Arguments is_digit : simpl never.
Local Arguments Ascii.eqb : simpl never.
#[local] Opaque digit_char is_digit digit_value.

Lemma text_eqb_spec a b : text_eqb a b = true <-> a = b.
Proof. unfold text_eqb. destruct (list_eq_dec ascii_dec a b); split; intros; auto; discriminate. Qed.
Lemma text_eqb_false a b : a <> b -> text_eqb a b = false.
Proof. intros N. destruct (text_eqb a b) eqn:E; auto. now apply text_eqb_spec in E. Qed.

(** ** Numbers *)

Lemma drop_none l : ~ In "_"%char l -> forall p, drop_underscores p l = Some l.
Proof.
  induction l as [|a r IH]; intros N p; auto. cbn [drop_underscores]. destruct (Ascii.eqb_spec a "_") as [->|]; [destruct N; now left|].
  rewrite IH; auto. intros I. apply N. now right.
Qed.
Lemma entry_chars e a : entry_ok e -> In a (entry_text e) -> is_digit a = true \/ In a ["-"; "."; "e"; "+"; "I"; "n"; "f"]%char.
Proof.
  destruct e as [n|neg]; cbn [entry_ok entry_text].
  - intros OK I. apply (numeral_chars n a OK) in I. cbn. intuition.
  - intros _ I. rewrite in_app_iff in I. right. destruct I as [I|I]; [destruct neg; [|destruct I]; cbn in *; intuition|]. cbn in *. intuition.
Qed.
Lemma entry_no e a : entry_ok e -> is_digit a = false -> ~ In a ["-"; "."; "e"; "+"; "I"; "n"; "f"]%char -> ~ In a (entry_text e).
Proof. intros OK D N I. apply entry_chars in I as [I|I]; auto. congruence. Qed.
Lemma no_digit_underscore : is_digit "_" = false. Proof. reflexivity. Qed.
Lemma no_digit_semicolon : is_digit ";" = false. Proof. reflexivity. Qed.
Lemma no_digit_m : is_digit "m" = false. Proof. reflexivity. Qed.
Lemma no_digit_bracket : is_digit "]" = false. Proof. reflexivity. Qed.

Lemma entry_no_underscore e : entry_ok e -> ~ In "_"%char (entry_text e).
Proof. intros OK. apply entry_no; auto. cbn. intuition discriminate. Qed.
Lemma entry_no_semicolon e : entry_ok e -> ~ In ";"%char (entry_text e).
Proof. intros OK. apply entry_no; auto. cbn. intuition discriminate. Qed.

Lemma strip_final e suf : entry_ok e -> Forall (eq ";"%char) suf -> no_semicolons (entry_text e ++ suf) = entry_text e.
Proof.
  intros OK F. unfold no_semicolons. rewrite filter_app. assert (X : filter (fun a => negb (Ascii.eqb a ";")) suf = []).
  { induction F as [|a s E F IH]; auto. subst a. cbn [filter]. now rewrite Ascii.eqb_refl. }
  rewrite X, List.app_nil_r. pose proof (entry_no_semicolon e OK) as N. induction (entry_text e) as [|a r IH]; auto. cbn [filter].
  destruct (Ascii.eqb_spec a ";") as [->|]; [destruct N; now left|]. cbn [negb]. f_equal. apply IH. intros I. apply N. now right.
Qed.

Lemma take_digits_all ds r : digits ds -> (match r with a :: _ => is_digit a = false | [] => True end) ->
  take_digits (map digit_char ds ++ r) = (map digit_char ds, r).
Proof.
  intros D R. induction D as [|d ds L D IH]; cbn [map app].
  - destruct r as [|a r]; auto. cbn [take_digits]. now rewrite R.
  - cbn [take_digits]. rewrite digit_char_is, IH by auto. reflexivity.
Qed.
Lemma all_digits_text ds : digits ds -> ds <> [] -> all_digits (map digit_char ds) = true.
Proof. intros D N. unfold all_digits. destruct ds as [|d r]; [congruence|]. cbn [map]. change (digit_char d :: map digit_char r) with (map digit_char (d :: r)). now apply digits_all. Qed.
Lemma sign_digits ds r : digits ds -> ds <> [] -> sign (map digit_char ds ++ r) = (false, map digit_char ds ++ r).
Proof.
  intros D N. destruct D as [|d ds L D]; [congruence|]. cbn [map app sign]. rewrite !(digit_not (digit_char d)); auto using digit_char_is.
Qed.

Lemma read_int_plain n : numeral_ok n -> plain n -> exists z, read_int (numeral_text n) = Ok z /\ (inject_Z z == numeral_value n)%Q.
Proof.
  intros OK [PF PE]. unfold read_int. rewrite (drop_none (numeral_text n)) by exact (entry_no_underscore (Num n) OK).
  assert (T : unsigned_text n = map digit_char (nu_int n)) by (unfold unsigned_text, mantissa_text, exponent_text; now rewrite PF, PE, !List.app_nil_r).
  destruct OK as [DI _ NE _]. unfold frac_digits in NE. rewrite PF, List.app_nil_r in NE.
  assert (S1 : sign (numeral_text n) = (nu_neg n, map digit_char (nu_int n))).
  { unfold numeral_text. rewrite T. destruct (nu_neg n); [reflexivity|]. cbn [app]. rewrite <- (List.app_nil_r (map digit_char (nu_int n))) at 1. rewrite sign_digits by auto. now rewrite List.app_nil_r. }
  rewrite S1, all_digits_text, digits_value_text by auto. eexists. split; [reflexivity|].
  assert (U : (unsigned_value n == inject_Z (positional (nu_int n)))%Q).
  { unfold unsigned_value, frac_digits. rewrite PF, PE. cbn [positional List.length Z.of_nat]. change (10 ^ 0)%Q with 1%Q. unfold Qdiv, Qeq. cbn. ring. }
  unfold numeral_value, signed. destruct (nu_neg n); rewrite U; [now rewrite inject_Z_opp|reflexivity].
Qed.

Lemma lower_digit a : is_digit a = true -> lower a = a.
Proof.
  Transparent is_digit. unfold is_digit. Opaque is_digit. intros H. apply andb_true_iff in H as [A B]. apply Nat.leb_le in A, B.
  unfold lower. destruct (Nat.leb_spec 65 (nat_of_ascii a)); [lia|]. reflexivity.
Qed.

Lemma not_word a r (s : string) : (forall b t, word s = b :: t -> b <> a) -> (s = "" -> False) -> text_eqb (a :: r) (word s) = false.
Proof. intros H N. apply text_eqb_false. intros E. exact (H a r (eq_sym E) eq_refl). Qed.

Lemma frac_scaled n : numeral_ok n ->
  (inject_Z (digits_value (map digit_char (nu_int n) ++ map digit_char (frac_digits n))) / inject_Z (10 ^ Z.of_nat (List.length (map digit_char (frac_digits n)))) ==
   inject_Z (positional (nu_int n)) + inject_Z (positional (frac_digits n)) / 10 ^ Z.of_nat (List.length (frac_digits n)))%Q.
Proof.
  intros [DI DF _ _]. rewrite <- map_app, digits_value_text by (apply Forall_app; auto). rewrite positional_app, map_length, inject_Z_plus, inject_Z_mult, <- Q10.
  field. intros H. assert (0 < 10 ^ Z.of_nat (List.length (frac_digits n)))%Z by apply pow10_pos. unfold Qeq in H. cbn in H. lia.
Qed.

Lemma unsigned_first n : numeral_ok n -> exists a r, unsigned_text n = a :: r /\ (is_digit a = true \/ a = "."%char).
Proof.
  intros [DI DF NE _]. unfold unsigned_text, mantissa_text. unfold frac_digits in *. destruct DI as [|d ds L D]; cbn [map app] in *.
  - destruct (nu_frac n) as [f|]; [|cbn in NE; congruence]. eexists _, _. cbn. split; [reflexivity|]. now right.
  - eexists _, _. split; [reflexivity|]. left. now apply digit_char_is.
Qed.

Lemma signed_value n q : (q == unsigned_value n)%Q -> ((if nu_neg n then - q else q) == numeral_value n)%Q.
Proof. intros E. unfold numeral_value. destruct (nu_neg n); now rewrite E. Qed.

Lemma decimal_value n e : numeral_ok n -> e = match nu_exp n with Some (neg, e) => if neg then (- positional e)%Z else positional e | None => 0%Z end ->
  (decimal (nu_neg n) (map digit_char (nu_int n)) (map digit_char (frac_digits n)) e == numeral_value n)%Q.
Proof.
  intros OK ->. rewrite <- (signed_value n _ (Qeq_refl _)). unfold unsigned_value. pose proof (frac_scaled n OK) as F. unfold decimal, signed.
  destruct (nu_neg n); [rewrite inject_Z_opp|]; rewrite <- F; [unfold Qdiv; ring|reflexivity].
Qed.

Lemma read_float_numeral n : numeral_ok n -> exists q, read_float (numeral_text n) = Ok (Fin q) /\ (q == numeral_value n)%Q.
Proof.
  intros OK. unfold read_float. rewrite (drop_none (numeral_text n)) by exact (entry_no_underscore (Num n) OK).
  destruct (unsigned_first n OK) as (a & r & U & A).
  assert (Na : Ascii.eqb a "-" = false /\ Ascii.eqb a "+" = false).
  { destruct A as [A| ->]; [|split; reflexivity]. split; apply digit_not; auto. }
  assert (S1 : sign (numeral_text n) = (nu_neg n, unsigned_text n)).
  { unfold numeral_text. rewrite U. destruct (nu_neg n); [reflexivity|]. cbn [app sign]. destruct Na as [-> ->]. reflexivity. }
  rewrite S1. assert (L : lower a = a) by (destruct A as [A| ->]; [now apply lower_digit|reflexivity]).
  assert (W : forall s, In s ["inf"; "infinity"; "nan"] -> text_eqb (map lower (unsigned_text n)) (word s) = false).
  { intros s I. rewrite U. cbn [map]. rewrite L. apply not_word.
    - intros b t E X. subst b. cbn in I. decompose [or] I; subst; cbn in E; try contradiction; injection E as <- _; (destruct A as [A|A]; [change (false = true) in A|]; discriminate).
    - intros ->. cbn in I. decompose [or] I; try contradiction; discriminate. }
  rewrite !W by (cbn; auto). cbn [orb].
  pose proof OK as [DI DF NE DE]. unfold unsigned_text, mantissa_text.
  assert (X : exists X : text, X = exponent_text n /\ (match X with b :: _ => is_digit b = false | [] => True end)).
  { exists (exponent_text n). split; auto. unfold exponent_text. destruct (nu_exp n) as [[neg e]|]; [reflexivity|exact I]. }
  destruct X as (X & EX & HX).
  assert (FIN : exists q, match X with
       | [] => Ok (Fin (decimal (nu_neg n) (map digit_char (nu_int n)) (map digit_char (frac_digits n)) 0))
       | a0 :: r' => if Ascii.eqb (lower a0) "e" then let (eneg, d) := sign r' in
            if all_digits d then Ok (Fin (decimal (nu_neg n) (map digit_char (nu_int n)) (map digit_char (frac_digits n)) (signed eneg (digits_value d)))) else Err ValueError
            else Err ValueError end = Ok (Fin q) /\ (q == numeral_value n)%Q).
  { unfold exponent_text in EX. destruct (nu_exp n) as [[neg e]|] eqn:E; subst X.
    - destruct (DE neg e eq_refl) as [De Ne]. change (Ascii.eqb (lower "e") "e") with true. cbn match.
      assert (S2 : sign ((if neg then "-"%char else "+"%char) :: map digit_char e) = (neg, map digit_char e)) by (destruct neg; reflexivity).
      rewrite S2, all_digits_text, digits_value_text by auto. eexists. split; [reflexivity|]. apply decimal_value; auto. rewrite E. reflexivity.
    - eexists. split; [reflexivity|]. apply decimal_value; auto. now rewrite E. }
  destruct FIN as (q & FQ & EQ). exists q. split; auto. rewrite <- EX. unfold frac_digits in *. destruct (nu_frac n) as [f|] eqn:EF.
  - rewrite <- app_assoc. rewrite take_digits_all by (auto; reflexivity). cbn [app]. rewrite Ascii.eqb_refl, take_digits_all by auto.
    destruct (map digit_char (nu_int n) ++ map digit_char f) eqn:Z; [|exact FQ]. rewrite <- map_app in Z. destruct (nu_int n ++ f); [congruence|discriminate].
  - rewrite List.app_nil_r. rewrite take_digits_all by auto. rewrite List.app_nil_r in NE.
    assert (Y : match X with a0 :: r' => if Ascii.eqb a0 "." then take_digits r' else ([], X) | [] => ([], []) end = ([], X)).
    { subst X. unfold exponent_text. destruct (nu_exp n) as [[neg e]|]; reflexivity. }
    rewrite Y, List.app_nil_r. destruct (nu_int n) as [|d ds]; [congruence|]. exact FQ.
Qed.

Lemma read_float_entry e : entry_ok e -> exists f, read_float (entry_text e) = Ok f /\ float_is e f.
Proof.
  destruct e as [n|neg]; intros OK.
  - destruct (read_float_numeral n OK) as (q & E & H). exists (Fin q). auto.
  - exists (Inf neg). split; [|reflexivity]. destruct neg; reflexivity.
Qed.
Lemma read_float_final e suf : entry_ok e -> Forall (eq ";"%char) suf -> exists f, read_float (no_semicolons (entry_text e ++ suf)) = Ok f /\ float_is e f.
Proof. intros OK F. rewrite strip_final by auto. now apply read_float_entry. Qed.

Lemma whole_exact z q : (inject_Z z == q)%Q -> whole_part z q.
Proof. intros E. split; intros _; rewrite <- E; (split; [|]); try apply Qle_refl; rewrite <- Zlt_Qlt; lia. Qed.
Lemma whole_unique z z' q : whole_part z q -> whole_part z' q -> z = z'.
Proof.
  intros [A B] [A' B']. destruct (Qlt_le_dec q 0) as [L|L].
  - apply Qlt_le_weak in L. destruct (B L) as [X Y], (B' L) as [X' Y']. pose proof (Qlt_le_trans _ _ _ X Y') as U. pose proof (Qlt_le_trans _ _ _ X' Y) as W. rewrite <- Zlt_Qlt in U, W. lia.
  - destruct (A L) as [X Y], (A' L) as [X' Y']. pose proof (Qle_lt_trans _ _ _ X Y') as U. pose proof (Qle_lt_trans _ _ _ X' Y) as W. rewrite <- Zlt_Qlt in U, W. lia.
Qed.
Lemma whole_integer z q n : whole_part z q -> (q == inject_Z n)%Q -> (inject_Z z == q)%Q.
Proof. intros W E. rewrite (whole_unique z n q W); [now symmetry|]. apply whole_exact. now symmetry. Qed.
Lemma whole_compat z q q' : (q == q')%Q -> whole_part z q -> whole_part z q'.
Proof. intros E. unfold whole_part. now rewrite !E. Qed.
Lemma quot_whole q : whole_part (Z.quot (Qnum q) (Zpos (Qden q))) q.
Proof.
  destruct q as [a d]. unfold whole_part, Qle, Qlt. cbn [Qnum Qden inject_Z]. rewrite ?Z.mul_1_r, ?Z.mul_0_l.
  pose proof (Z.quot_rem' a (Zpos d)) as E. split; intros H.
  - pose proof (Z.rem_bound_pos a (Zpos d) H ltac:(lia)). set (z := Z.quot a (Zpos d)) in *. nia.
  - destruct (Z.eq_dec a 0) as [->|N].
    + cbn. lia.
    + pose proof (Z.rem_bound_abs a (Zpos d) ltac:(lia)) as B1. assert (Z.rem a (Zpos d) <= 0)%Z by (apply Z.rem_nonpos; lia). set (z := Z.quot a (Zpos d)) in *. nia.
Qed.

Lemma read_whole_ok V n : numeral_ok n -> (if v_truncates V then True else plain n) ->
  exists z, read_whole V (numeral_text n) = Ok z /\ whole_part z (numeral_value n).
Proof.
  unfold read_whole. intros OK H. destruct (v_truncates V).
  - destruct (read_float_numeral n OK) as (q & E & EQ). eexists. unfold read_truncated. rewrite E. cbn [rbind]. split; [reflexivity|].
    eapply whole_compat; [exact EQ|]. apply quot_whole.
  - destruct (read_int_plain n OK H) as (z & E & EQ). exists z. split; auto. now apply whole_exact.
Qed.

(** ** Rows *)

(** The entries are appended to the first columns. *)
Fixpoint extend (vs : list value) (t : table) : table :=
  match vs, t with
  | v :: vs', (c, l) :: t' => (c, l ++ [v]) :: extend vs' t'
  | _, _ => t
  end.

Lemma extend_names vs t : map fst (extend vs t) = map fst t.
Proof. revert vs. induction t as [|(c, l) t IH]; intros [|v vs]; cbn; auto. now rewrite IH. Qed.
Lemma extend_nil t : extend [] t = t. Proof. now destruct t. Qed.

Lemma d_set_mid {X} pre c (l l' : X) t : ~ In c (map fst pre) -> d_set c l' (pre ++ (c, l) :: t) = pre ++ (c, l') :: t.
Proof.
  induction pre as [|(d, m) pre IH]; cbn; intros N.
  - now rewrite String.eqb_refl.
  - destruct (String.eqb_spec d c) as [->|]; [destruct N; now left|]. rewrite IH; auto.
Qed.
Lemma d_get_mid {X} pre c (l : X) t : ~ In c (map fst pre) -> d_get c (pre ++ (c, l) :: t) = Some l.
Proof.
  unfold d_get. induction pre as [|(d, m) pre IH]; cbn; intros N.
  - now rewrite String.eqb_refl.
  - destruct (String.eqb_spec d c) as [->|]; [destruct N; now left|]. apply IH; auto.
Qed.

Section Copy.
Variable V : variant.

Lemma read_row_from ints last : forall t pre ws, NoDup (map fst (pre ++ t)) ->
  foldM (fun t wc => do v <- cell V ints last (snd wc) (fst wc); append (snd wc) v t) (combine ws (map fst t)) (pre ++ t) =
  do vs <- mapM (fun wc => cell V ints last (snd wc) (fst wc)) (combine ws (map fst t)); Ok (pre ++ extend vs t).
Proof.
  induction t as [|(c, l) t IH]; intros pre ws N.
  - cbn [map combine]. destruct ws; reflexivity.
  - destruct ws as [|w ws]; [cbn; reflexivity|]. cbn [map fst combine foldM mapM snd].
    destruct (cell V ints last c w) as [v|e]; cbn [rbind]; [|reflexivity]. assert (Nc : ~ In c (map fst pre)).
    { rewrite map_app in N. cbn [map fst] in N. apply NoDup_remove_2 in N. intros I. apply N. rewrite in_app_iff. auto. }
    unfold append. rewrite d_get_mid, d_set_mid by auto. cbn [rbind].
    assert (A : forall x, pre ++ (c, l ++ [v]) :: x = (pre ++ [(c, l ++ [v])]) ++ x) by (intros; now rewrite <- app_assoc).
    rewrite A, IH.
    + destruct (mapM _ _); cbn [rbind]; [|reflexivity]. cbn [extend]. now rewrite <- A.
    + rewrite <- A. rewrite map_app in *. cbn [map fst] in *. exact N.
Qed.
Lemma read_row_eq ints last cols t ws : map fst t = cols -> NoDup cols ->
  read_row V ints last cols ws t = do vs <- mapM (fun wc => cell V ints last (snd wc) (fst wc)) (combine ws cols); Ok (extend vs t).
Proof. intros <- N. exact (read_row_from ints last t [] ws N). Qed.

(** The slack bus after a row. *)
Definition slack_of (ws : list text) (s : option Z) : option Z :=
  match ws with
  | w0 :: w1 :: _ =>
    match read_whole V w1, read_whole V w0 with Ok ty, Ok z => if Z.eqb ty 3 then Some z else s | _, _ => s end
  | _ => s
  end.
Definition bus_cell (wc : text * string) : res value := cell V ["BUS_I"; "BUS_TYPE"; "BUS_AREA"; "ZONE"] "VMIN" (snd wc) (fst wc).

Definition bus_step (ws : list text) (st : table * option Z) (wc : text * string) : res (table * option Z) :=
    let '(w, c) := wc in
    if String.eqb c "BUS_TYPE" then
      do ty <- read_whole V w;
      if Z.eqb ty 3 then
        match ws with
        | w0 :: _ => do s <- read_whole V w0; do t <- append c (VI ty) (fst st); Ok (t, Some s)
        | [] => Err IndexError
        end
      else do v <- cell V ["BUS_I"; "BUS_TYPE"; "BUS_AREA"; "ZONE"] "VMIN" c w; do t <- append c v (fst st); Ok (t, snd st)
    else do v <- cell V ["BUS_I"; "BUS_TYPE"; "BUS_AREA"; "ZONE"] "VMIN" c w; do t <- append c v (fst st); Ok (t, snd st).
Lemma bus_row_steps ws st : bus_row V ws st = foldM (bus_step ws) (combine ws bus_columns) st.
Proof. reflexivity. Qed.
Lemma bus_rest ws s : forall l t, (forall w c, In (w, c) l -> c <> "BUS_TYPE") ->
  foldM (bus_step ws) l (t, s) = do t' <- foldM (fun t wc => do v <- bus_cell wc; append (snd wc) v t) l t; Ok (t', s).
Proof.
  induction l as [|(w, c) l IH]; intros t N; [reflexivity|]. cbn [foldM]. unfold bus_step at 1. cbn [fst snd]. destruct (String.eqb_spec c "BUS_TYPE") as [->|]; [now destruct (N w "BUS_TYPE" (or_introl eq_refl))|].
  unfold bus_cell at 1. cbn [fst snd]. destruct (cell _ _ _ c w); cbn [rbind]; [|reflexivity]. destruct (append c a t); cbn [rbind]; [|reflexivity].
  apply IH. intros w' c' I. apply (N w'). now right.
Qed.

Lemma combine_names {A} : forall (ws : list A) cols w (c : string), In (w, c) (combine ws cols) -> In c cols.
Proof. intros ws cols w c I. now apply in_combine_r in I. Qed.

Lemma bus_row_eq ws t s : map fst t = bus_columns ->
  bus_row V ws (t, s) = do vs <- mapM bus_cell (combine ws bus_columns); Ok (extend vs t, slack_of ws s).
Proof.
  intros E. assert (N : NoDup bus_columns) by (unfold bus_columns; repeat constructor; cbn; intuition discriminate).
  pose proof (read_row_eq ["BUS_I"; "BUS_TYPE"; "BUS_AREA"; "ZONE"] "VMIN" bus_columns t ws E N) as R.
  change (mapM (fun wc => cell V ["BUS_I"; "BUS_TYPE"; "BUS_AREA"; "ZONE"] "VMIN" (snd wc) (fst wc)) (combine ws bus_columns)) with (mapM bus_cell (combine ws bus_columns)) in R.
  unfold read_row in R.
  change (fun t wc => do v <- cell V ["BUS_I"; "BUS_TYPE"; "BUS_AREA"; "ZONE"] "VMIN" (snd wc) (fst wc); append (snd wc) v t)
    with (fun (t : table) (wc : text * string) => do v <- bus_cell wc; append (snd wc) v t) in R.
  assert (G : bus_row V ws (t, s) = do t' <- foldM (fun (t : table) (wc : text * string) => do v <- bus_cell wc; append (snd wc) v t) (combine ws bus_columns) t; Ok (t', slack_of ws s)).
  2:{ rewrite G, R. destruct (mapM bus_cell (combine ws bus_columns)); reflexivity. }
  clear R. rewrite bus_row_steps. destruct ws as [|w0 ws0]; [reflexivity|]. destruct ws0 as [|w1 ws1].
  - unfold bus_columns. cbn [combine]. rewrite bus_rest; [reflexivity|]. intros w c [I|[]]. now injection I as <- <-.
  - unfold bus_columns at 1 2. cbn [combine]. set (cols := ["PD"; "QD"; "GS"; "BS"; "BUS_AREA"; "VM"; "VA"; "BASE_KV"; "ZONE"; "VMAX"; "VMIN"]). cbn [foldM fst snd]. unfold bus_step at 1. cbn [fst snd].
    change (String.eqb "BUS_I" "BUS_TYPE") with false. cbn match. unfold bus_cell at 1. cbn [fst snd].
    assert (C0 : cell V ["BUS_I"; "BUS_TYPE"; "BUS_AREA"; "ZONE"] "VMIN" "BUS_I" w0 = do z <- read_whole V w0; Ok (VI z)) by reflexivity.
    assert (C1 : cell V ["BUS_I"; "BUS_TYPE"; "BUS_AREA"; "ZONE"] "VMIN" "BUS_TYPE" w1 = do z <- read_whole V w1; Ok (VI z)) by reflexivity.
    rewrite C0. unfold slack_of. destruct (read_whole V w0) as [z0|e0] eqn:E0; cbn [rbind]; [|reflexivity].
    destruct (append "BUS_I" (VI z0) t) as [t1|e]; cbn [rbind]; [|reflexivity]. unfold bus_step at 1, bus_cell at 1. cbn [fst snd]. change (String.eqb "BUS_TYPE" "BUS_TYPE") with true. cbn match. rewrite C1.
    destruct (read_whole V w1) as [ty|e1] eqn:E1; cbn [rbind]; [|reflexivity].
    assert (NB : forall w c, In (w, c) (combine ws1 cols) -> c <> "BUS_TYPE").
    { intros w c I. apply combine_names in I. intros ->. cbn in I. intuition discriminate. }
    rewrite ?E0. destruct (Z.eqb ty 3); cbn [rbind].
    + destruct (append "BUS_TYPE" (VI ty) t1) as [t2|e]; cbn [rbind]; [|reflexivity]. rewrite bus_rest by exact NB. reflexivity.
    + destruct (append "BUS_TYPE" (VI ty) t1) as [t2|e]; cbn [rbind]; [|reflexivity]. rewrite bus_rest by exact NB. reflexivity.
Qed.
End Copy.
