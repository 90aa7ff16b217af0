(** The lines of the writer are the sections of a case file. *)
From Coq Require Import List String Ascii Bool Arith ZArith QArith Lia DecimalString DecimalNat DecimalFacts.
From Verif Require Import Base Container GraphDataProofs Reader NumeralSpec NumeralProofs MatFile MatFileSpec MatFileProofs Converter ConverterSpec ConverterProofs ConverterFile
  MatWriter MatWriterSpec.
Import ListNotations.
Open Scope string_scope.
Open Scope nat_scope.
Open Scope list_scope.

Local Ltac sp := repeat match goal with |- _ /\ _ => split end.

(** ** Whole numbers as numerals *)

Fixpoint uint_digits (u : Decimal.uint) : list nat :=
  match u with
  | Decimal.Nil => []
  | Decimal.D0 r => 0 :: uint_digits r | Decimal.D1 r => 1 :: uint_digits r | Decimal.D2 r => 2 :: uint_digits r
  | Decimal.D3 r => 3 :: uint_digits r | Decimal.D4 r => 4 :: uint_digits r | Decimal.D5 r => 5 :: uint_digits r
  | Decimal.D6 r => 6 :: uint_digits r | Decimal.D7 r => 7 :: uint_digits r | Decimal.D8 r => 8 :: uint_digits r
  | Decimal.D9 r => 9 :: uint_digits r
  end.
Lemma uint_text u : word (NilEmpty.string_of_uint u) = map digit_char (uint_digits u).
Proof. induction u; cbn [NilEmpty.string_of_uint uint_digits map]; [reflexivity|..]; unfold word in *; cbn [list_ascii_of_string]; rewrite IHu; reflexivity. Qed.
Lemma uint_below u : digits (uint_digits u).
Proof. unfold digits. induction u; cbn [uint_digits]; constructor; auto; lia. Qed.
Lemma uint_value u : forall acc, Z.of_nat (Nat.of_uint_acc u acc) = (Z.of_nat acc * 10 ^ Z.of_nat (List.length (uint_digits u)) + positional (uint_digits u))%Z.
Proof.
  induction u; intros acc; cbn [Nat.of_uint_acc uint_digits List.length positional]; [cbn; lia|..];
    rewrite IHu, (Nat2Z.inj_succ (List.length (uint_digits u))), Z.pow_succ_r by lia; rewrite Nat.tail_mul_spec; nia.
Qed.
Lemma nat_digits n : exists ds, digits ds /\ ds <> [] /\ word (str_nat n) = map digit_char ds /\ positional ds = Z.of_nat n.
Proof.
  exists (uint_digits (Nat.to_uint n)). sp.
  - apply uint_below.
  - assert (X : Nat.to_uint n <> Decimal.Nil).
    { intros E. pose proof (Unsigned.of_to n) as O. rewrite E in O. cbn in O. subst n. discriminate E. }
    destruct (Nat.to_uint n); cbn; congruence.
  - apply uint_text.
  - pose proof (uint_value (Nat.to_uint n) 0) as E. change (Nat.of_uint_acc (Nat.to_uint n) 0) with (Nat.of_uint (Nat.to_uint n)) in E. rewrite Unsigned.of_to in E. lia.
Qed.
Lemma int_numeral z : exists n, numeral_ok n /\ plain n /\ word (str_Z z) = numeral_text n /\ (numeral_value n == inject_Z z)%Q.
Proof.
  assert (G : forall neg m, exists n, numeral_ok n /\ plain n /\ numeral_text n = (if neg : bool then ["-"%char] else []) ++ word (str_nat m) /\
     (numeral_value n == inject_Z (if neg then - Z.of_nat m else Z.of_nat m))%Q).
  { intros neg m. destruct (nat_digits m) as (ds & D & NE & E & P). exists (mkNum neg ds None None). sp.
    - split; [exact D|exact (Forall_nil _)|cbn; now rewrite List.app_nil_r|discriminate].
    - split; reflexivity.
    - unfold numeral_text, unsigned_text, mantissa_text, exponent_text. cbn [nu_neg nu_int nu_frac nu_exp]. now rewrite !List.app_nil_r, E.
    - unfold numeral_value, unsigned_value. cbn [nu_neg nu_int nu_frac nu_exp frac_digits positional List.length]. rewrite P.
      assert (X : ((inject_Z (Z.of_nat m) + inject_Z 0 / 10 ^ Z.of_nat 0) * 10 ^ 0 == inject_Z (Z.of_nat m))%Q) by (change (10 ^ Z.of_nat 0)%Q with 1%Q; change (10 ^ 0)%Q with 1%Q; change (inject_Z 0) with 0%Q; field).
      destruct neg; rewrite X; [|reflexivity]. now rewrite inject_Z_opp. }
  unfold str_Z. destruct (Z.ltb_spec z 0).
  - destruct (G true (Z.to_nat (- z))) as (n & A & B & C & D). exists n. sp; auto. rewrite D. now replace (- Z.of_nat (Z.to_nat (- z)))%Z with z by lia.
  - destruct (G false (Z.to_nat z)) as (n & A & B & C & D). exists n. sp; auto. rewrite D. now rewrite Z2Nat.id by lia.
Qed.

(** ** Words of a line *)

Definition solid (w : text) : Prop := w <> [] /\ Forall (fun a => ~ blank a) w.
Lemma written_chunks : forall (ps : list (text * text)) t, Forall (fun p => Forall blank (fst p) /\ fst p <> [] /\ solid (snd p)) ps -> Forall blank t ->
  written (flat_map (fun p => fst p ++ snd p) ps ++ t) (map snd ps).
Proof.
  induction ps as [|(b, w) ps IH]; intros t F T; cbn [flat_map map app fst snd]; [now constructor|].
  inversion F as [|? ? (B & NB & NW & SW) F']; subst. cbn [fst snd] in *. rewrite <- !app_assoc. constructor; auto.
  destruct ps as [|(b', w') ps]; [now left|]. right. inversion F' as [|? ? (B' & NB' & _) _]; subst. cbn [fst snd] in *. destruct b' as [|a b']; [congruence|].
  cbn [flat_map app fst snd]. inversion B'; subst. eauto.
Qed.
Lemma numeral_solid n : numeral_ok n -> solid (numeral_text n).
Proof.
  intros OK. split.
  - destruct (unsigned_first n OK) as (a & r & E & _). unfold numeral_text. rewrite E. destruct (nu_neg n); discriminate.
  - apply Forall_forall. intros a I. apply not_blank. apply (numeral_chars n a OK) in I as [D|[->|[->|[->| ->]]]]; try reflexivity. unfold is_digit, is_space in *.
    apply andb_prop in D as [D1 D2]. apply Nat.leb_le in D1, D2. destruct (Nat.leb_spec 28 (nat_of_ascii a)); destruct (Nat.leb_spec (nat_of_ascii a) 32); destruct (Nat.leb_spec (nat_of_ascii a) 13); destruct (Nat.leb_spec 9 (nat_of_ascii a)); cbn; auto; lia.
Qed.
Lemma solid_semicolon w : solid w -> solid (w ++ [";"%char]).
Proof. intros [A B]. split; [destruct w; discriminate|]. apply Forall_app. split; auto. constructor; [|constructor]. apply not_blank. reflexivity. Qed.
Lemma tab_blank : Forall blank [ascii_of_nat 9].
Proof. constructor; [|constructor]. apply blank_space. reflexivity. Qed.
Lemma sixteen_blank : Forall blank sixteen.
Proof. unfold sixteen. apply Forall_forall. intros a I. apply repeat_spec in I. subst a. apply blank_space. reflexivity. Qed.

(** ** Values *)

Section Repr.
Variable repr : Q -> text.
Hypothesis RESP : respects repr.

(** The numeral that stands for the value. *)
Definition numeral_of (v : pyval) (q : Q) (n : numeral) : Prop := numeral_ok n /\ show repr v = numeral_text n /\ (numeral_value n == q)%Q.
Lemma writable_numeral v : writable repr v -> exists n, numeral_of v (num v) n /\ (whole v -> plain n).
Proof.
  destruct v as [|b|z|q]; cbn [writable]; intros W; try contradiction.
  - destruct (int_numeral z) as (n & A & B & C & D). exists n. split; [|auto]. split; auto.
  - destruct W as (n & A & B & C). exists n. split; [split; auto|]. intros (z & E). discriminate.
Qed.
Lemma whole_writable v : whole v -> writable repr v.
Proof. intros (z & ->). exact I. Qed.
Lemma scaled_value base v : writable repr base -> scalable repr base v -> exists w n, times v base = Ok w /\ numeral_of w (num v * num base) n.
Proof.
  intros WB (NV & SC). assert (P : forall a b, v = PInt a -> base = PInt b -> exists w n, times v base = Ok w /\ numeral_of w (num v * num base) n).
  { intros a b -> ->. exists (PInt (a * b)). destruct (int_numeral (a * b)) as (n & A & B & C & D). exists n. split; [reflexivity|]. unfold numeral_of. sp; auto. }
  assert (F : forall x, times v base = Ok (PFloat x) -> (x == num v * num base)%Q -> printed repr (num v * num base) -> exists w n, times v base = Ok w /\ numeral_of w (num v * num base) n).
  { intros x E EQ (n & A & B & C). exists (PFloat x), n. split; auto. unfold numeral_of. sp; auto. cbn [show]. now rewrite (RESP _ _ EQ). }
  destruct v as [|vb|vz|vq]; cbn [num_of] in NV; try congruence; destruct base as [|bb|bz|bq]; cbn [writable] in WB; try contradiction.
  - eauto.
  - destruct SC as [(_ & (z & Z)) | PR]; [discriminate|]. eapply F; [reflexivity|reflexivity|exact PR].
  - destruct SC as [((z & Z) & _) | PR]; [discriminate|]. eapply F; [reflexivity|reflexivity|exact PR].
  - destruct SC as [((z & Z) & _) | PR]; [discriminate|]. eapply F; [reflexivity|reflexivity|exact PR].
Qed.
Lemma zero_numeral : exists n, numeral_of zero 0 n /\ plain n.
Proof. destruct (int_numeral 0) as (n & A & B & C & D). exists n. split; auto. split; auto. Qed.

(** ** Rows *)

(** The words of a row: each value with its number and its numeral. *)
Definition cell_of (vq : pyval * Q) (n : numeral) : Prop := numeral_of (fst vq) (snd vq) n.
Definition row_means (qs : list Q) (r : list entry) : Prop := Forall2 (fun q e => exists n, e = Num n /\ (numeral_value n == q)%Q) qs r.

Lemma cells_means vqs ns : Forall2 cell_of vqs ns -> row_means (map snd vqs) (map Num ns).
Proof. induction 1 as [|vq n vqs ns (A & B & C) F IH]; cbn; constructor; eauto. Qed.
Lemma cells_words vqs ns : Forall2 cell_of vqs ns -> map (fun vq => show repr (fst vq)) vqs = map numeral_text ns.
Proof. induction 1 as [|vq n vqs ns (A & B & C) F IH]; cbn [map]; [reflexivity|]; now rewrite B, IH. Qed.
Lemma cells_ok vqs ns : Forall2 cell_of vqs ns -> Forall numeral_ok ns.
Proof. induction 1 as [|vq n vqs ns (A & B & C) F IH]; constructor; auto. Qed.

(** Numerals with semicolons behind the last one; the columns that are whole numbers have plain numerals. *)
Lemma numerals_row lax cols ns l suf extra : written l ((map numeral_text (removelast ns) ++ [numeral_text (last ns (mkNum false [] None None)) ++ suf]) ++ extra) ->
  Forall (eq ";"%char) suf -> ns <> [] -> Forall numeral_ok ns -> List.length ns = List.length cols -> (forall j c, nth_error cols j = Some (c, Final) -> S j = List.length cols) ->
  (exists c, nth_error cols (List.length cols - 1) = Some (c, Final)) ->
  (forall j c n, nth_error cols j = Some (c, Whole) -> nth_error ns j = Some n -> plain n) -> row_ok lax cols (map Num ns) l.
Proof.
  intros W M NE OK L FI LA PL. destruct (exists_last NE) as (ms & z & ->). rewrite removelast_last, last_last in W.
  apply Forall_app in OK as [OKm OKz]. inversion OKz as [|? ? Oz _]; subst. rewrite app_length in L. cbn in L.
  exists (map numeral_text ms ++ [numeral_text z ++ suf]), extra. rewrite map_length, !app_length, map_length. cbn [List.length]. sp; auto.
  intros j c k e w Ec Ee Ew. destruct (Nat.lt_ge_cases j (List.length ms)) as [Lj|Gj].
  - rewrite nth_error_app1 in Ew by (rewrite map_length; auto). rewrite nth_error_map in Ew, Ee. rewrite nth_error_app1 in Ee by auto.
    destruct (nth_error ms j) as [n|] eqn:En; [|discriminate]. cbn in Ee, Ew. injection Ee as <-. injection Ew as <-.
    assert (On : numeral_ok n) by (rewrite Forall_forall in OKm; apply OKm; eapply nth_error_In; eauto).
    destruct k; cbn [holds].
    + exists n. sp; auto. destruct lax; [exact I|]. apply (PL j c n); auto. rewrite nth_error_app1; auto.
    + auto.
    + apply FI in Ec. lia.
  - assert (j = List.length ms).
    { assert (j < List.length cols) by (apply nth_error_Some; congruence). lia. }
    subst j. destruct LA as (cl & LA). replace (List.length cols - 1) with (List.length ms) in LA by lia. rewrite Ec in LA. injection LA as <- ->.
    rewrite nth_error_map, nth_error_app2, Nat.sub_diag in Ee by lia. cbn in Ee. injection Ee as <-.
    rewrite nth_error_app2 in Ew by (rewrite map_length; lia). rewrite map_length, Nat.sub_diag in Ew. cbn in Ew. injection Ew as <-. cbn [holds]. split; [exact Oz|]. exists suf. auto.
Qed.

(** The text of a line. *)
Lemma written_blanks b l ws : Forall blank b -> written l ws -> written (b ++ l) ws.
Proof.
  intros B W. destruct W as [b' B'|b' w l ws B' NW SW W Z]; [constructor; now apply Forall_app|]. rewrite app_assoc. constructor; auto. now apply Forall_app.
Qed.
Definition starts_blank (l : text) (ws : list text) : Prop := ws = [] \/ exists a l', l = a :: l' /\ blank a.
Lemma written_tabbed vs l ws : Forall (fun v => solid (show repr v)) vs -> written l ws -> starts_blank l ws -> written (tabbed repr vs ++ l) (map (show repr) vs ++ ws).
Proof.
  intros F W SB. induction F as [|v vs [NE SV] F IH]; [exact W|]. cbn [tabbed flat_map map app]. rewrite <- app_assoc.
  apply (written_cons [ascii_of_nat 9] (show repr v)); auto; [apply tab_blank|]. destruct vs as [|v' vs].
  - cbn [flat_map map app] in *. exact SB.
  - right. cbn [flat_map map app]. eexists _, _. split; [reflexivity|]. pose proof tab_blank as T. now inversion T.
Qed.
Lemma written_last v : solid (show repr v) -> written (ascii_of_nat 9 :: show repr v ++ word ";") [show repr v ++ word ";"].
Proof.
  intros SV. apply solid_semicolon in SV as [NE SV]. change [";"%char] with (word ";") in *.
  replace (ascii_of_nat 9 :: show repr v ++ word ";") with ([ascii_of_nat 9] ++ (show repr v ++ word ";") ++ []) by now rewrite List.app_nil_r.
  constructor; auto; [apply tab_blank|constructor; constructor].
Qed.
Lemma tabbed_app a b : tabbed repr (a ++ b) = tabbed repr a ++ tabbed repr b.
Proof. unfold tabbed. apply flat_map_app. Qed.
Lemma last_starts v l ws : starts_blank (ascii_of_nat 9 :: show repr v ++ l) ws.
Proof. right. eexists _, _. split; [reflexivity|]. pose proof tab_blank as T. now inversion T. Qed.
Lemma line_semicolon A B z : Forall (fun v => solid (show repr v)) (A ++ B ++ [z]) ->
  written (tabbed repr A ++ sixteen ++ tabbed repr (B ++ [z]) ++ word ";") (map (show repr) (A ++ B) ++ [show repr z ++ word ";"]).
Proof.
  intros F. apply Forall_app in F as [FA F]. apply Forall_app in F as [FB Fz]. inversion Fz as [|? ? SZ _]; subst. rewrite map_app, <- app_assoc.
  apply written_tabbed; auto; [|right; eexists _, _; split; [reflexivity|apply blank_space; reflexivity]].
  apply written_blanks; [apply sixteen_blank|]. rewrite tabbed_app, <- app_assoc. apply written_tabbed; auto.
  - cbn [tabbed flat_map]. rewrite List.app_nil_r. now apply written_last.
  - cbn [tabbed flat_map]. rewrite List.app_nil_r. apply last_starts.
Qed.
Lemma line_apart A B : Forall (fun v => solid (show repr v)) (A ++ B) ->
  written (tabbed repr A ++ sixteen ++ tabbed repr B ++ sixteen ++ word ";") (map (show repr) (A ++ B) ++ [word ";"]).
Proof.
  intros F. apply Forall_app in F as [FA FB]. rewrite map_app, <- app_assoc.
  apply written_tabbed; auto; [|right; eexists _, _; split; [reflexivity|apply blank_space; reflexivity]].
  apply written_blanks; [apply sixteen_blank|]. apply written_tabbed; auto; [|right; eexists _, _; split; [reflexivity|apply blank_space; reflexivity]].
  rewrite <- (List.app_nil_r (word ";")) at 1. apply written_cons; [apply sixteen_blank|discriminate| |constructor; constructor|now left].
  constructor; [|constructor]. apply not_blank. reflexivity.
Qed.
Lemma line_plain A z : Forall (fun v => solid (show repr v)) (A ++ [z]) -> written (tabbed repr (A ++ [z]) ++ word ";") (map (show repr) A ++ [show repr z ++ word ";"]).
Proof.
  intros F. apply Forall_app in F as [FA Fz]. inversion Fz as [|? ? SZ _]; subst. rewrite tabbed_app, <- app_assoc. apply written_tabbed; auto.
  - cbn [tabbed flat_map]. rewrite List.app_nil_r. now apply written_last.
  - cbn [tabbed flat_map]. rewrite List.app_nil_r. apply last_starts.
Qed.
Lemma cells_solid vqs ns : Forall2 cell_of vqs ns -> Forall (fun v => solid (show repr v)) (map fst vqs).
Proof. induction 1 as [|vq n vqs ns (A & B & C) F IH]; cbn [map]; constructor; auto. rewrite B. now apply numeral_solid. Qed.
Lemma cells_show vqs ns : Forall2 cell_of vqs ns -> map (show repr) (map fst vqs) = map numeral_text ns.
Proof. intros F. rewrite map_map. now apply cells_words. Qed.
Lemma words_last vqs ns A z suf : Forall2 cell_of vqs ns -> map fst vqs = A ++ [z] ->
  map (show repr) A ++ [show repr z ++ suf] = map numeral_text (removelast ns) ++ [numeral_text (last ns (mkNum false [] None None)) ++ suf].
Proof.
  intros F E. pose proof (cells_show _ _ F) as SH. rewrite E, map_app in SH. cbn [map] in SH.
  assert (NE : ns <> []) by (intros ->; destruct (map (show repr) A); discriminate).
  destruct (exists_last NE) as (ms & m & ->). rewrite removelast_last, last_last. rewrite map_app in SH. cbn [map] in SH. apply app_inj_tail in SH as [-> ->]. reflexivity.
Qed.
End Repr.
