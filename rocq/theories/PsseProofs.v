(** Lines, fields and transformers of PSS/E raw files. *)
From Coq Require Import List String Ascii Bool Arith ZArith QArith Qminmax Lqa Lia.
From Verif Require Import Base GraphDataProofs Reader NumeralSpec NumeralProofs MatFile MatFileSpec MatFileProofs Converter ConverterSpec ConverterProofs MatWriterProofs Psse PsseSpec.
Import ListNotations.
Open Scope string_scope.
Open Scope nat_scope.
Open Scope list_scope.

Local Ltac sp := repeat match goal with |- _ /\ _ => split end.

(** ** Fields *)

Lemma cut_from_run sep w : ~ In sep w -> forall cur l, cut_from sep cur (w ++ l) = cut_from sep (cur ++ w) l.
Proof.
  induction w as [|a w IH]; intros N cur l; [now rewrite List.app_nil_r|]. cbn [app cut_from]. destruct (Ascii.eqb_spec a sep) as [->|_]; [destruct N; now left|].
  rewrite IH by (intros I; apply N; now right). now rewrite <- app_assoc.
Qed.
Lemma cut_join ws : ws <> [] -> Forall (fun w => ~ In ","%char w) ws -> cut "," (join ws) = ws.
Proof.
  unfold cut. intros NE F. induction F as [|w ws N F IH]; [congruence|]. destruct ws as [|w' ws].
  - cbn [join]. rewrite <- (List.app_nil_r w) at 1. rewrite cut_from_run by auto. reflexivity.
  - change (join (w :: w' :: ws)) with (w ++ ","%char :: join (w' :: ws)). rewrite cut_from_run by auto. cbn [app cut_from Ascii.eqb]. rewrite IH by discriminate. reflexivity.
Qed.
Lemma line_cut l w ws : line_is l (w :: ws) -> cut "," l = w :: ws.
Proof. intros (F & ->). now apply cut_join. Qed.

Lemma c_blank_space a : c_blank a -> is_c_space a = true.
Proof. unfold c_blank, is_c_space. cbn. generalize (nat_of_ascii a) as n. intros n H. repeat (destruct H as [<-|H]; [reflexivity|]). destruct H. Qed.
Lemma skip_run b l : Forall c_blank b -> skip_blanks (b ++ l) = skip_blanks l.
Proof. induction 1 as [|a b A F IH]; [reflexivity|]. cbn [app skip_blanks]. now rewrite (c_blank_space a A). Qed.
Lemma skip_word w l : w <> [] -> Forall (fun a => is_c_space a = false) w -> skip_blanks (w ++ l) = w ++ l.
Proof. intros NE F. destruct F as [|a w A F]; [congruence|]. cbn [app skip_blanks]. now rewrite A. Qed.
Lemma strip_field b w b' : Forall c_blank b -> Forall c_blank b' -> w <> [] -> Forall (fun a => is_c_space a = false) w -> strip (b ++ w ++ b') = w.
Proof.
  intros B B' NE F. unfold strip. rewrite skip_run by auto. rewrite skip_word by auto. rewrite rev_app_distr, skip_run by (now apply Forall_rev).
  rewrite <- (List.app_nil_r (rev w)), skip_word; [rewrite List.app_nil_r; apply rev_involutive| |now apply Forall_rev]. intros E. apply NE. rewrite <- (rev_involutive w), E. reflexivity.
Qed.

Lemma numeral_strip b n b' : Forall c_blank b -> Forall c_blank b' -> numeral_ok n -> strip (b ++ numeral_text n ++ b') = numeral_text n.
Proof.
  intros B B' OK. destruct (numeral_solid n OK) as (NE & F). apply strip_field; auto. eapply Forall_impl; [|exact F]. intros a N. apply not_blank in N. unfold is_space, is_c_space in *.
  destruct (9 <=? nat_of_ascii a) eqn:A, (nat_of_ascii a <=? 13) eqn:B0, (28 <=? nat_of_ascii a) eqn:C, (nat_of_ascii a <=? 32) eqn:D; cbn in N |- *; try discriminate; apply Nat.eqb_neq; intros E; rewrite E in *; discriminate.
Qed.
Lemma int_field_of w z : int_field w z -> int_of w = Ok z.
Proof.
  intros (b & n & b' & -> & B & B' & OK & P & V). unfold int_of. rewrite numeral_strip by auto. destruct (read_int_plain n OK P) as (z' & E & V'). rewrite E. f_equal. rewrite V in V'. unfold Qeq in V'. cbn in V'. lia.
Qed.
Lemma real_field_of w q : real_field w q -> exists q', float_of w = Ok q' /\ (q' == q)%Q.
Proof.
  intros (b & n & b' & -> & B & B' & OK & V). unfold float_of. rewrite numeral_strip by auto. destruct (read_float_numeral n OK) as (q' & E & V'). rewrite E. exists q'. split; [reflexivity|]. now rewrite V', V.
Qed.
Lemma int_field_chars w z a : int_field w z -> In a w -> c_blank a \/ is_digit a = true \/ a = "-"%char \/ a = "."%char \/ a = "e"%char \/ a = "+"%char.
Proof.
  intros (b & n & b' & -> & B & B' & OK & _) I. rewrite Forall_forall in B, B'. apply in_app_or in I as [I|I]; [auto|]. apply in_app_or in I as [I|I]; [|auto]. right. exact (numeral_chars n a OK I).
Qed.
Lemma int_field_no_slash w z : int_field w z -> ~ In "/"%char w.
Proof.
  intros F I. apply (int_field_chars w z _ F) in I as [I|[I|[I|[I|[I|I]]]]]; try discriminate. unfold c_blank in I. cbn in I. intuition discriminate.
Qed.
Lemma real_field_no_slash w q : real_field w q -> ~ In "/"%char w.
Proof.
  intros (b & n & b' & -> & B & B' & OK & _) I. rewrite Forall_forall in B, B'. assert (X : ~ c_blank "/"%char) by (unfold c_blank; cbn; intuition discriminate).
  apply in_app_or in I as [I|I]; [now apply X, B|]. apply in_app_or in I as [I|I]; [|now apply X, B']. apply (numeral_chars n _ OK) in I. intuition discriminate.
Qed.
Lemma int_at_field ws i w z : nth_error ws i = Some w -> int_field w z -> int_at ws i = Ok z.
Proof. intros E F. unfold int_at, field. rewrite E. cbn [rbind]. now apply int_field_of. Qed.
Lemma float_at_field ws i w q : nth_error ws i = Some w -> real_field w q -> exists q', float_at ws i = Ok q' /\ (q' == q)%Q.
Proof. intros E F. unfold float_at, field. rewrite E. cbn [rbind]. now apply real_field_of. Qed.

Local Ltac ia H := erewrite int_at_field; [|reflexivity|exact H].

Local Ltac fa H q V := match goal with |- context [rbind (float_at ?ws ?i) _] => let E := fresh in destruct (float_at_field ws i _ _ eq_refl H) as (q & E & V); rewrite E; clear E; cbn [rbind] end.

(** A line of data does not end a section. *)
Lemma not_end l w0 ws z : ws <> [] -> line_is l (w0 :: ws) -> int_field w0 z -> ends l = false.
Proof.
  intros NE (F & ->) I. unfold ends. apply text_eqb_false. intros E. inversion F as [|? ? N0 _]; subst. pose proof (int_field_no_slash w0 z I) as NS.
  destruct ws as [|w1 ws]; [congruence|]. change (join (w0 :: w1 :: ws)) with (w0 ++ ","%char :: join (w1 :: ws)) in E.
  destruct w0 as [|a [|b [|c w0]]]; cbn in E; try discriminate. injection E as -> -> ->. apply NS. cbn. auto.
Qed.
Lemma end_ends l : end_line l -> ends l = true.
Proof. intros (more & ->). reflexivity. Qed.

(** ** The header and the buses *)

Lemma header_system l base ver tu ou freq fc : header_is l base ver tu ou freq ->
  version (l :: fc) = Ok (if (Z.eqb ver 31 || Z.eqb ver 33 || Z.eqb ver 34)%bool then Some ver else None) /\
  exists s, parse_system (l :: fc) = Ok s /\ (s_base s == base)%Q /\ (s_frequency s == freq)%Q /\ s_trafo_units s = tu /\ s_other_units s = ou.
Proof.
  intros (w0 & w1 & w2 & w3 & w4 & f & c & more & L & R1 & I2 & I3 & I4 & RF & C). unfold version, parse_system. cbn [field nth_error rbind]. cbv zeta. rewrite (line_cut _ _ _ L). split.
  - ia I2. reflexivity.
  - cbn [field nth_error rbind]. fa R1 b Vb.
    assert (CF : nth_error (cut "/" (f ++ c)) 0 = Some f).
    { unfold cut. rewrite cut_from_run by (eapply real_field_no_slash; eauto). destruct C as [->|(c' & ->)]; reflexivity. }
    destruct (float_at_field _ 0 f freq CF RF) as (q & Eq & Vq). rewrite Eq. cbn [rbind].
    ia I3. cbn [rbind]. ia I4. cbn [rbind]. eexists. split; [reflexivity|]. cbn. auto.
Qed.
Definition bus_is (b b' : Z * Q) : Prop := fst b' = fst b /\ (snd b' == snd b)%Q.
Lemma bus_node b l : bus_line_is b l -> ends l = false /\ exists b', node l = Ok b' /\ bus_is b b'.
Proof.
  intros (w0 & w1 & w2 & more & L & I & R). split; [eapply not_end; [|exact L|exact I]; discriminate|]. unfold node. rewrite (line_cut _ _ _ L). ia I. cbn [rbind].
  fa R v V. eexists. split; [reflexivity|]. split; auto.
Qed.
Lemma nodes_read bs bls e rest : Forall2 bus_line_is bs bls -> end_line e -> exists bs', nodes (bls ++ e :: rest) = Ok bs' /\ Forall2 bus_is bs bs'.
Proof.
  intros F E. induction F as [|b l bs bls H F (bs' & IH & FB)]; cbn [app nodes].
  - rewrite (end_ends e E). exists []. auto.
  - destruct (bus_node b l H) as (NE & b' & N & B). rewrite NE, N, IH. cbn [rbind]. exists (b' :: bs'). auto.
Qed.

(** ** Impedances *)
Section Root.
Variable root : Q -> Q.
Hypothesis ROOT : root_ok root.
Open Scope Q_scope.

Lemma over_ok a b : ~ b == 0 -> over a b = Ok (a / b).
Proof. intros N. unfold over. destruct (Qeq_bool b 0) eqn:E; [apply Qeq_bool_iff in E; contradiction|reflexivity]. Qed.
Lemma to_base_ok base base' cz p r x s : base' == base -> r == p_r p -> x == p_x p -> s == p_s p -> sound base cz p ->
  exists R X, to_base root base' cz r x s = Ok (R, X) /\ impedance root base cz p R X.
Proof.
  intros EB ER EX ES (S2 & S3). unfold to_base. destruct (Z.eqb_spec cz 2) as [->|N2].
  - specialize (S2 eq_refl). destruct (Qeq_bool s base') eqn:E.
    + apply Qeq_bool_iff in E. exists r, x. split; [reflexivity|]. assert (Q1 : p_s p == base) by (rewrite <- ES, E; exact EB). cbn [impedance]. rewrite ER, EX, <- Q1. split; now field.
    + assert (NS : ~ s == 0) by (rewrite ES; exact S2). rewrite (over_ok base' s NS). cbn [rbind]. eexists _, _. split; [reflexivity|]. cbn [impedance]. rewrite ER, EX, EB, ES. split; now field.
  - destruct (Z.eqb_spec cz 3) as [->|N3].
    + destruct (S3 eq_refl) as (NB & P). assert (NM : ~ base' * inject_Z 1000000 == 0). { rewrite EB. intros X. apply Qmult_integral in X as [X|X]; [contradiction|discriminate]. }
      rewrite (over_ok r _ NM). cbn [rbind]. assert (ER' : r / (base' * inject_Z 1000000) == p_r p / (base * inject_Z 1000000)) by (now rewrite ER, EB).
      assert (PP : 0 <= x * x - r / (base' * inject_Z 1000000) * (r / (base' * inject_Z 1000000))) by (rewrite ER', EX; exact P).
      unfold sqrt_of. rewrite (proj2 (Qle_bool_iff _ _) PP). cbn [rbind]. eexists _, _. split; [reflexivity|]. cbn [impedance]. split; [exact ER'|]. apply ROOT. now rewrite EX.
    + exists r, x. split; [reflexivity|]. unfold impedance. destruct cz as [|[[c|c|]|[c|c|]|]|c]; try contradiction; try (split; assumption); try (now destruct N2); now destruct N3.
Qed.
Lemma least3_ok a b c : least (least3 a b c) a b c.
Proof.
  unfold least, least3. destruct (Qle_bool a b) eqn:E1; [apply Qle_bool_iff in E1|assert (~ a <= b) by (intros X; apply Qle_bool_iff in X; congruence)].
  - destruct (Qle_bool a c) eqn:E2; [apply Qle_bool_iff in E2|assert (~ a <= c) by (intros X; apply Qle_bool_iff in X; congruence)]; sp; lra.
  - destruct (Qle_bool b c) eqn:E2; [apply Qle_bool_iff in E2|assert (~ b <= c) by (intros X; apply Qle_bool_iff in X; congruence)]; sp; lra.
Qed.
Lemma capped_ok m x : 0 < m -> exists y, capped m x = Ok y /\ y == Qmin x (100 * m).
Proof.
  intros P. unfold capped. rewrite over_ok by lra. cbn [rbind]. eexists. split; [reflexivity|]. assert (EX : x == x / m * m) by (field; lra). destruct (Qle_bool (x / m) 100) eqn:E.
  - apply Qle_bool_iff in E. symmetry. apply Q.min_l. rewrite EX. apply Qmult_le_compat_r; lra.
  - assert (N : 100 < x / m) by (apply Qnot_le_lt; intros X; apply Qle_bool_iff in X; congruence). symmetry. apply Q.min_r. rewrite EX at 1. apply Qlt_le_weak. apply Qmult_lt_r; assumption.
Qed.
Lemma half_star a b c a' b' c' : a == a' -> b == b' -> c == c' -> star_of (half a c b) (half a b c) (half c b a) a' b' c'.
Proof. intros A B C. unfold star_of, half. rewrite <- A, <- B, <- C. sp; ring. Qed.
End Root.
