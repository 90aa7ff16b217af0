(** The written file is a case file that the converter reads as the network. *)
From Coq Require Import List String Ascii Bool Arith ZArith QArith Lia.
From Verif Require Import Base Container GraphDataProofs Reader NumeralSpec NumeralProofs MatFile MatFileSpec MatFileProofs Converter ConverterSpec ConverterProofs ConverterFile
  MatWriter MatWriterSpec MatWriterProofs MatWriterRows.
Import ListNotations.
Open Scope string_scope.
Open Scope nat_scope.
Open Scope list_scope.

Local Ltac sp := repeat match goal with |- _ /\ _ => split end.

(** ** Loops *)

Lemma write_each_ok {A R} (f : A -> res text) (ok : R -> text -> Prop) (means : A -> R -> Prop) l :
  Forall (fun a => exists t r, f a = Ok t /\ ok r t /\ means a r) l ->
  exists body, write_each f l = (map snd body, None) /\ body_ok ok body /\ Forall2 means l (given body).
Proof.
  induction 1 as [|a l (t & r & E & O & M) F IH].
  - exists []. sp; [reflexivity|constructor|constructor].
  - destruct IH as (body & E1 & O1 & M1). exists ((Some r, t) :: body). cbn [write_each]. rewrite E, E1. sp; [reflexivity|constructor; auto|]. cbn [given flat_map fst app]. constructor; auto.
Qed.
Lemma write_each_app {A} (f : A -> res text) l l' : write_each f (l ++ l') = before (write_each f l) (write_each f l').
Proof.
  induction l as [|a l IH]; cbn [write_each app]; [unfold before, put; cbn; now destruct (write_each f l')|].
  destruct (f a) as [t|e]; [|reflexivity]. rewrite IH. unfold before, put. cbn [fst snd]. destruct (write_each f l) as (x, [e|]); reflexivity.
Qed.
Lemma write_each_fails {A} (f : A -> res text) l a l' ls e : write_each f l = (ls, None) -> f a = Err e -> write_each f (l ++ a :: l') = (ls, Some e).
Proof. intros E F. rewrite write_each_app, E. unfold before. cbn [write_each fst snd]. rewrite F. cbn [fst snd]. now rewrite List.app_nil_r. Qed.
Lemma given_app {R} (a b : list (option R * text)) : given (a ++ b) = given a ++ given b.
Proof. unfold given. apply flat_map_app. Qed.

(** ** The fixed lines *)

Lemma written_of l ws : split l = ws -> written l ws.
Proof.
  intros <-. unfold split.
  assert (G : forall l cur, Forall (fun a => ~ blank a) cur -> written (cur ++ l) (split_from cur l)).
  { clear l. induction l as [|a l IH]; intros cur C; cbn [split_from].
    - rewrite List.app_nil_r. destruct cur as [|c cur]; [constructor; constructor|].
      replace (c :: cur) with ([] ++ (c :: cur) ++ []) at 1 by now rewrite List.app_nil_r. constructor; auto; try discriminate. constructor. constructor.
    - destruct (is_space a) eqn:Ea.
      + assert (W : written (a :: l) (split_from [] l)) by (apply (written_blanks [a]); [constructor; [now apply blank_space|constructor]|exact (IH [] (Forall_nil _))]).
        destruct cur as [|c cur]; [exact W|].
        replace ((c :: cur) ++ a :: l) with ([] ++ (c :: cur) ++ a :: l) by reflexivity. constructor; auto; [discriminate|]. right. exists a, l. split; auto. now apply blank_space.
      + replace (cur ++ a :: l) with ((cur ++ [a]) ++ l) by now rewrite <- app_assoc. apply IH. apply Forall_app. split; auto. constructor; [now apply not_blank|constructor]. }
  exact (G l [] (Forall_nil _)).
Qed.
Lemma note_ok V l : existsb (text_eqb (hd [] (split l))) (headers V) = false -> section_ok V (Note l).
Proof.
  intros H. exists (split l). split; [now apply written_of|]. destruct (split l) as [|w ws]; [exact I|]. cbn [hd] in H. intros X.
  assert (E : existsb (text_eqb w) (headers V) = true) by (apply existsb_exists; exists w; split; [exact X|]; now apply text_eqb_spec). congruence.
Qed.

Section Repr.
Variable repr : Q -> text.
Hypothesis RESP : respects repr.
Variable V : variant.
Variable N : wnet.

Definition blank_note : section := Note [].
Definition start (e : entry) : list section :=
  [Note (word "function mpc = Egypt_reduced"); blank_note; Note (word "mpc.version = '2';"); blank_note; BaseMVA e (word "mpc.baseMVA = " ++ show repr (wn_base N) ++ word ";"); blank_note].
Definition matrix (name : string) (body : list (option (list entry) * text)) : section := Matrix name (word ("mpc." ++ name ++ " = [")) body (word "];").
Definition cost_matrix (body : list (option cost * text)) : section := Costs (word "mpc.gencost = [") body (word "];").

Lemma blank_ok : section_ok V blank_note.
Proof. apply note_ok. destruct V as [[|] [|] [|] [|]]; reflexivity. Qed.
Lemma start_ok e n : e = Num n -> numeral_of repr (wn_base N) (num (wn_base N)) n -> Forall (section_ok V) (start e).
Proof.
  intros -> (A & B & C). unfold start. repeat apply Forall_cons; try apply Forall_nil; try apply blank_ok.
  - apply note_ok. destruct V as [[|] [|] [|] [|]]; reflexivity.
  - apply note_ok. destruct V as [[|] [|] [|] [|]]; reflexivity.
  - exists (word "="), (show repr (wn_base N) ++ word ";"), []. split.
    + change (word "mpc.baseMVA = " ++ show repr (wn_base N) ++ word ";") with (word "mpc.baseMVA" ++ [" "%char] ++ word "=" ++ [" "%char] ++ show repr (wn_base N) ++ word ";").
      assert (B1 : Forall blank [" "%char]) by (constructor; [apply blank_space; reflexivity|constructor]).
      assert (SB : forall l (ws : list text), ws = [] \/ exists a l', [" "%char] ++ l = a :: l' /\ blank a) by (intros; right; eexists _, _; split; [reflexivity|apply blank_space; reflexivity]).
      apply (written_cons [] (mpc "baseMVA")); [constructor|discriminate|repeat (constructor; [apply not_blank; reflexivity|]); constructor| |apply SB].
      apply (written_cons [" "%char] (word "=")); [exact B1|discriminate|repeat (constructor; [apply not_blank; reflexivity|]); constructor| |apply SB].
      assert (SO : solid (show repr (wn_base N) ++ word ";")) by (apply solid_semicolon; rewrite B; now apply numeral_solid). destruct SO as [NE SO].
      replace ([" "%char] ++ show repr (wn_base N) ++ word ";") with ([" "%char] ++ (show repr (wn_base N) ++ word ";") ++ []) by now rewrite List.app_nil_r.
      constructor; auto. constructor. constructor.
    + split; [exact A|]. exists (word ";"). split; [now rewrite B|repeat constructor].
Qed.
Lemma matrix_ok name cols body : layout name = Some cols -> body_ok (row_ok (v_truncates V) cols) body -> section_ok V (matrix name body).
Proof.
  intros L B. exists cols. sp; auto.
  - exists [word "="; word "["]. destruct (layout_name name cols L) as [->|[->| ->]]; apply written_of; reflexivity.
  - exists []. apply written_of. reflexivity.
Qed.
Lemma cost_matrix_ok body : body_ok (cost_ok V) body -> section_ok V (cost_matrix body).
Proof. intros B. cbn [section_ok cost_matrix]. sp; auto; [exists [word "="; word "["]|exists []]; apply written_of; reflexivity. Qed.

(** ** The tables of the case *)

Lemma means_nth qs r j e : row_means qs r -> nth_error r j = Some e -> exists q n, nth_error qs j = Some q /\ e = Num n /\ (numeral_value n == q)%Q.
Proof.
  intros F. revert j. induction F as [|q x qs r (n & -> & EQ) F IH]; intros [|j] E; cbn in E; try discriminate; [|exact (IH j E)]. injection E as <-. exists q, n. auto.
Qed.
(** Numbers in whole columns are whole. *)
Definition whole_columns {A} (cols : list (string * kind)) (row : A -> list Q) (a : A) : Prop :=
  forall j c q, nth_error cols j = Some (c, Whole) -> nth_error (row a) j = Some q -> exists z, (q == inject_Z z)%Q.
Lemma table_is_rows {A} name cols (row : A -> list Q) l rows c : layout name = Some cols -> holds_rows cols rows (the_table name c) -> Forall2 (fun a r => row_means (row a) r) l rows ->
  Forall (whole_columns cols row) l -> table_is name row l c.
Proof.
  intros L (NT & H) F WC cols' L'. rewrite L in L'. injection L' as <-. split; auto. intros j col k E. destruct (H j col k E) as (vs & G & FV). exists vs. split; auto. clear G H NT.
  revert vs FV. induction F as [|a r l rows M F IH]; intros vs FV; inversion FV as [|? v ? vs' (e & Ee & Se) FV']; subst; constructor.
  - destruct (means_nth _ _ _ _ M Ee) as (q & n & Eq & -> & Vn). exists q. split; auto. inversion WC as [|? ? W1 _]; subst. destruct k; cbn [stored entry_is] in *.
    + destruct v as [z| |]; try contradiction. destruct Se as (n' & X & WP). injection X as <-. destruct (W1 j col q E Eq) as (z' & EZ).
      pose proof (whole_integer z _ z' WP) as WI. rewrite Vn, EZ in WI. specialize (WI (Qeq_refl _)). rewrite EZ. now symmetry.
    + destruct v as [|[f| |]|]; cbn in Se; try contradiction. now rewrite Se.
    + destruct v as [|[f| |]|]; cbn in Se; try contradiction. now rewrite Se.
  - inversion WC; subst. apply IH; auto.
Qed.

Local Ltac cols_whole := intros j c q Ec Eq; do 21 (destruct j as [|j]; [cbn in Ec, Eq; first [discriminate Ec|injection Eq as <-; eauto; fail]|]); destruct j; discriminate Ec.
Lemma whole_num v : whole v -> exists z, (num v == inject_Z z)%Q.
Proof. intros (z & ->). exists z. reflexivity. Qed.
Lemma bus_whole b : bus_ok repr (wn_base N) b -> whole_columns (columns_of "bus") (bus_numbers N) b.
Proof.
  intros (A & B & _). apply whole_num in A as (a & A). apply whole_num in B as (z & B). assert (Z : exists y, (0 == inject_Z y)%Q) by (exists 0%Z; reflexivity). cols_whole.
Qed.
Lemma gen_whole g : gen_ok repr (wn_base N) g -> whole_columns (columns_of "gen") (gen_numbers N) g.
Proof. intros (A & B & _). apply whole_num in A as (a & A). apply whole_num in B as (z & B). cols_whole. Qed.
Lemma branch_whole te : branch_ok repr (wn_base N) (fst te) (snd te) -> whole_columns (columns_of "branch") (branch_numbers N) te.
Proof.
  destruct te as (t, e). cbn [fst snd]. intros ((a & b & more & EE & A & B) & C & _). apply whole_num in A as (a' & A). apply whole_num in B as (b' & B). apply whole_num in C as (c' & C).
  unfold whole_columns, branch_numbers, end_of. rewrite EE. cbn [nth_error]. cols_whole.
Qed.

(** ** The file *)

Definition bus_body (bb : list (option (list entry) * text)) : Prop :=
  write_each (bus_line repr (wn_base N)) (wn_bus N) = (map snd bb, None) /\ body_ok (row_ok (v_truncates V) (columns_of "bus")) bb /\ Forall2 (fun b r => row_means (bus_numbers N b) r) (wn_bus N) (given bb).
Definition gen_body (l : list wgen) (gb : list (option (list entry) * text)) : Prop :=
  write_each (gen_line repr (wn_base N)) l = (map snd gb, None) /\ body_ok (row_ok (v_truncates V) (columns_of "gen")) gb /\ Forall2 (fun g r => row_means (gen_numbers N g) r) l (given gb).
Definition branch_body (trafo : bool) (l : list wbranch) (eb : list (option (list entry) * text)) : Prop :=
  write_each (branch_line repr trafo (wn_base N)) l = (map snd eb, None) /\ body_ok (row_ok (v_truncates V) (columns_of "branch")) eb /\ Forall2 (fun e r => row_means (branch_numbers N (trafo, e)) r) l (given eb).
Definition cost_body (l : list wgen) (cb : list (option cost * text)) : Prop :=
  write_each (cost_line repr) l = (map snd cb, None) /\ body_ok (cost_ok V) cb /\ Forall2 (cost_means repr) l (given cb).

Hypothesis BASE : writable repr (wn_base N).
Lemma bus_body_ex : Forall (bus_ok repr (wn_base N)) (wn_bus N) -> exists bb, bus_body bb.
Proof. intros F. apply write_each_ok. eapply Forall_impl; [|exact F]. intros b H. exact (bus_line_ok repr RESP N BASE (v_truncates V) b H). Qed.
Lemma gen_body_ex l : Forall (gen_ok repr (wn_base N)) l -> exists gb, gen_body l gb.
Proof. intros F. apply write_each_ok. eapply Forall_impl; [|exact F]. intros b H. exact (gen_line_ok repr RESP N BASE (v_truncates V) b H). Qed.
Lemma branch_body_ex trafo l : Forall (branch_ok repr (wn_base N) trafo) l -> exists eb, branch_body trafo l eb.
Proof. intros F. apply write_each_ok. eapply Forall_impl; [|exact F]. intros b H. exact (branch_line_ok repr RESP N BASE (v_truncates V) trafo b H). Qed.
Lemma cost_body_ex l : Forall (cost_fine repr V) l -> exists cb, cost_body l cb.
Proof. intros F. apply write_each_ok. eapply Forall_impl; [|exact F]. intros b H. exact (cost_line_ok repr V b H). Qed.

Definition tables (n : numeral) bb gb eb : list section :=
  start (Num n) ++ [matrix "bus" bb; blank_note; matrix "gen" gb; blank_note; matrix "branch" eb; blank_note].
Lemma tables_sections_ok n bb gb eb : numeral_of repr (wn_base N) (num (wn_base N)) n -> body_ok (row_ok (v_truncates V) (columns_of "bus")) bb ->
  body_ok (row_ok (v_truncates V) (columns_of "gen")) gb -> body_ok (row_ok (v_truncates V) (columns_of "branch")) eb -> Forall (section_ok V) (tables n bb gb eb).
Proof.
  intros HN B G E. unfold tables. apply Forall_app. split; [eapply start_ok; eauto|]. repeat apply Forall_cons; try apply Forall_nil; try apply blank_ok; eapply matrix_ok; eauto; reflexivity.
Qed.

(** What has been written before the costs. *)
Lemma write_tables n bb gb lb tb : numeral_of repr (wn_base N) (num (wn_base N)) n -> bus_body bb -> gen_body (wn_conv N) gb -> branch_body false (wn_lines N) lb -> branch_body true (wn_trafos N) tb ->
  write_case repr N = before (put (flat_map section_lines (tables n bb gb (lb ++ tb)) ++ [word "mpc.gencost = ["])) (before (write_each (cost_line repr) (wn_conv N)) (put [word "];"; []])).
Proof.
  intros HN (EB & _) (EG & _) (EL & _) (ET & _). unfold write_case. rewrite EB, EG, EL, ET. unfold before, put. cbn [fst snd].
  destruct (write_each (cost_line repr) (wn_conv N)) as (cl & [e|]); cbn [fst snd]; (f_equal; unfold tables, start, matrix, blank_note; cbn [flat_map section_lines app]; rewrite ?map_app; repeat (rewrite <- ?app_assoc; progress cbn [app]); rewrite <- ?app_assoc; reflexivity).
Qed.

Lemma base_found bb gb eb n more : (forall s, In s more -> match s with BaseMVA _ _ => False | _ => True end) -> base_of (tables n bb gb eb ++ more) = Some (Num n).
Proof.
  intros H. unfold base_of. rewrite fold_left_app. assert (X : fold_left (fun acc s => match s with BaseMVA e _ => Some e | _ => acc end) (tables n bb gb eb) None = Some (Num n)) by reflexivity.
  rewrite X. clear X. generalize (Some (Num n)) as o. induction more as [|s more IH]; intros o; [reflexivity|]. cbn [fold_left]. pose proof (H s (or_introl eq_refl)) as Hs. destruct s; try contradiction; apply IH; intros s' I; apply H; now right.
Qed.

(** The slack bus. *)
Lemma is_num_at b r z j q : row_means (bus_numbers N b) r -> nth_error (bus_numbers N b) j = Some q -> (q == inject_Z z)%Q -> forall z', is_num (nth_error r j) z' <-> z' = z.
Proof.
  intros M Eq EZ z'. assert (X : exists n, nth_error r j = Some (Num n) /\ (numeral_value n == q)%Q).
  { clear EZ z'. revert j q Eq. induction M as [|q0 e qs r (n & -> & Hn) M IH]; intros [|j] q Eq; cbn in Eq; try discriminate; [injection Eq as ->; exists n; auto|]. exact (IH j q Eq). }
  destruct X as (n & En & Vn). rewrite En. cbn [is_num]. assert (WP : whole_part z (numeral_value n)) by (apply whole_exact; rewrite Vn, EZ; reflexivity). split.
  - intros W. exact (whole_unique _ _ _ W WP).
  - now intros ->.
Qed.
Lemma slack_found l rows s : Forall (bus_ok repr (wn_base N)) l -> Forall2 (fun b r => row_means (bus_numbers N b) r) l rows -> slack_is rows s ->
  s = match find (fun b => match wb_type b with PInt 3 => true | _ => false end) (rev l) with Some b => match wb_number b with PInt z => Some z | _ => None end | None => None end.
Proof.
  intros F M SI.
  assert (T : forall b r, bus_ok repr (wn_base N) b -> row_means (bus_numbers N b) r -> (is_num (nth_error r 1) 3 <-> match wb_type b with PInt 3 => true | _ => false end = true) /\
     forall z, is_num (nth_error r 0) z -> match wb_number b with PInt z => Some z | _ => None end = Some z).
  { intros b r ((zn & En) & (zt & Et) & _) Mb. split.
    - rewrite (is_num_at b r zt 1 (num (wb_type b)) Mb eq_refl) by (rewrite Et; reflexivity). rewrite Et. split; [now intros <-|]. destruct zt as [|[[p|p|]|p|]|p]; try discriminate. reflexivity.
    - intros z Iz. apply (is_num_at b r zn 0 (num (wb_number b)) Mb eq_refl) in Iz; [|rewrite En; reflexivity]. rewrite En. congruence. }
  revert rows s M SI. induction l as [|b l IH] using rev_ind; intros rows s M SI.
  - inversion M; subst. destruct s as [z|]; [|reflexivity]. destruct SI as (x & r & y & E & _). destruct x; discriminate.
  - apply Forall2_app_inv_l in M as (rows1 & rows2 & M1 & M2 & ->). inversion M2 as [|? r ? ? Mb M3]; subst. inversion M3; subst. clear M2 M3.
    apply Forall_app in F as [F1 F2]. inversion F2 as [|? ? Fb _]; subst. destruct (T b r Fb Mb) as (T3 & T0). rewrite rev_app_distr. cbn [rev app find].
    destruct (match wb_type b with PInt 3 => true | _ => false end) eqn:Eb.
    + assert (I3 : is_num (nth_error r 1) 3) by (now apply T3). destruct s as [z|].
      * destruct SI as (x & r' & y & E & A & B & C). destruct y as [|y0 y _] using rev_ind.
        -- apply app_inj_tail in E as [-> <-]. symmetry. now apply T0.
        -- rewrite app_comm_cons, app_assoc in E. apply app_inj_tail in E as [_ <-]. apply Forall_app in C as [_ C]. inversion C; contradiction.
      * cbn [slack_is] in SI. apply Forall_app in SI as [_ SI]. inversion SI; contradiction.
    + assert (N3 : ~ is_num (nth_error r 1) 3) by (intros X; apply T3 in X; discriminate). apply (IH F1 rows1 s M1). destruct s as [z|].
      * destruct SI as (x & r' & y & E & A & B & C). destruct y as [|y0 y _] using rev_ind.
        -- apply app_inj_tail in E as [_ <-]. contradiction.
        -- rewrite app_comm_cons, app_assoc in E. apply app_inj_tail in E as [-> _]. apply Forall_app in C as [C _]. exists x, r', y. auto.
      * cbn [slack_is] in *. now apply Forall_app in SI as [SI _].
Qed.

Lemma rows_bus n bb gb eb more : (forall name, rows_of name more = []) -> rows_of "bus" (tables n bb gb eb ++ more) = given bb /\ rows_of "gen" (tables n bb gb eb ++ more) = given gb /\ rows_of "branch" (tables n bb gb eb ++ more) = given eb.
Proof.
  intros H. unfold rows_of in *. rewrite !flat_map_app, !H, !List.app_nil_r. unfold tables, start. cbn [flat_map app String.eqb Ascii.eqb Bool.eqb matrix]. rewrite ?List.app_nil_r. auto.
Qed.

Lemma table_of_bodies c bb gb lb tb :
  (forall name cols, layout name = Some cols -> holds_rows cols (if String.eqb name "bus" then given bb else if String.eqb name "gen" then given gb else given (lb ++ tb)) (the_table name c)) ->
  tables_ok repr N -> bus_body bb -> gen_body (wn_conv N) gb -> branch_body false (wn_lines N) lb -> branch_body true (wn_trafos N) tb ->
  table_is "bus" (bus_numbers N) (wn_bus N) c /\ table_is "gen" (gen_numbers N) (wn_conv N) c /\ table_is "branch" (branch_numbers N) (branches N) c.
Proof.
  intros H (_ & FB & FG & FL & FT) (_ & _ & MB) (_ & _ & MG) (_ & _ & ML) (_ & _ & MT). sp.
  - apply (table_is_rows "bus" (columns_of "bus") _ _ (given bb)); [reflexivity|exact (H "bus" _ eq_refl)|exact MB|]. eapply Forall_impl; [|exact FB]. intros b. apply bus_whole.
  - apply (table_is_rows "gen" (columns_of "gen") _ _ (given gb)); [reflexivity|exact (H "gen" _ eq_refl)|exact MG|]. eapply Forall_impl; [|exact FG]. intros b. apply gen_whole.
  - apply (table_is_rows "branch" (columns_of "branch") _ _ (given (lb ++ tb))); [reflexivity|exact (H "branch" _ eq_refl)| |].
    + rewrite given_app. unfold branches.
      assert (X : forall t l rs, Forall2 (fun e r => row_means (branch_numbers N (t, e)) r) l rs -> Forall2 (fun a r => row_means (branch_numbers N a) r) (map (pair t) l) rs) by (induction 1; cbn [map]; constructor; auto).
      apply Forall2_app; apply X; auto.
    + unfold branches. apply Forall_app. split; apply Forall_map; (eapply Forall_impl; [|eassumption]); intros e; exact (branch_whole (_, e)).
Qed.

Lemma costs_found l rs c : Forall2 (cost_means repr) l rs -> Forall (cost_fine repr V) l -> holds_costs V rs c -> costs_are repr V l c.
Proof.
  intros M F (A & B & C & D & E). unfold costs_are.
  assert (L : List.length l = List.length rs) by (eapply GraphDataProofs.Forall2_length; eauto).
  assert (L1 : List.length rs = List.length (c_startup c)) by (eapply GraphDataProofs.Forall2_length; eauto).
  assert (L2 : List.length rs = List.length (c_shutdown c)) by (eapply GraphDataProofs.Forall2_length; eauto).
  assert (FI : forall m f, (numeral_value m == 0)%Q -> float_is (Num m) f -> exists q, f = Fin q /\ (q == 0)%Q) by (intros m [q| |] Z X; cbn in X; try contradiction; exists q; split; auto; now rewrite X).
  sp; try congruence.
  - clear - M A. revert A. generalize (c_model c) as zs. induction M as [|g r l rs (M2 & _) M IH]; intros zs A; inversion A as [|? z ? zs' Ez A']; subst; [reflexivity|]. cbn [map]. rewrite (IH _ A'). f_equal. rewrite M2 in Ez. unfold Qeq in Ez. cbn in Ez. lia.
  - clear - M B FI. revert B. generalize (c_startup c) as fs. induction M as [|g r l rs (_ & (m & Em & Zm) & _) M IH]; intros fs B; inversion B as [|? f ? fs' Ef B']; subst; constructor; auto. rewrite Em in Ef. eauto.
  - clear - M C FI. revert C. generalize (c_shutdown c) as fs. induction M as [|g r l rs (_ & _ & (m & Em & Zm) & _) M IH]; intros fs C; inversion C as [|? f ? fs' Ef C']; subst; constructor; auto. rewrite Em in Ef. eauto.
  - clear - M D. revert D. generalize (c_ncost c) as zs. induction M as [|g r l rs (_ & _ & _ & first & z0 & n & EC & RM & _) M IH]; intros zs D; inversion D as [|? z ? zs' Ez D']; subst; [reflexivity|]. cbn [map]. rewrite (IH _ D'). f_equal.
    rewrite EC, app_length. cbn [List.length]. pose proof (GraphDataProofs.Forall2_length _ _ _ RM) as LR. rewrite map_length in LR. lia.
  - clear - M E F. revert E F. generalize (c_cost c) as ls. induction M as [|g r l rs (_ & _ & _ & first & z0 & n & EC & RM & EL & (N1 & N2 & N3)) M IH]; intros ls E F; inversion E as [|? vs ? ls' (fs & v & Evs & FS & HV) E']; subst; constructor.
    + inversion F as [|? ? (f' & z' & EC' & _ & WZ & KW) _]; subst. rewrite EC in EC'. apply app_inj_tail in EC' as [<- <-].
      exists first, z0, fs, v. sp; auto.
      * clear - RM FS. revert fs FS. remember (map num first) as qs eqn:EQ. revert first EQ. induction RM as [|q e qs es (m & -> & Vm) RM IH]; intros first EQ fs FS; inversion FS as [|? v ? fs' S1 FS']; subst; destruct first as [|a first]; try discriminate; constructor.
        -- injection EQ as -> _. cbn [stored] in S1. destruct v as [|[x| |]|]; cbn in S1; try contradiction. cbn [entry_is]. now rewrite S1.
        -- injection EQ as _ EQ. eapply IH; eauto.
      * rewrite EL in HV. destruct (v_keeps_text V); [now rewrite N2|]. destruct (KW eq_refl) as (z & ->). exists z. split; auto. cbn [stored] in HV. destruct v as [z'| |]; try contradiction. destruct HV as (n' & X & WP). injection X as <-. f_equal.
        apply (whole_unique _ _ _ WP). apply whole_exact. rewrite N3. reflexivity.
    + inversion F; subst. apply IH; auto.
Qed.
End Repr.
