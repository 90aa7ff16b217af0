(** Lemmas about the static generators that PandaPowerManager adds for the flexible units. *)
From Coq Require Import List String Bool Arith ZArith QArith Lia.
From Verif Require Import Base Container Graph GraphData GraphDataProofs Network NetworkSpec NetworkProofs.
Import ListNotations.
Open Scope string_scope.
Open Scope nat_scope.
Open Scope list_scope.

Local Ltac sp := repeat match goal with |- _ /\ _ => split end.

Lemma tcell_in t l c v : tcell t l c = Some v <-> In l (t_index t) /\ In c (t_cols t) /\ t_cell t l c = v.
Proof.
  unfold tcell. rewrite <- has_label_spec, <- has_col_spec. destruct (has_label t l), (has_col t c); cbn; intuition congruence.
Qed.

Lemma at_set_index t l c v l' : In l' (t_index (at_set t l c v)) <-> In l' (t_index t) \/ l' = l.
Proof.
  unfold at_set. cbn [t_index]. destruct (has_label t l) eqn:E.
  - apply has_label_spec in E. intuition. now subst.
  - rewrite in_app_iff. cbn. intuition.
Qed.

Lemma at_set_cols t l c v c' : In c' (t_cols (at_set t l c v)) <-> In c' (t_cols t) \/ c' = c.
Proof.
  unfold at_set. cbn [t_cols]. destruct (has_col t c) eqn:E.
  - apply has_col_spec in E. intuition. now subst.
  - rewrite in_app_iff. cbn. intuition.
Qed.

Lemma at_set_here t l c v : tcell (at_set t l c v) l c = Some v.
Proof.
  apply tcell_in. rewrite at_set_index, at_set_cols. sp; auto. unfold at_set. cbn [t_cell]. now rewrite Z.eqb_refl, String.eqb_refl.
Qed.

Lemma at_set_old t l c v l' c' w : (l', c') <> (l, c) -> tcell t l' c' = Some w -> tcell (at_set t l c v) l' c' = Some w.
Proof.
  intros N E. apply tcell_in in E as (I & J & E). apply tcell_in. rewrite at_set_index, at_set_cols. sp; auto.
  unfold at_set. cbn [t_cell]. apply has_label_spec in I as ->. apply has_col_spec in J as ->.
  destruct (Z.eqb_spec l' l), (String.eqb_spec c' c); cbn; auto. subst. now destruct N.
Qed.

(** Cells of another row: as before, or NaN in a new column. *)
Lemma at_set_back t l c v l' c' w : l' <> l -> tcell (at_set t l c v) l' c' = Some w ->
  tcell t l' c' = Some w \/ (In l' (t_index t) /\ ~ In c' (t_cols t) /\ w = VNaN).
Proof.
  intros N E. apply tcell_in in E as (I & J & E). apply at_set_index in I as [I|I]; [|contradiction].
  revert E. unfold at_set. cbn [t_cell]. destruct (Z.eqb_spec l' l); [contradiction|]. cbn [andb]. apply has_label_spec in I as L. rewrite L. cbn [andb].
  destruct (has_col t c') eqn:C; intros <-.
  - left. apply has_col_spec in C. apply tcell_in. auto.
  - right. sp; auto. rewrite <- has_col_spec, C. discriminate.
Qed.

Lemma next_label_bound t l : In l (t_index t) -> (l < next_label t)%Z.
Proof.
  unfold next_label. induction (t_index t) as [|a r IH]; cbn; intros I; [destruct I|]. destruct I as [->|I]; [lia|]. specialize (IH I). lia.
Qed.

(** A series of writes in one row. *)
Definition writes (l : Z) (cells : @items val) (t : table) : table :=
  fold_left (fun t cv => at_set t l (fst cv) (snd cv)) cells t.

Lemma writes_spec l cells : forall t, NoDup (map fst cells) ->
  (forall c v, In (c, v) cells -> tcell (writes l cells t) l c = Some v) /\
  (forall l' c v, (l' <> l \/ ~ In c (map fst cells)) -> tcell t l' c = Some v -> tcell (writes l cells t) l' c = Some v) /\
  (forall l' c v, l' <> l -> tcell (writes l cells t) l' c = Some v ->
     tcell t l' c = Some v \/ (In l' (t_index t) /\ ~ In c (t_cols t) /\ v = VNaN)) /\
  t_index (writes l cells t) = (if has_label t l then t_index t else match cells with [] => t_index t | _ => t_index t ++ [l] end) /\
  (forall c, In c (t_cols (writes l cells t)) <-> In c (t_cols t) \/ In c (map fst cells)).
Proof.
  induction cells as [|(c0, v0) cells IH]; intros t N.
  - cbn. sp; auto; try tauto. now destruct (has_label t l).
  - cbn [map fst] in N. inversion N as [|? ? N1 N2]; subst. change (writes l ((c0, v0) :: cells) t) with (writes l cells (at_set t l c0 v0)).
    destruct (IH (at_set t l c0 v0) N2) as (A & B & C & D & E). sp.
    + intros c v [X|I]; auto. injection X as -> ->. apply B; auto. apply at_set_here.
    + intros l' c v O G. cbn [map fst In] in O. apply B; [intuition|]. apply at_set_old; auto. intros X. injection X as -> ->. intuition.
    + intros l' c v O G. apply C in G as [G|(G1 & G2 & G3)]; auto.
      * apply at_set_back in G; auto.
      * right. sp; auto.
        -- apply at_set_index in G1 as [G1|G1]; auto. contradiction.
        -- intros X. apply G2. rewrite at_set_cols. auto.
    + rewrite D. assert (Hl : has_label (at_set t l c0 v0) l = true) by (apply has_label_spec, at_set_index; auto). rewrite Hl.
      unfold at_set. reflexivity.
    + intros c. rewrite E, at_set_cols. cbn [map fst In]. intuition.
Qed.

Lemma add_row_spec t cells : NoDup (map fst cells) -> cells <> [] -> exists l t', add_row t cells = (l, t') /\
  ~ In l (t_index t) /\ t_index t' = t_index t ++ [l] /\
  (forall c v, In (c, v) cells -> tcell t' l c = Some v) /\
  (forall l' c v, tcell t l' c = Some v -> tcell t' l' c = Some v) /\
  (forall l' c v, In l' (t_index t) -> tcell t' l' c = Some v -> tcell t l' c = Some v \/ (~ In c (t_cols t) /\ v = VNaN)) /\
  (forall c, In c (t_cols t) -> In c (t_cols t')).
Proof.
  intros N NE. exists (next_label t), (writes (next_label t) cells t). split; [reflexivity|].
  assert (F : ~ In (next_label t) (t_index t)) by (intros I; apply next_label_bound in I; lia).
  destruct (writes_spec (next_label t) cells t N) as (A & B & C & D & E). sp; auto.
  - rewrite D. destruct (has_label t (next_label t)) eqn:H; [now apply has_label_spec in H|]. now destruct cells.
  - intros l' c v G. apply B; auto. left. intros ->. now apply tcell_in in G as (G & _).
  - intros l' c v I G. apply C in G as [G|(G1 & G2 & G3)]; auto. intros ->. contradiction.
  - intros c I. apply E. auto.
Qed.

(** One flexibility generator. *)
Definition flex_step (n : network) (b : Z) : res network :=
  do sg <- sub n "sgen";
  let '(i, sg') := add_row sg (sgen_cells b) in
  let n1 := put n "sgen" sg' in
  do pc <- sub n1 "poly_cost";
  Ok (put n1 "poly_cost" (snd (add_row pc (poly_cells i)))).

Lemma put_get n name t name' : d_get name' (n_tables (put n name t)) = if String.eqb name name' then Some t else d_get name' (n_tables n).
Proof. unfold put. cbn [n_tables]. unfold d_get. apply d_set_get. Qed.

Definition zero_columns (t : string) : list string :=
  if String.eqb t "sgen" then ["p_mw"; "min_p_mw"; "max_p_mw"; "min_q_mvar"; "max_q_mvar"]
  else ["cp0_eur"; "cp1_eur_per_mw"; "cp2_eur_per_mw2"; "cq0_eur"; "cq1_eur_per_mvar"; "cq2_eur_per_mvar2"].

(** Row [i] of "sgen" is an idle controllable generator at bus [b], and row [j] of "poly_cost"
    prices it at zero. *)
Definition flex_unit (n : network) (b i j : Z) : Prop :=
  cell n "sgen" i "bus" = Some (VZ b) /\ cell n "sgen" i "controllable" = Some (VB true) /\
  (forall c, In c (zero_columns "sgen") -> cell n "sgen" i c = Some (VQ 0)) /\
  cell n "poly_cost" j "element" = Some (VZ i) /\ cell n "poly_cost" j "et" = Some (VS "sgen") /\
  (forall c, In c (zero_columns "poly_cost") -> cell n "poly_cost" j c = Some (VQ 0)).

(** Row labels of a table. *)
Definition rows (n : network) (t : string) : list Z := match d_get t (n_tables n) with Some tb => t_index tb | None => [] end.

Definition grows (n n' : network) : Prop :=
  n_ctrl n' = n_ctrl n /\
  (forall t, t <> "sgen" -> t <> "poly_cost" -> d_get t (n_tables n') = d_get t (n_tables n)) /\
  (forall t l c v, cell n t l c = Some v -> cell n' t l c = Some v) /\
  (forall t l c v, In l (rows n t) -> cell n' t l c = Some v -> cell n t l c = Some v \/ v = VNaN).

Lemma nd1 b : NoDup (map fst (sgen_cells b)).
Proof. repeat constructor; cbn; intuition discriminate. Qed.
Lemma nd2 b : NoDup (map fst (poly_cells b)).
Proof. repeat constructor; cbn; intuition discriminate. Qed.

Lemma flex_step_spec n b sg pc : d_get "sgen" (n_tables n) = Some sg -> d_get "poly_cost" (n_tables n) = Some pc ->
  exists n' i j, flex_step n b = Ok n' /\ flex_unit n' b i j /\ grows n n' /\
    rows n' "sgen" = rows n "sgen" ++ [i] /\ rows n' "poly_cost" = rows n "poly_cost" ++ [j] /\
    ~ In i (rows n "sgen") /\ ~ In j (rows n "poly_cost").
Proof.
  intros S P. unfold flex_step, sub. rewrite S. cbn [rbind].
  destruct (add_row_spec sg (sgen_cells b) (nd1 b)) as (i & sg' & E & F & Ix & A & B & C & _); [discriminate|]. rewrite E.
  rewrite put_get. cbn [String.eqb Ascii.eqb Bool.eqb]. replace (String.eqb "sgen" "poly_cost") with false by reflexivity. rewrite P. cbn [rbind].
  destruct (add_row_spec pc (poly_cells i) (nd2 i)) as (j & pc' & E' & F' & Ix' & A' & B' & C' & _); [discriminate|]. rewrite E'. cbn [snd].
  set (n' := put (put n "sgen" sg') "poly_cost" pc'). exists n', i, j.
  assert (G1 : d_get "sgen" (n_tables n') = Some sg') by (unfold n'; rewrite !put_get; reflexivity).
  assert (G2 : d_get "poly_cost" (n_tables n') = Some pc') by (unfold n'; rewrite !put_get; reflexivity).
  assert (G3 : forall t, t <> "sgen" -> t <> "poly_cost" -> d_get t (n_tables n') = d_get t (n_tables n)).
  { intros t N1 N2. unfold n'. rewrite !put_get. destruct (String.eqb_spec "poly_cost" t); [congruence|]. destruct (String.eqb_spec "sgen" t); [congruence|auto]. }
  split; [reflexivity|]. sp.
  - unfold flex_unit. rewrite !cell_tcell, G1, G2. sp; try (apply A; cbn; tauto); try (apply A'; cbn; tauto).
    + intros c I. rewrite cell_tcell, G1. apply A. cbn in I |- *. intuition; subst; tauto.
    + intros c I. rewrite cell_tcell, G2. apply A'. cbn in I |- *. intuition; subst; tauto.
  - unfold grows. sp; auto.
    + intros t l c v. rewrite !cell_tcell. destruct (string_dec t "sgen") as [->|N1]; [rewrite S, G1; apply B|].
      destruct (string_dec t "poly_cost") as [->|N2]; [rewrite P, G2; apply B'|]. now rewrite (G3 t N1 N2).
    + intros t l c v. unfold rows. rewrite !cell_tcell. destruct (string_dec t "sgen") as [->|N1].
      { rewrite S, G1. intros I H. apply C in H as [H|(_ & H)]; auto. }
      destruct (string_dec t "poly_cost") as [->|N2].
      { rewrite P, G2. intros I H. apply C' in H as [H|(_ & H)]; auto. }
      rewrite (G3 t N1 N2). auto.
  - unfold rows. now rewrite G1, S.
  - unfold rows. now rewrite G2, P.
  - unfold rows. now rewrite S.
  - unfold rows. now rewrite P.
Qed.

Lemma cell_in_rows n t l c v : cell n t l c = Some v -> In l (rows n t).
Proof. rewrite cell_tcell. unfold rows. destruct (d_get t (n_tables n)); [|discriminate]. now intros (H & _)%tcell_in. Qed.

Lemma flex_unit_grows n n' b i j : grows n n' -> flex_unit n b i j -> flex_unit n' b i j.
Proof. intros (_ & _ & K & _) (A & B & C & D & E & F). unfold flex_unit. sp; auto. Qed.

Lemma rows_table n t : rows n t <> [] -> exists tb, d_get t (n_tables n) = Some tb.
Proof. unfold rows. destruct (d_get t (n_tables n)); eauto. congruence. Qed.

Lemma grows_trans a b c : (forall t l, In l (rows a t) -> In l (rows b t)) -> grows a b -> grows b c -> grows a c.
Proof.
  intros R (A1 & A2 & A3 & A4) (B1 & B2 & B3 & B4). unfold grows. sp.
  - congruence.
  - intros t N1 N2. rewrite B2, A2; auto.
  - intros t l x v H. auto.
  - intros t l x v I H. destruct (B4 t l x v (R t l I) H) as [H1|H1]; auto.
Qed.

Lemma grows_rows a b i j : grows a b -> rows b "sgen" = rows a "sgen" ++ i -> rows b "poly_cost" = rows a "poly_cost" ++ j ->
  forall t l, In l (rows a t) -> In l (rows b t).
Proof.
  intros (_ & G & _) R1 R2 t l I. destruct (string_dec t "sgen") as [->|N1]; [rewrite R1; apply in_or_app; auto|].
  destruct (string_dec t "poly_cost") as [->|N2]; [rewrite R2; apply in_or_app; auto|]. unfold rows in *. now rewrite (G t N1 N2).
Qed.

Definition au_bus (u : Z * Z * Z) := fst (fst u).
Definition au_gen (u : Z * Z * Z) := snd (fst u).
Definition au_cost (u : Z * Z * Z) := snd u.

Lemma flex_all bs : forall n sg pc, d_get "sgen" (n_tables n) = Some sg -> d_get "poly_cost" (n_tables n) = Some pc ->
  exists n' added, foldM flex_step bs n = Ok n' /\ map au_bus added = bs /\ grows n n' /\
    (forall u, In u added -> flex_unit n' (au_bus u) (au_gen u) (au_cost u) /\ ~ In (au_gen u) (rows n "sgen") /\ ~ In (au_cost u) (rows n "poly_cost")) /\
    rows n' "sgen" = rows n "sgen" ++ map au_gen added /\ rows n' "poly_cost" = rows n "poly_cost" ++ map au_cost added /\
    NoDup (map au_gen added) /\ NoDup (map au_cost added).
Proof.
  induction bs as [|b bs IH]; intros n sg pc S P.
  - exists n, []. cbn. rewrite !List.app_nil_r. sp; auto; try constructor; try tauto; auto.
  - cbn [foldM]. destruct (flex_step_spec n b sg pc S P) as (n1 & i & j & E & U & G & R1 & R2 & F1 & F2). rewrite E. cbn [rbind].
    destruct (rows_table n1 "sgen") as (sg1 & S1); [rewrite R1; now destruct (rows n "sgen")|].
    destruct (rows_table n1 "poly_cost") as (pc1 & P1); [rewrite R2; now destruct (rows n "poly_cost")|].
    destruct (IH n1 sg1 pc1 S1 P1) as (n' & added & E' & M & G' & H & Q1 & Q2 & D1 & D2). exists n', ((b, i, j) :: added). split; [exact E'|].
    assert (GT : grows n n') by (eapply grows_trans; [eapply grows_rows; eauto|exact G|exact G']). sp; auto.
    + cbn [map]. rewrite M. reflexivity.
    + intros u [<-|I]; cbn [au_bus au_gen au_cost fst snd].
      * sp; auto. exact (flex_unit_grows _ _ _ _ _ G' U).
      * destruct (H u I) as (H1 & H2 & H3). sp; auto.
        -- intros X. apply H2. rewrite R1. apply in_or_app. auto.
        -- intros X. apply H3. rewrite R2. apply in_or_app. auto.
    + rewrite Q1, R1, <- app_assoc. reflexivity.
    + rewrite Q2, R2, <- app_assoc. reflexivity.
    + cbn [map]. constructor; auto. intros I. apply in_map_iff in I as (u & X & I). destruct (H u I) as (_ & H2 & _). apply H2. rewrite R1, X. apply in_or_app. right. now left.
    + cbn [map]. constructor; auto. intros I. apply in_map_iff in I as (u & X & I). destruct (H u I) as (_ & _ & H3). apply H3. rewrite R2, X. apply in_or_app. right. now left.
Qed.

Lemma create_flexibility_fold frames f n : d_get "flexible units" frames = Some f ->
  create_flexibility frames n = foldM flex_step (unique (map fr_bus (f_rows f))) n.
Proof. unfold create_flexibility. now intros ->. Qed.

Lemma filter_none {A} (p : A -> bool) l : (forall x, In x l -> p x = false) -> filter p l = [].
Proof. induction l as [|a l IH]; intros H; auto. cbn. rewrite (H a) by now left. apply IH. intros x I. apply H. now right. Qed.

Lemma filter_one {A} (p : A -> bool) pre x post : (forall y, In y pre -> p y = false) -> p x = true -> exists r, filter p (pre ++ x :: post) = x :: r.
Proof. intros H X. rewrite filter_app, (filter_none p pre H). cbn. rewrite X. eauto. Qed.

Lemma index_by_first n t c v pre l post : rows n t = pre ++ l :: post -> cell n t l c <> None ->
  (forall l', In l' pre -> forall w, cell n t l' c = Some w -> val_eqb w v = false) -> (forall w, cell n t l c = Some w -> val_eqb w v = true) ->
  index_by n t c v = Ok l.
Proof.
  unfold rows, index_by, sub, labels_where. rewrite !cell_tcell. intros R N H X. destruct (d_get t (n_tables n)) as [tb|] eqn:E; [|now destruct N]. cbn [rbind].
  destruct (tcell tb l c) as [w|] eqn:T; [|now destruct N]. apply tcell_in in T as (T1 & T2 & T3). apply has_col_spec in T2 as T2'. rewrite T2'. cbn [rbind].
  destruct (filter_one (fun l => val_eqb (t_cell tb l c) v) pre l post) as (r & Er).
  - intros y I. apply (H y I). rewrite cell_tcell, E. apply tcell_in. sp; auto. rewrite R. apply in_or_app. auto.
  - rewrite T3. auto.
  - now rewrite R, Er.
Qed.

Lemma poly_index_first n i pre j post : rows n "poly_cost" = pre ++ j :: post ->
  cell n "poly_cost" j "element" = Some (VZ i) -> cell n "poly_cost" j "et" = Some (VS "sgen") ->
  (forall j' w w', In j' pre -> cell n "poly_cost" j' "element" = Some w -> cell n "poly_cost" j' "et" = Some w' ->
     val_eqb w (VZ i) && val_eqb w' (VS "sgen") = false) -> poly_index n i = Ok j.
Proof.
  unfold rows, poly_index, sub, labels_where. rewrite !cell_tcell. intros R. destruct (d_get "poly_cost" (n_tables n)) as [tb|] eqn:E; [|discriminate]. cbn [rbind].
  intros A B H. apply tcell_in in A as (A1 & A2 & A3). apply tcell_in in B as (_ & B2 & B3). apply has_col_spec in A2 as A2'. apply has_col_spec in B2 as B2'. rewrite A2'. cbn [rbind]. rewrite B2'.
  destruct (filter_one (fun l => val_eqb (t_cell tb l "element") (VZ i) && val_eqb (t_cell tb l "et") (VS "sgen")) pre j post) as (r & Er).
  - intros y I. apply (H y); auto; rewrite cell_tcell, E; apply tcell_in; sp; auto; rewrite R; apply in_or_app; auto.
  - rewrite A3, B3. cbn. now rewrite Z.eqb_refl.
  - rewrite <- R in Er. match goal with |- match ?x with _ => _ end = _ => assert (X : x = j :: r) end.
    { rewrite <- Er. clear. induction (t_index tb) as [|a l IH]; auto. cbn [filter]. destruct (val_eqb (t_cell tb a "element") (VZ i)); cbn [filter andb]; rewrite IH; auto. }
    now rewrite X.
Qed.
