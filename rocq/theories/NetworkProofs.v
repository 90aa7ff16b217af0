(** Lemmas about network updates. *)
From Coq Require Import List String Bool Arith ZArith QArith Qround Lia Permutation Field.
From Verif Require Import Base Container Planner Graph GraphData GraphDataProofs Network NetworkSpec.
Import ListNotations.
Open Scope string_scope.
Open Scope nat_scope.
Open Scope list_scope.

Local Ltac sp := repeat match goal with |- _ /\ _ => split end.

(** ** tables and cells *)

Lemma has_label_spec t l : has_label t l = true <-> In l (t_index t).
Proof.
  unfold has_label. rewrite existsb_exists. split.
  - intros (x & I & E). apply Z.eqb_eq in E. now subst.
  - intros I. exists l. split; auto. apply Z.eqb_refl.
Qed.

Lemma has_col_spec t c : has_col t c = true <-> In c (t_cols t).
Proof.
  unfold has_col. rewrite existsb_exists. split.
  - intros (x & I & E). apply String.eqb_eq in E. now subst.
  - intros I. exists c. split; auto. apply String.eqb_refl.
Qed.

Definition tcell (tb : table) (l : Z) (c : string) : option val :=
  if has_label tb l && has_col tb c then Some (t_cell tb l c) else None.

Lemma cell_tcell n t l c : cell n t l c = match d_get t (n_tables n) with Some tb => tcell tb l c | None => None end.
Proof.
  unfold cell, tcell. destruct (d_get t (n_tables n)) as [tb|]; auto.
  destruct (in_dec Z.eq_dec l (t_index tb)) as [I|I].
  - apply has_label_spec in I as ->. destruct (in_dec string_dec c (t_cols tb)) as [I'|I'].
    + now apply has_col_spec in I' as ->.
    + destruct (has_col tb c) eqn:E; auto. now apply has_col_spec in E.
  - destruct (has_label tb l) eqn:E; auto. now apply has_label_spec in E.
Qed.

Lemma at_get_tcell t l c : at_get t l c = match tcell t l c with Some v => Ok v | None => Err KeyError end.
Proof. unfold at_get, tcell. now destruct (has_label t l && has_col t c). Qed.

Lemma at_set_tcell t l c v l' c' : tcell t l c <> None ->
  tcell (at_set t l c v) l' c' = if Z.eqb l' l && String.eqb c' c then Some v else tcell t l' c'.
Proof.
  unfold tcell, at_set. intros H. destruct (has_label t l) eqn:EL; [|now destruct H]. destruct (has_col t c) eqn:EC; [|now destruct H].
  replace (has_label _ l') with (has_label t l') by reflexivity. replace (has_col _ c') with (has_col t c') by reflexivity. cbn [t_cell].
  destruct (Z.eqb_spec l' l) as [->|NL]; cbn [andb].
  - destruct (String.eqb_spec c' c) as [->|NC].
    + rewrite EL, EC. reflexivity.
    + destruct (has_label t l && has_col t c'); reflexivity.
  - destruct (has_label t l' && has_col t c'); reflexivity.
Qed.

Lemma at_set_shape t l c v : tcell t l c <> None -> t_index (at_set t l c v) = t_index t /\ t_cols (at_set t l c v) = t_cols t.
Proof.
  unfold tcell, at_set. intros H. destruct (has_label t l); [|now destruct H]. destruct (has_col t c); [|now destruct H]. auto.
Qed.

Lemma net_set_ok n t l c v : cell n t l c <> None -> exists n', net_set n t l c v = Ok n' /\
  (forall t' l' c', cell n' t' l' c' = if String.eqb t' t && Z.eqb l' l && String.eqb c' c then Some v else cell n t' l' c') /\
  (forall t', shape n' t' = shape n t') /\ n_ctrl n' = n_ctrl n.
Proof.
  intros H. rewrite cell_tcell in H. unfold net_set, sub. destruct (d_get t (n_tables n)) as [tb|] eqn:E; [|now destruct H]. cbn [rbind].
  eexists. split; [reflexivity|]. sp; auto.
  - intros t' l' c'. rewrite !cell_tcell. unfold put. cbn [n_tables]. unfold d_get at 1. rewrite d_set_get. rewrite (String.eqb_sym t' t).
    destruct (String.eqb_spec t t') as [->|N]; cbn [andb]; auto. rewrite at_set_tcell by auto. fold (d_get t' (n_tables n)). rewrite E. reflexivity.
  - intros t'. unfold shape, put. cbn [n_tables]. unfold d_get at 1. rewrite d_set_get. destruct (String.eqb_spec t t') as [->|N]; auto.
    rewrite E. cbn [option_map]. destruct (at_set_shape tb l c v H) as [-> ->]. reflexivity.
Qed.

Lemma sub_cell n t l c v : cell n t l c = Some v -> exists tb, sub n t = Ok tb /\ attr n t = Ok tb /\ at_get tb l c = Ok v /\ has_col tb c = true.
Proof.
  rewrite cell_tcell. unfold sub, attr. destruct (d_get t (n_tables n)) as [tb|]; [|discriminate]. intros E. exists tb. sp; auto.
  - rewrite at_get_tcell, E. reflexivity.
  - unfold tcell in E. destruct (has_label tb l); [|discriminate]. now destruct (has_col tb c).
Qed.

(** ** one line *)

Lemma line_voltage_ok n l b v : cell n "line" l "from_bus" = Some (VZ b) -> cell n "bus" b "vn_kv" = Some (VQ v) -> line_voltage n l = Ok (VQ v).
Proof.
  intros H1 H2. apply sub_cell in H1 as (tl & _ & A1 & G1 & C1). apply sub_cell in H2 as (tb & _ & A2 & G2 & C2).
  unfold line_voltage. rewrite A2. cbn [rbind]. rewrite C2, A1. cbn [rbind]. rewrite C1, G1. cbn [rbind label_of]. exact G2.
Qed.

Lemma scale_cell_ok t l c f n q : cell n t l c = Some (VQ q) -> exists n', scale_cell t l c (VQ f) n = Ok n' /\
  (forall t' l' c', cell n' t' l' c' = if String.eqb t' t && Z.eqb l' l && String.eqb c' c then Some (VQ (q * f)%Q) else cell n t' l' c') /\
  (forall t', shape n' t' = shape n t') /\ n_ctrl n' = n_ctrl n.
Proof.
  intros H. pose proof H as H'. apply sub_cell in H' as (tb & S1 & _ & G & _). unfold scale_cell. rewrite S1. cbn [rbind]. rewrite G. cbn [rbind arith num].
  apply net_set_ok. congruence.
Qed.

(** The effect of one reinforcement, cell by cell. *)
Definition written (l : Z) (i r x : Q) (n : network) (t' : string) (l' : Z) (c' : string) : option val :=
  if String.eqb t' "line" && Z.eqb l' l then
    if String.eqb c' "in_service" then Some (VB true)
    else if String.eqb c' "max_i_ka" then Some (VQ i)
    else if String.eqb c' "r_ohm_per_km" then Some (VQ r)
    else if String.eqb c' "x_ohm_per_km" then Some (VQ x)
    else cell n t' l' c'
  else cell n t' l' c'.

Lemma reinforce_ok s3 n l v i r x c : line_data n l v i r x ->
  exists n', reinforce s3 "line" "line" l (Ok c) n = Ok n' /\
    (let i' := (i + kiloamps s3 c v)%Q in
     forall t' l' c', cell n' t' l' c' = written l i' (r * (i / i'))%Q (x * (i / i'))%Q n t' l' c') /\
    (forall t', shape n' t' = shape n t') /\ n_ctrl n' = n_ctrl n.
Proof.
  intros (Hi & Hr & Hx & (s & Hs) & b & Hb & Hv). unfold reinforce.
  destruct (net_set_ok n "line" l "in_service" (VB true)) as (n1 & -> & C1 & S1 & K1); [congruence|]. cbn [rbind].
  rewrite (line_voltage_ok n1 l b v) by (rewrite C1; cbn; rewrite ?Z.eqb_refl, ?andb_false_r; auto). cbn [rbind].
  assert (Ci : cell n1 "line" l "max_i_ka" = Some (VQ i)) by (rewrite C1; cbn; rewrite ?Z.eqb_refl; auto).
  pose proof Ci as Ci'. apply sub_cell in Ci' as (tb & -> & _ & Gi & _). cbn [rbind]. rewrite Gi. cbn [rbind arith num].
  destruct (net_set_ok n1 "line" l "max_i_ka" (VQ (i + kiloamps s3 c v))) as (n2 & -> & C2 & S2 & K2); [congruence|]. cbn [rbind].
  destruct (scale_cell_ok "line" l "r_ohm_per_km" (i / (i + kiloamps s3 c v)) n2 r) as (n3 & -> & C3 & S3 & K3).
  { rewrite C2. cbn. rewrite Z.eqb_refl. cbn. rewrite C1. cbn. rewrite Z.eqb_refl. exact Hr. }
  cbn [rbind].
  destruct (scale_cell_ok "line" l "x_ohm_per_km" (i / (i + kiloamps s3 c v)) n3 x) as (n4 & -> & C4 & S4 & K4).
  { rewrite C3. cbn. rewrite Z.eqb_refl. cbn. rewrite C2. cbn. rewrite Z.eqb_refl. cbn. rewrite C1. cbn. rewrite Z.eqb_refl. exact Hx. }
  exists n4. split; auto. cbv zeta. sp; [|congruence..].
  intros t' l' c'. rewrite C4, C3, C2, C1. unfold written.
  destruct (String.eqb t' "line" && Z.eqb l' l); cbn [andb]; auto.
  destruct (String.eqb_spec c' "x_ohm_per_km") as [->|]; auto. destruct (String.eqb_spec c' "r_ohm_per_km") as [->|]; auto.
  destruct (String.eqb_spec c' "max_i_ka") as [->|]; auto.
Qed.

(** ** lists of lines *)

Definition reinforce_all (s3 : Q) (ts : list (Z * Q)) (n : network) : res network :=
  foldM (fun n lc => reinforce s3 "line" "line" (fst lc) (Ok (snd lc)) n) ts n.

Lemma foldM_app2 {A S} (f : S -> A -> res S) l1 : forall l2 s, foldM f (l1 ++ l2) s = do s' <- foldM f l1 s; foldM f l2 s'.
Proof. induction l1 as [|a l1 IH]; intros l2 s; simpl; auto. destruct (f s a); cbn [rbind]; auto. Qed.

Lemma cluster_targets s3 cs : forall ps k pre n, List.length ps = List.length cs -> List.length pre = k ->
  foldM (fun n ip => reinforce s3 "line" "line" (snd ip - 1)%Z (cluster_capacity (CList (pre ++ cs)) (fst ip)) n)
        (combine (seq k (List.length ps)) ps) n =
  reinforce_all s3 (combine (map (fun p => p - 1)%Z ps) cs) n.
Proof.
  unfold reinforce_all. induction cs as [|c cs IH]; intros [|p ps] k pre n L Lp; simpl in L; try discriminate; auto.
  cbn [List.length seq combine map foldM fst snd]. cbn [cluster_capacity].
  rewrite nth_error_app2, Lp, Nat.sub_diag by lia. cbn [nth_error].
  destruct (reinforce s3 "line" "line" (p - 1) (Ok c) n) as [n'|e]; cbn [rbind]; auto.
  specialize (IH ps (S k) (pre ++ [c]) n'). rewrite <- app_assoc in IH. cbn [app cluster_capacity] in IH. apply IH; auto. rewrite app_length. simpl. lia.
Qed.

Lemma apply_update_targets s3 u n : line_update u -> apply_update s3 n u = reinforce_all s3 (targets u) n.
Proof.
  intros (T & H). unfold apply_update, targets. rewrite T. cbn. destruct (u_pos u) as [p|ps|p]; destruct (u_cap u) as [c|cs|]; try contradiction.
  - unfold reinforce_all. cbn [foldM fst snd single_capacity]. now destruct (reinforce _ _ _ _ _ _).
  - rewrite <- (cluster_targets s3 cs ps 0 [] n) by auto. reflexivity.
Qed.

Lemma updates_targets s3 us : forall n, Forall line_update us -> foldM (apply_update s3) us n = reinforce_all s3 (flat_map targets us) n.
Proof.
  induction us as [|u us IH]; intros n H; auto. inversion H as [|? ? Hu Hus]; subst. cbn [foldM flat_map]. unfold reinforce_all. rewrite foldM_app2.
  rewrite apply_update_targets by auto. unfold reinforce_all. destruct (foldM _ (targets u) n); cbn [rbind]; auto. apply IH; auto.
Qed.

(** The line keeps its voltage through a reinforcement of any line. *)
Lemma written_line n n' l l' v i r x i2 r2 x2 :
  (forall t' l'' c', cell n' t' l'' c' = written l i2 r2 x2 n t' l'' c') -> line_data n l' v i r x ->
  if Z.eqb l' l then line_data n' l' v i2 r2 x2 else line_data n' l' v i r x.
Proof.
  intros C (Hi & Hr & Hx & (s & Hs) & b & Hb & Hv). destruct (Z.eqb_spec l' l) as [->|N].
  - unfold line_data. rewrite !C. unfold written. cbn. rewrite Z.eqb_refl. sp; eauto. exists b. rewrite !C. unfold written. cbn. destruct (Z.eqb l l); auto.
  - unfold line_data. rewrite !C. unfold written. cbn. destruct (Z.eqb_spec l' l); [contradiction|]. sp; eauto. exists b. rewrite !C. unfold written. cbn. destruct (Z.eqb l' l); auto.
Qed.

Lemma line_data_inj n l v i r x v' i' r' x' : line_data n l v i r x -> line_data n l v' i' r' x' -> v = v' /\ i = i' /\ r = r' /\ x = x'.
Proof.
  intros (A1 & A2 & A3 & _ & b & A4 & A5) (B1 & B2 & B3 & _ & b' & B4 & B5).
  assert (b' = b) by congruence. subst b'. sp; congruence.
Qed.

Lemma kiloamps_mw s3 c v : (0 < s3)%Q -> (0 < v)%Q -> (kiloamps s3 c v * s3 * v == c)%Q.
Proof.
  intros H1 H2. unfold kiloamps. field. split; intros E; rewrite E in *; discriminate.
Qed.

Lemma kiloamps_nonneg s3 c v : (0 < s3)%Q -> (0 < v)%Q -> (0 <= c)%Q -> (0 <= kiloamps s3 c v)%Q.
Proof.
  intros H1 H2 H3. apply Qnot_lt_le. intros L.
  assert (kiloamps s3 c v * (s3 * v) < 0 * (s3 * v))%Q as M.
  { apply Qmult_lt_compat_r; auto. rewrite <- (Qmult_0_l v). apply Qmult_lt_compat_r; auto. }
  rewrite Qmult_assoc, kiloamps_mw, Qmult_0_l in M by auto. apply Qlt_not_le in M. contradiction.
Qed.

Lemma total_zero l ts : ~ In l (map fst ts) -> (total_mw l ts == 0)%Q.
Proof.
  induction ts as [|[l' c] ts IH]; intros H; simpl in *; [reflexivity|]. destruct (Z.eqb_spec l' l); [exfalso; auto|]. apply IH. auto.
Qed.

(** The whole list. *)
Lemma reinforce_all_ok s3 ts : (0 < s3)%Q -> forall n,
  (forall l c, In (l, c) ts -> (0 <= c)%Q /\ exists v i r x, line_data n l v i r x /\ (0 < v)%Q /\ (0 < i)%Q) ->
  exists n', reinforce_all s3 ts n = Ok n' /\
    (forall l v i r x, line_data n l v i r x -> (0 < v)%Q -> (0 < i)%Q ->
       exists i' r' x', line_data n' l v i' r' x' /\ ((i' - i) * s3 * v == total_mw l ts)%Q /\ (i <= i')%Q /\
         (r' * i' == r * i)%Q /\ (x' * i' == x * i)%Q) /\
    (forall l, In l (map fst ts) -> cell n' "line" l "in_service" = Some (VB true)) /\
    (forall t l c, ~ (t = "line" /\ In l (map fst ts) /\ In c line_columns) -> cell n' t l c = cell n t l c) /\
    (forall t, shape n' t = shape n t) /\ n_ctrl n' = n_ctrl n.
Proof.
  intros P3. induction ts as [|[l0 c0] ts IH]; intros n H.
  - exists n. sp; auto.
    + intros l v i r x D _ _. exists i, r, x. sp; auto; try reflexivity; [|apply Qle_refl]. simpl. ring.
    + intros l [].
  - destruct (H l0 c0) as (Hc & v & i & r & x & D & Pv & Pi); [now left|].
    destruct (reinforce_ok s3 n l0 v i r x c0 D) as (n1 & E1 & C1 & S1 & K1). cbv zeta in C1.
    set (i' := (i + kiloamps s3 c0 v)%Q) in *.
    assert (Pi' : (0 < i')%Q).
    { unfold i'. apply Qlt_le_trans with i; auto. rewrite <- (Qplus_0_r i) at 1. apply Qplus_le_r. now apply kiloamps_nonneg. }
    assert (Li : (i <= i')%Q).
    { unfold i'. rewrite <- (Qplus_0_r i) at 1. apply Qplus_le_r. now apply kiloamps_nonneg. }
    destruct (IH n1) as (n' & E' & F1 & F2 & F3 & F4 & F5).
    { intros l c I. destruct (H l c) as (Hc' & v2 & i2 & r2 & x2 & D2 & Pv2 & Pi2); [now right|]. split; auto.
      pose proof (written_line _ _ _ _ _ _ _ _ _ _ _ C1 D2) as W. destruct (Z.eqb_spec l l0) as [->|N].
      - destruct (line_data_inj _ _ _ _ _ _ _ _ _ _ D2 D) as (-> & _). eauto 8.
      - eauto 8. }
    exists n'. unfold reinforce_all. cbn [foldM fst snd]. rewrite E1. cbn [rbind]. sp; auto; try congruence.
    + intros l v2 i2 r2 x2 D2 Pv2 Pi2. pose proof (written_line _ _ _ _ _ _ _ _ _ _ _ C1 D2) as W.
      cbn [total_mw fold_right fst snd]. fold (total_mw l ts). rewrite (Z.eqb_sym l0 l). destruct (Z.eqb_spec l l0) as [->|N].
      * assert (v2 = v /\ i2 = i /\ r2 = r /\ x2 = x) as (-> & -> & -> & ->) by (eapply line_data_inj; eauto).
        destruct (F1 _ _ _ _ _ W Pv Pi') as (i3 & r3 & x3 & D3 & T3 & L3 & R3 & X3). exists i3, r3, x3. sp; auto.
        -- rewrite <- T3, <- (kiloamps_mw s3 c0 v) by auto. unfold i'. ring.
        -- eapply Qle_trans; eauto.
        -- rewrite R3. field. intros E. rewrite E in Pi'. discriminate.
        -- rewrite X3. field. intros E. rewrite E in Pi'. discriminate.
      * destruct (F1 _ _ _ _ _ W Pv2 Pi2) as (i3 & r3 & x3 & D3 & T3 & L3 & R3 & X3). exists i3, r3, x3. sp; auto.
    + intros l [<-|I]; auto. destruct (in_dec Z.eq_dec l0 (map fst ts)) as [I|I]; auto. cbn [fst].
      rewrite F3 by tauto. rewrite C1. unfold written. cbn. now rewrite Z.eqb_refl.
    + intros t l c N. rewrite F3.
      * rewrite C1. unfold written. destruct (String.eqb_spec t "line") as [->|]; cbn [andb]; auto. destruct (Z.eqb_spec l l0) as [->|]; auto.
        repeat match goal with |- context [String.eqb c ?s] => destruct (String.eqb_spec c s) as [->|]; [exfalso; apply N; cbn; tauto|] end. reflexivity.
      * intros (A & B & C). apply N. sp; auto. now right.
Qed.

Lemma total_perm l ts ts' : Permutation ts ts' -> (total_mw l ts == total_mw l ts')%Q.
Proof.
  induction 1 as [|[a b] ts ts' P IH|[a b] [a' b'] ts|]; simpl; try reflexivity.
  - destruct (Z.eqb a l); rewrite IH; reflexivity.
  - destruct (Z.eqb a l), (Z.eqb a' l); ring.
  - now rewrite IHPermutation1.
Qed.

Lemma flat_map_perm {A B} (f : A -> list B) l l' : Permutation l l' -> Permutation (flat_map f l) (flat_map f l').
Proof.
  induction 1 as [|a l l' P IH|a b l|]; simpl; auto.
  - now apply Permutation_app_head.
  - rewrite !app_assoc. apply Permutation_app_tail. apply Permutation_app_comm.
  - eapply Permutation_trans; eauto.
Qed.

Lemma cell_eq_refl o : cell_eq o o.
Proof. destruct o as [[| | | |]|]; simpl; auto; reflexivity. Qed.

(** ** loads *)

(** The table of loads: every load has a bus number. *)
Definition load_table (n : network) (idx : list Z) (cols : list string) : Prop :=
  shape n "load" = Some (idx, cols) /\ In "bus" cols /\ forall l, In l idx -> exists b, cell n "load" l "bus" = Some (VZ b).

(** [l] is the first load at bus [b]. *)
Definition first_load (n : network) (idx : list Z) (b l : Z) : Prop :=
  exists pre post, idx = pre ++ l :: post /\ cell n "load" l "bus" = Some (VZ b) /\
    forall l', In l' pre -> cell n "load" l' "bus" <> Some (VZ b).

Lemma load_rows n idx cols b : load_table n idx cols -> exists t, sub n "load" = Ok t /\ t_index t = idx /\ t_cols t = cols /\
  labels_where t "bus" (VZ b) = Ok (filter (fun l => val_eqb (t_cell t l "bus") (VZ b)) idx) /\
  (forall l, In l idx -> (val_eqb (t_cell t l "bus") (VZ b) = true <-> cell n "load" l "bus" = Some (VZ b))).
Proof.
  intros (Sh & Cb & Hb). unfold shape in Sh. unfold sub. destruct (d_get "load" (n_tables n)) as [t|] eqn:E; [|discriminate].
  cbn [option_map] in Sh. injection Sh as <- <-. exists t. sp; auto.
  - unfold labels_where. now apply has_col_spec in Cb as ->.
  - intros l I. destruct (Hb l I) as (b' & H). rewrite H. rewrite cell_tcell, E in H. unfold tcell in H.
    apply has_label_spec in I. apply has_col_spec in Cb. rewrite I, Cb in H. cbn [andb] in H. injection H as ->. cbn [val_eqb]. rewrite Z.eqb_eq. split; congruence.
Qed.

Lemma filter_none {A} (f : A -> bool) l : (forall a, In a l -> f a = false) -> filter f l = [].
Proof.
  induction l as [|a l IH]; intros H; auto. simpl. rewrite H by now left. apply IH. intros; apply H; now right.
Qed.

Lemma set_load_ok u n idx cols b l : u_type u = "load" -> u_pos u = PInt b -> load_table n idx cols -> first_load n idx b l ->
  set_load u n = net_set n "load" l (u_name u) (u_value u).
Proof.
  intros T P L (pre & post & E & Hl & Hp). destruct (load_rows n idx cols b L) as (t & S1 & Ei & _ & W & Q).
  unfold set_load. rewrite T, S1, P. cbn [rbind]. rewrite W. cbn [rbind]. rewrite E, filter_app, filter_none.
  - cbn [app filter]. destruct (Q l) as [_ Q2]; [rewrite E; apply in_or_app; right; now left|]. now rewrite (Q2 Hl).
  - intros a I. destruct (val_eqb (t_cell t a "bus") (VZ b)) eqn:X; auto. apply Q in X; [|rewrite E; apply in_or_app; now left]. exfalso. eapply Hp; eauto.
Qed.

Lemma set_load_none u n idx cols b : u_type u = "load" -> u_pos u = PInt b -> load_table n idx cols ->
  (forall l, In l idx -> cell n "load" l "bus" <> Some (VZ b)) -> set_load u n = Err IndexError.
Proof.
  intros T P L H. destruct (load_rows n idx cols b L) as (t & S1 & Ei & _ & W & Q).
  unfold set_load. rewrite T, S1, P. cbn [rbind]. rewrite W. cbn [rbind]. rewrite filter_none; auto.
  intros a I. destruct (val_eqb (t_cell t a "bus") (VZ b)) eqn:X; auto. apply Q in X; auto. exfalso. eapply H; eauto.
Qed.

Lemma first_load_dec n idx cols b : load_table n idx cols -> (exists l, first_load n idx b l) \/ (forall l, In l idx -> cell n "load" l "bus" <> Some (VZ b)).
Proof.
  intros (_ & _ & H). assert (G : forall pre post, idx = pre ++ post -> (forall l', In l' pre -> cell n "load" l' "bus" <> Some (VZ b)) ->
    (exists l, first_load n idx b l) \/ (forall l, In l idx -> cell n "load" l "bus" <> Some (VZ b))).
  { intros pre post. revert pre. induction post as [|l post IH]; intros pre E Hp.
    - right. rewrite List.app_nil_r in E. now subst.
    - destruct (H l) as (b' & Hb); [rewrite E; apply in_or_app; right; now left|]. destruct (Z.eq_dec b' b) as [->|N].
      + left. exists l, pre, post. auto.
      + apply (IH (pre ++ [l])); [now rewrite <- app_assoc|]. intros l' I. apply in_app_or in I as [I|[<-|[]]]; auto. congruence. }
  now apply (G [] idx).
Qed.

Lemma in_cell n idx cols l c : shape n "load" = Some (idx, cols) -> In l idx -> In c cols -> cell n "load" l c <> None.
Proof.
  unfold shape. rewrite cell_tcell. destruct (d_get "load" (n_tables n)) as [t|]; [|discriminate]. cbn [option_map]. intros E I1 I2. injection E as <- <-.
  unfold tcell. apply has_label_spec in I1 as ->. apply has_col_spec in I2 as ->. discriminate.
Qed.

Definition load_update (cols : list string) (u : update) : Prop :=
  u_type u = "load" /\ (exists b, u_pos u = PInt b) /\ u_name u <> "bus" /\ In (u_name u) cols.

Lemma set_load_frame u n idx cols b l : load_update cols u -> u_pos u = PInt b -> load_table n idx cols -> first_load n idx b l ->
  exists n', set_load u n = Ok n' /\
    (forall t' l' c', cell n' t' l' c' = if String.eqb t' "load" && Z.eqb l' l && String.eqb c' (u_name u) then Some (u_value u) else cell n t' l' c') /\
    (forall t', shape n' t' = shape n t') /\ n_ctrl n' = n_ctrl n /\ load_table n' idx cols /\ (forall b' l', first_load n' idx b' l' <-> first_load n idx b' l').
Proof.
  intros (T & _ & N & Ic) P L F. rewrite (set_load_ok u n idx cols b l) by auto. pose proof L as (Sh & Cb & Hb).
  assert (Il : In l idx) by (destruct F as (pre & post & -> & _); apply in_or_app; right; now left).
  destruct (net_set_ok n "load" l (u_name u) (u_value u)) as (n' & E & C & S' & K); [eapply in_cell; eauto|].
  assert (B : forall l', cell n' "load" l' "bus" = cell n "load" l' "bus").
  { intros l'. rewrite C. destruct (String.eqb_spec "bus" (u_name u)); [congruence|]. now rewrite andb_false_r. }
  exists n'. sp; auto.
  - unfold load_table. rewrite S'. sp; auto. intros l' I. rewrite B. auto.
  - intros b' l'. unfold first_load. split; intros (pre & post & E1 & E2 & E3); exists pre, post; sp; auto; try (rewrite ?B in *; congruence);
      intros l'' I; specialize (E3 l'' I); rewrite ?B in *; auto.
Qed.

(** Update [u] writes the cell (load [l], column [c]). *)
Definition addresses (n : network) (idx : list Z) (u : update) (l : Z) (c : string) : Prop :=
  u_name u = c /\ exists b, u_pos u = PInt b /\ first_load n idx b l.

Lemma first_load_fun n idx b l l' : first_load n idx b l -> first_load n idx b l' -> l = l'.
Proof.
  intros (p & q & E & H1 & H2) (p' & q' & E' & H1' & H2'). subst idx. revert p' E' H2'.
  induction p as [|a p IH]; intros [|a' p'] E' H2'; cbn in E'; injection E' as Ea Et; subst; auto.
  - exfalso. apply (H2' a'); auto. now left.
  - exfalso. apply (H2 l'); auto. now left.
  - apply (IH (fun l0 I0 => H2 l0 (or_intror I0)) p'); auto. intros; apply H2'; now right.
Qed.

Lemma loads_ok s3 us : forall n idx cols, load_table n idx cols -> Forall (load_update cols) us ->
  (forall u b, In u us -> u_pos u = PInt b -> exists l, first_load n idx b l) ->
  exists n', foldM (apply_update s3) us n = Ok n' /\
    (forall pre u post l, us = pre ++ u :: post -> addresses n idx u l (u_name u) -> (forall u', In u' post -> ~ addresses n idx u' l (u_name u)) ->
       cell n' "load" l (u_name u) = Some (u_value u)) /\
    (forall t l c, ~ (t = "load" /\ exists u, In u us /\ addresses n idx u l c) -> cell n' t l c = cell n t l c) /\
    (forall t, shape n' t = shape n t) /\ n_ctrl n' = n_ctrl n.
Proof.
  induction us as [|u us IH]; intros n idx cols L Fu H.
  - exists n. sp; auto. intros [|] ? ? ? E; discriminate.
  - inversion Fu as [|? ? Hu Hus]; subst. destruct Hu as (T & (b & P) & N & Ic) eqn:EH. destruct (H u b) as (l0 & F0); auto; [now left|].
    destruct (set_load_frame u n idx cols b l0) as (n1 & E1 & C1 & S1 & K1 & L1 & FL); auto.
    assert (A : forall u' l c, addresses n1 idx u' l c <-> addresses n idx u' l c).
    { intros u' l c. unfold addresses. split; intros (A1 & b' & A2 & A3); split; auto; exists b'; split; auto; apply FL; auto. }
    destruct (IH n1 idx cols L1 Hus) as (n' & E' & G1 & G2 & G3 & G4).
    { intros u' b' I P'. destruct (H u' b') as (l' & F'); auto; [now right|]. exists l'. now apply FL. }
    exists n'. cbn [foldM]. unfold apply_update at 1. rewrite T. cbn [String.eqb Ascii.eqb Bool.eqb]. change (String.eqb "load" "load") with true. cbv iota. rewrite E1. cbn [rbind]. sp; auto; try congruence.
    + intros [|u' pre] u0 post l E0 A0 NA; cbn in E0; injection E0 as E0 E2; subst.
      * rewrite G2.
        -- rewrite C1. destruct A0 as (_ & b' & P' & F'). assert (b' = b) by congruence. subst b'.
           rewrite (first_load_fun _ _ _ _ _ F' F0).
           now rewrite Z.eqb_refl, !String.eqb_refl.
        -- intros (_ & u' & I & A'). apply A in A'. now apply (NA u').
      * apply (G1 pre u0 post l); auto; [now apply A|]. intros u'' I A'. apply A in A'. now apply (NA u'').
    + intros t l c NA. rewrite G2.
      * rewrite C1. destruct (String.eqb_spec t "load") as [->|]; cbn [andb]; auto. destruct (Z.eqb_spec l l0) as [->|]; cbn [andb]; auto.
        destruct (String.eqb_spec c (u_name u)) as [->|]; auto. exfalso. apply NA. split; auto. exists u. split; [now left|]. split; eauto.
      * intros (Et & u' & I & A'). apply NA. split; auto. exists u'. split; [now right|]. now apply A.
Qed.

Lemma loads_fail s3 us : forall n idx cols, load_table n idx cols -> Forall (load_update cols) us ->
  (exists u b, In u us /\ u_pos u = PInt b /\ forall l, In l idx -> cell n "load" l "bus" <> Some (VZ b)) ->
  foldM (apply_update s3) us n = Err IndexError.
Proof.
  induction us as [|u us IH]; intros n idx cols L Fu (u0 & b0 & I & P0 & H0); [destruct I|].
  inversion Fu as [|? ? Hu Hus]; subst. pose proof Hu as (T & (b & P) & N & Ic). cbn [foldM]. unfold apply_update at 1. rewrite T. change (String.eqb "load" "load") with true. cbv iota.
  destruct (first_load_dec n idx cols b L) as [(l & F)|NL].
  - destruct I as [->|I].
    + exfalso. assert (b = b0) by congruence. subst b0. destruct F as (pre & post & E & Hl & _). apply (H0 l); auto. rewrite E. apply in_or_app; right; now left.
    + destruct (set_load_frame u n idx cols b l) as (n1 & E1 & C1 & S1 & K1 & L1 & FL); auto. rewrite E1. cbn [rbind]. apply (IH n1 idx cols); auto.
      exists u0, b0. sp; auto. intros l' I'. rewrite C1. destruct (String.eqb_spec "bus" (u_name u)); [congruence|]. rewrite andb_false_r. auto.
  - rewrite (set_load_none u n idx cols b); auto.
Qed.

(** ** controllers *)

Lemma find_position_spec {A} (f : A -> bool) : forall l i pre a post, l = pre ++ a :: post -> f a = true -> (forall x, In x pre -> f x = false) ->
  find_position f i l = (i + Z.of_nat (List.length pre))%Z.
Proof.
  induction l as [|x l IH]; intros i [|y pre] a post E Fa Fp; cbn in E; try discriminate; injection E as -> ->; cbn [find_position].
  - rewrite Fa. simpl. lia.
  - rewrite Fp by now left. rewrite (IH (i + 1)%Z pre a post); auto; [|intros; apply Fp; now right]. cbn [List.length]. lia.
Qed.

Lemma find_position_none {A} (f : A -> bool) : forall l i, (forall x, In x l -> f x = false) -> find_position f i l = (-1)%Z.
Proof. induction l as [|x l IH]; intros i H; auto. cbn [find_position]. rewrite H by now left. apply IH. intros; apply H; now right. Qed.

Lemma py_index_nat {A} (l : list A) k a : nth_error l k = Some a -> py_index l (Z.of_nat k) = Ok a.
Proof.
  intros E. unfold py_index. destruct (Z.ltb_spec (Z.of_nat k) 0); [lia|]. destruct (Z.ltb_spec (Z.of_nat k) 0); [lia|]. rewrite Nat2Z.id, E. reflexivity.
Qed.

Lemma set_nth_app {A} (pre : list A) x y post : set_nth (List.length pre) y (pre ++ x :: post) = pre ++ y :: post.
Proof. induction pre as [|z pre IH]; simpl; auto. now rewrite IH. Qed.

Lemma new_profile_ok ps c pre p post : ps = pre ++ p :: post -> cl_type c = pp_elem p -> cl_var c = pp_var p ->
  (forall q, In q pre -> ~ (pp_elem q = pp_elem p /\ pp_var q = pp_var p)) ->
  new_profile ps c = Ok (mkPP (pp_elem p) (pp_var p) (map (map (fun x => x * cl_centroid c)%Q) (pp_data p))).
Proof.
  intros E T V D. unfold new_profile, profile_position. rewrite (find_position_spec _ ps 0 pre p post); auto.
  - cbn [Z.add]. rewrite (py_index_nat ps (List.length pre) p); [reflexivity|]. rewrite E, nth_error_app2, Nat.sub_diag by lia. reflexivity.
  - rewrite T, V, !String.eqb_refl. reflexivity.
  - intros q I. rewrite T, V. destruct (String.eqb_spec (pp_elem p) (pp_elem q)), (String.eqb_spec (pp_var p) (pp_var q)); auto. exfalso. apply (D q); auto.
Qed.

Lemma update_controller_ok n p pre k post : n_ctrl n = pre ++ k :: post -> k_elem k = pp_elem p -> k_var k = pp_var p ->
  (forall q, In q pre -> ~ (k_elem q = k_elem k /\ k_var q = k_var k)) ->
  update_controller n p = Ok (mkNet (n_tables n) (pre ++ mkCtl (k_elem k) (k_var k) (pp_data p) :: post)).
Proof.
  intros E T V D. unfold update_controller, controller_row. rewrite (find_position_spec _ (n_ctrl n) 0 pre k post); auto.
  - cbn [Z.add]. rewrite (py_index_nat (n_ctrl n) (List.length pre) k); [|rewrite E, nth_error_app2, Nat.sub_diag by lia; reflexivity]. cbn [rbind].
    destruct (Z.ltb_spec (Z.of_nat (List.length pre)) 0); [lia|]. rewrite Nat2Z.id, E, set_nth_app. reflexivity.
  - rewrite T, V, !String.eqb_refl. reflexivity.
  - intros q I. rewrite <- T, <- V. destruct (String.eqb_spec (k_elem q) (k_elem k)), (String.eqb_spec (k_var q) (k_var k)); auto. exfalso. apply (D q); auto.
Qed.

(** ** flexible units *)

Lemma scalar_update_fails s3 n u i : u_pos u = PScalar i -> u_type u <> "load" -> apply_update s3 n u = Err TypeError.
Proof. intros P T. unfold apply_update. destruct (String.eqb_spec (u_type u) "load"); [contradiction|]. now rewrite P. Qed.

Lemma foldM_fails {A S} (f : S -> A -> res S) l a : In a l -> (forall s, exists e, f s a = Err e) -> forall s, exists e, foldM f l s = Err e.
Proof.
  induction l as [|b l IH]; intros I H s; [destruct I|]. cbn [foldM]. destruct (f s b) as [s'|e] eqn:E; cbn [rbind]; eauto.
  destruct I as [->|I]; auto. destruct (H s) as (e & E'). congruence.
Qed.

Lemma flexible_updates_head n r us : flexible_updates n r = Ok us -> tb_vals r <> [] -> exists u, In u us /\ u_type u = "sgen" /\ exists i, u_pos u = PScalar i.
Proof.
  unfold flexible_updates. destruct (index_by n "sgen" "bus" (VZ (tb_bus r))) as [i|]; [|discriminate]. cbn [rbind].
  destruct (poly_index n i) as [j|]; [|discriminate]. cbn [rbind]. intros E N. injection E as <-. destruct (tb_vals r) as [|q qs]; [now destruct N|].
  eexists. split; [apply in_or_app; left; cbn; left; reflexivity|]. cbn. eauto.
Qed.

Lemma index_by_ok n t c z l : index_by n t c (VZ z) = Ok l -> (forall l' q, cell n t l' c <> Some (VQ q)) -> cell n t l c = Some (VZ z).
Proof.
  unfold index_by, sub. rewrite cell_tcell. intros E H. assert (H' : forall q, match d_get t (n_tables n) with Some tb => tcell tb l c | None => None end <> Some (VQ q)) by (intros q; rewrite <- cell_tcell; auto).
  destruct (d_get t (n_tables n)) as [tb|]; [|discriminate]. cbn [rbind] in E. unfold labels_where in E.
  destruct (has_col tb c) eqn:Ec; [|discriminate]. cbn [rbind] in E. destruct (filter _ (t_index tb)) as [|l0 ls] eqn:F; [discriminate|]. injection E as ->.
  assert (I : In l (filter (fun l => val_eqb (t_cell tb l c) (VZ z)) (t_index tb))) by (rewrite F; now left). apply filter_In in I as (I & V).
  unfold tcell in *. apply has_label_spec in I. rewrite I, Ec in *. cbn [andb] in *. destruct (t_cell tb l c) as [q|z'| | |]; cbn in V; try discriminate.
  - exfalso. eapply H'. reflexivity.
  - apply Z.eqb_eq in V. now subst.
Qed.

Lemma poly_index_ok n i l : poly_index n i = Ok l -> (forall l' q, cell n "poly_cost" l' "element" <> Some (VQ q)) ->
  cell n "poly_cost" l "element" = Some (VZ i) /\ cell n "poly_cost" l "et" = Some (VS "sgen").
Proof.
  unfold poly_index, sub. rewrite !cell_tcell. intros E H. assert (H' : forall q, match d_get "poly_cost" (n_tables n) with Some tb => tcell tb l "element" | None => None end <> Some (VQ q)) by (intros q; rewrite <- cell_tcell; auto).
  destruct (d_get "poly_cost" (n_tables n)) as [tb|]; [|discriminate]. cbn [rbind] in E. unfold labels_where in E.
  destruct (has_col tb "element") eqn:Ec; [|discriminate]. cbn [rbind] in E. destruct (has_col tb "et") eqn:Et; [|discriminate].
  destruct (filter _ (filter _ _)) as [|l0 ls] eqn:F; [discriminate|]. injection E as ->.
  match type of F with ?a = _ => assert (I : In l a) by (rewrite F; now left) end. apply filter_In in I as (I & V2). apply filter_In in I as (I & V).
  unfold tcell in *. apply has_label_spec in I. rewrite I, Ec, Et in *. cbn [andb] in *. split.
  - destruct (t_cell tb l "element") as [q|z'| | |]; cbn in V; try discriminate.
    + exfalso. eapply H'. reflexivity.
    + apply Z.eqb_eq in V. now subst.
  - destruct (t_cell tb l "et") as [| | |s|]; cbn in V2; try discriminate. apply String.eqb_eq in V2. now subst.
Qed.
