(** The rows and bounds of the joint problem and its rules. *)
From Coq Require Import List String Bool Arith ZArith QArith Lia Lqa.
From Verif Require Import Base Cases Network GraphData GraphDataProofs CasesProofs HydroTables EnergyTree EnergyTreeSpec EnergyTreeProofs EnergyTreeLinks EnergyTreeData Joint Glpk GlpkSpec GlpkProofs GlpkEnergy GlpkEnergyProofs GlpkTree GlpkRows GlpkParts GlpkNetwork GlpkNetworkSpec GlpkNetworkParts GlpkNetworkPlaces GlpkNetworkRows GlpkNetworkSystem GlpkNetworkValues GlpkFinal GlpkJoint GlpkJointParts GlpkJointSystem GlpkJointSpec.
Import ListNotations.
Open Scope nat_scope.
Open Scope list_scope.
Local Ltac sp := repeat match goal with |- _ /\ _ => split end.

(** The joint model with the links of the joint settings. *)
Definition joint_of (e : energy) (I O : list (list Q)) (m : nm) (first : nat) (pen : Q) : enm := mkEnm (with_water e I O) m (map (fun j => first + j) (seq 0 (nm_days m))) pen.

Lemma conn_of e I O m first pen j : j < nm_days m -> conn (joint_of e I O m first pen) j = first + j.
Proof. intros L. unfold conn, joint_of. cbn [ec_conn]. rewrite (nth_indep _ 0 (first + 0)) by (now rewrite map_length, seq_length). now rewrite (map_nth (fun j => first + j)), seq_nth. Qed.
Lemma vcols_name m p : inside (vcols m) p -> List.length (snd (fst p)) <> 1.
Proof.
  intros (c & I & _). unfold vcols in I. apply in_app_or in I as [I|I]; apply in_flat_map in I as (q & _ & I); apply in_map with (f := fst) in I; [apply common_snd in I|apply opf_snd in I]; cbn [fst] in I; rewrite I; discriminate.
Qed.
Lemma tree_cols_name t p : inside (tree_cols t) p -> List.length (snd (fst p)) = 1.
Proof. intros (c & I & _). apply in_tree_cols in I as (_ & i & _ & [E|[E|[E|E]]]); rewrite E; reflexivity. Qed.

Section Values.
Variables (e : energy) (I O : list (list Q)) (m : nm) (first : nat) (pen : Q).
Notation c := (joint_of e I O m first pen).
Notation fwd := (fwd_of e).
Notation bwd := (bwd_of e).
Notation w := (weight_of e).
Notation inp := (fun j i => entry I i j).
Notation out := (fun j i => entry O i j).
Hypothesis J : joined c fwd bwd w inp out.
Notation t := (tree_of (with_water e I O)).
Notation N := (tm_nodes t).
Notation V := (tm_trees t).
Hypothesis FN : first + nm_days m = N.
Hypothesis F1 : 1 <= first.

Definition tree_facts (s : place -> Q) (v : nat) : Prop :=
  (s (PS v, 0%nat) == 0)%Q /\ (s (TS v, 0%nat) == 0)%Q /\
  (forall n, n < N -> (s (IT v, n) == entry I v n)%Q /\ (0 <= s (PS v, n))%Q /\ (0 <= s (TS v, n))%Q) /\
  (forall n, n < first -> (s (OT v, n) == entry O v n)%Q) /\
  (forall j, j < nm_days m -> (0 <= s (OT v, first + j)%nat)%Q /\ (s (OT v, first + j)%nat == day_energy m (plan_of s) v j)%Q) /\
  (forall n, 1 <= n < N -> (s (PS v, n) == s (side v (snd (fwd n)), fst (fwd n)) + s (IT v, n) - s (OT v, n))%Q /\
     (s (TS v, n) == w n * s (side v (snd (bwd n)), fst (bwd n)) + (1 - w n) * s (side v (snd (fwd n)), fst (fwd n)))%Q).

Lemma link_within s i j : j < nm_days m -> within (rs_bnd (link_spec c i j)) (term_sum s (rs_terms (link_spec c i j))) <-> (s (OT i, first + j)%nat == day_energy m (plan_of s) i j)%Q.
Proof.
  intros L. unfold link_spec, rs_bnd, rs_terms. cbn [fst snd within]. unfold link_terms. rewrite term_cons, conn_of by auto. cbn [fst snd ec_net joint_of].
  assert (E : (term_sum s (map (fun k => ((gen_name Hydro j k, i), (- nm_hours m k * nm_base m)%Q)) (seq 0 (nm_times m))) == - day_energy m (plan_of s) i j)%Q).
  { unfold day_energy, term_sum. rewrite map_map. cbn [fst snd plan_of p_gen]. induction (seq 0 (nm_times m)) as [|k l IH]; [reflexivity|]. cbn [map]. repeat change (qsum (?a :: ?b)) with (a + qsum b)%Q. rewrite IH. ring. }
  rewrite E. split; intros H; lra.
Qed.
Lemma bal_within s i n : within (rs_bnd (bal_spec fwd i n)) (term_sum s (rs_terms (bal_spec fwd i n))) <-> (s (PS i, n) == s (side i (snd (fwd n)), fst (fwd n)) + s (IT i, n) - s (OT i, n))%Q.
Proof. unfold bal_spec, rs_bnd, rs_terms. cbn [fst snd within]. rewrite !term_cons, term_nil. cbn [fst snd]. split; intros H; lra. Qed.
Lemma agg_within s i n : within (rs_bnd (agg_spec fwd bwd w i n)) (term_sum s (rs_terms (agg_spec fwd bwd w i n))) <->
  (s (TS i, n) == w n * s (side i (snd (bwd n)), fst (bwd n)) + (1 - w n) * s (side i (snd (fwd n)), fst (fwd n)))%Q.
Proof.
  unfold agg_spec, rs_bnd, rs_terms. cbn [fst snd within]. set (A := s (side i (snd (bwd n)), fst (bwd n))). set (B := s (side i (snd (fwd n)), fst (fwd n))).
  rewrite term_sum_app, !term_cons, term_nil. cbn [fst snd]. fold A.
  assert (E : (term_sum s (if Qeq_bool (1 - w n) 0 then [] else [((side i (snd (fwd n)), fst (fwd n)), (- (1 - w n))%Q)]) == - ((1 - w n) * B))%Q).
  { destruct (Qeq_bool (1 - w n) 0) eqn:X; [apply Qeq_bool_iff in X; rewrite X, term_nil; ring|]. rewrite term_cons, term_nil. cbn [fst snd]. fold B. ring. }
  rewrite E. split; intros H.
  - assert (G : (s (TS i, n) == w n * A + (1 - w n) * B)%Q) by (setoid_replace (s (TS i, n)) with ((1 * s (TS i, n) + (- w n * A + 0) + - ((1 - w n) * B)) + w n * A + (1 - w n) * B)%Q by ring; rewrite H; ring). exact G.
  - rewrite H. ring.
Qed.
Lemma ramp_within s k i j n u : within (rs_bnd (ramp_spec k i j n u)) (term_sum s (rs_terms (ramp_spec k i j n u))) <-> (- un_ramp u <= s (gen_name k i j, n) - s (gen_name k i (j - 1)%nat, n) <= un_ramp u)%Q.
Proof. unfold ramp_spec, rs_bnd, rs_terms. cbn [fst snd within]. rewrite !term_cons, term_nil. cbn [fst snd]. split; intros H; lra. Qed.
Lemma ramps_within s : (forall r, In r (all_ramp_specs m) -> within (rs_bnd r) (term_sum s (rs_terms r))) <-> ramp_rules m (plan_of s).
Proof.
  split.
  - intros H k i j n u K Li Lj E. specialize (H (ramp_spec k i (j + 1) n u)). rewrite ramp_within in H. replace (j + 1 - 1) with j in H by lia. change (- un_ramp u <= s (gen_name k i (j + 1)%nat, n) - s (gen_name k i j, n) <= un_ramp u)%Q. apply H. apply in_ramp_specs. exists k, i, (j + 1), n, u. sp; auto; try lia; [|split; lia]. destruct K as [-> | ->]; [now left|right; now left].
  - intros H r X. apply in_ramp_specs in X as (k & i & j & n & u & K & (Li & Lj) & J0 & E & ->). apply ramp_within. assert (KK : k = Thermal \/ k = Hydro) by (destruct K as [<-|[<-|[]]]; auto). specialize (H k i (j - 1) n u KK Li ltac:(lia) E). replace (j - 1 + 1) with j in H by lia. exact H.
Qed.

Lemma released_iff v n : v < V -> n < N -> is_released c (OT v, n) = true <-> first <= n.
Proof.
  intros Hv Hn. rewrite is_released_spec. split.
  - intros (i & j & Hi & Hj & E). injection E as _ ->. cbn [ec_net joint_of] in Hj. rewrite conn_of by auto. lia.
  - intros L. exists v, (n - first). cbn [ec_net ec_energy joint_of]. sp; auto; [lia|]. rewrite conn_of by lia. f_equal. lia.
Qed.
Lemma kept_in v p b : v < V -> In (p, b) (kept c inp out) <-> In (p, b) (tree_bnds t inp out) /\ is_released c p = false.
Proof. intros _. unfold kept. rewrite filter_In. cbn [fst]. now rewrite negb_true_iff. Qed.
Lemma not_released p : (forall v, fst p <> OT v) -> is_released c p = false.
Proof. intros H. destruct (is_released c p) eqn:E; [|reflexivity]. apply is_released_spec in E as (i & j & _ & _ & ->). exfalso. now apply (H i). Qed.

Lemma conds_split s : conds (joint_cols c) (joint_bnds c inp out) (joint_specs c fwd bwd w) s <->
  conds (vcols m) (vbnds m) (vspecs m) s /\ ramp_rules m (plan_of s) /\ forall v, v < V -> tree_facts s v.
Proof.
  pose proof (sd_nodes _ _ _ _ _ _ (jn_tree _ _ _ _ _ _ J)) as N2. cbn [ec_energy joint_of] in N2.
  rewrite <- ramps_within. unfold joint_cols, joint_bnds, joint_specs. cbn [ec_energy ec_net joint_of]. split.
  - intros (A & B & D).
    assert (D1 : forall r, In r (bal_specs t fwd) \/ In r (agg_specs t fwd bwd w) \/ In r (net_specs m) \/ In r (all_link_specs c) \/ In r (flat_map (piece_specs m) (periods m)) \/ In r (all_ramp_specs m) -> within (rs_bnd r) (term_sum s (rs_terms r))).
    { intros r H. apply D. rewrite !in_app_iff. tauto. }
    sp.
    + unfold conds. sp.
      * intros p b H. apply A. rewrite !in_app_iff. auto.
      * intros p H X. apply B; [now apply inside_app_r|]. intros Y. apply in_map_iff in Y as ((q & b) & E & Y). cbn [fst] in E. subst q. rewrite !in_app_iff in Y. pose proof (vcols_name m p H) as L. destruct Y as [Y|[Y|Y]].
        -- apply filter_In in Y as (Y & _). apply L. apply (tree_name c inp out p b). now left.
        -- apply X. apply in_map_iff. now exists (p, b).
        -- apply L. apply (tree_name c inp out p b). now right.
      * intros r H. apply D1. rewrite vspecs_split in H. apply in_app_or in H as [H|H]; tauto.
    + intros r H. apply D1. tauto.
    + intros v Hv. assert (K : forall p b, In (p, b) (tree_bnds t inp out) -> is_released c p = false -> within b (s p)) by (intros p b H X; apply A; rewrite !in_app_iff; left; now apply (kept_in v)).
      assert (P0 : (s (PS v, 0%nat) == 0)%Q) by (apply (K (PS v, 0) (Fixed 0)); [apply in_tree_bnds; exists v; auto|apply not_released; intros a E; discriminate E]).
      assert (T0 : (s (TS v, 0%nat) == 0)%Q) by (apply (K (TS v, 0) (Fixed 0)); [apply in_tree_bnds; exists v; auto|apply not_released; intros a E; discriminate E]).
      unfold tree_facts. sp; auto.
      * intros n Hn. sp.
        -- apply (K (IT v, n) (Fixed (entry I v n))); [apply in_tree_bnds; exists v; split; auto; right; right; left; eauto|apply not_released; intros a E; discriminate E].
        -- destruct n as [|n]; [rewrite P0; lra|]. apply B; [apply inside_app_l, (inside_col t v); auto|]. intros Y. apply in_map_iff in Y as ((q & b) & E & Y). cbn [fst] in E. subst q. rewrite !in_app_iff in Y. destruct Y as [Y|[Y|Y]].
           ++ apply filter_In in Y as (Y & _). apply in_tree_bnds in Y as (i & _ & [(E & _)|[(E & _)|[(j & _ & E & _)|(j & _ & E & _)]]]); discriminate E.
           ++ apply (net_name c) in Y. apply Y. reflexivity.
           ++ apply in_released in Y as (Y & _). rewrite not_released in Y; [discriminate Y|]. intros a E. discriminate E.
        -- destruct n as [|n]; [rewrite T0; lra|]. apply B; [apply inside_app_l, (inside_col t v); auto|]. intros Y. apply in_map_iff in Y as ((q & b) & E & Y). cbn [fst] in E. subst q. rewrite !in_app_iff in Y. destruct Y as [Y|[Y|Y]].
           ++ apply filter_In in Y as (Y & _). apply in_tree_bnds in Y as (i & _ & [(E & _)|[(E & _)|[(j & _ & E & _)|(j & _ & E & _)]]]); discriminate E.
           ++ apply (net_name c) in Y. apply Y. reflexivity.
           ++ apply in_released in Y as (Y & _). rewrite not_released in Y; [discriminate Y|]. intros a E. discriminate E.
      * intros n Hn. apply (K (OT v, n) (Fixed (entry O v n))); [apply in_tree_bnds; exists v; split; auto; do 3 right; exists n; sp; auto; lia|]. destruct (is_released c (OT v, n)) eqn:E; [|reflexivity]. apply released_iff in E; lia.
      * intros j Hj. split.
        -- apply (A (OT v, first + j) (Lower 0)). rewrite !in_app_iff. right. right. apply in_released. split; [apply released_iff; lia|reflexivity].
        -- apply link_within; auto. apply D1. do 3 right. left. unfold all_link_specs. apply in_map_iff. exists (v, j). split; [reflexivity|]. apply in_trees_days. split; auto.
      * intros n Hn. split; [apply bal_within|apply agg_within]; apply D1; [left|right; left]; apply in_over; exists v, n; auto.
  - intros ((A & B & D) & R & TF). unfold conds. sp.
    + intros p b H. rewrite !in_app_iff in H. destruct H as [H|[H|H]].
      * apply filter_In in H as (H & E). cbn [fst] in E. apply negb_true_iff in E. apply in_tree_bnds in H as (v & Hv & H). destruct (TF v Hv) as (P0 & T0 & IN & OU & _). destruct H as [(-> & ->)|[(-> & ->)|[(j & Hj & -> & ->)|(j & Hj & -> & ->)]]]; cbn [within]; auto; [now apply IN|]. apply OU. destruct (Nat.lt_ge_cases j first) as [L|L]; [exact L|]. apply (proj2 (released_iff v j Hv Hj)) in L. congruence.
      * now apply A.
      * apply in_released in H as (H & ->). apply is_released_spec in H as (i & j & Hi & Hj & ->). cbn [within ec_energy ec_net joint_of] in *. rewrite conn_of by auto. destruct (TF i Hi) as (_ & _ & _ & _ & L & _). now apply L.
    + intros p H X. apply inside_app_inv in H as [H|H].
      * destruct p as (nm_ & n). destruct H as (k & H & L). apply in_tree_cols in H as (-> & i & Hi & H). cbn [fst snd] in H, L. destruct (TF i Hi) as (_ & _ & IN & OU & LI & _). destruct H as [->|[->|[->| ->]]].
        -- now apply IN.
        -- now apply IN.
        -- exfalso. apply X. apply in_map_iff. exists ((IT i, n), Fixed (entry I i n)). split; [reflexivity|]. rewrite !in_app_iff. left. apply (kept_in i); auto. split; [apply in_tree_bnds; exists i; split; auto; right; right; left; eauto|apply not_released; intros a E; discriminate E].
        -- destruct (Nat.lt_ge_cases n first) as [G|G].
           ++ exfalso. apply X. apply in_map_iff. exists ((OT i, n), Fixed (entry O i n)). split; [reflexivity|]. rewrite !in_app_iff. left. apply (kept_in i); auto. split; [apply in_tree_bnds; exists i; split; auto; do 3 right; eauto|]. destruct (is_released c (OT i, n)) eqn:E; [|reflexivity]. apply released_iff in E; auto. lia.
           ++ destruct (LI (n - first) ltac:(lia)) as (Y & _). replace (first + (n - first)) with n in Y by lia. exact Y.
      * apply B; [exact H|]. intros Y. apply X. apply in_map_iff in Y as (q & <- & Y). apply in_map. rewrite !in_app_iff. auto.
    + intros r H. rewrite !in_app_iff in H. assert (ND : In r (flat_map (piece_specs m) (periods m)) \/ In r (net_specs m) -> within (rs_bnd r) (term_sum s (rs_terms r))) by (intros X; apply D; rewrite vspecs_split; now apply in_or_app).
      destruct H as [[H|[H|H]]|[H|[H|H]]].
      * apply in_over in H as (v & n & Hv & Hn & ->). apply bal_within. destruct (TF v Hv) as (_ & _ & _ & _ & _ & E). now apply E.
      * apply in_over in H as (v & n & Hv & Hn & ->). apply agg_within. destruct (TF v Hv) as (_ & _ & _ & _ & _ & E). now apply E.
      * apply ND. now right.
      * unfold all_link_specs in H. apply in_map_iff in H as ((i & j) & <- & H). apply in_trees_days in H as (Hi & Hj). cbn [fst snd ec_energy ec_net joint_of] in *. apply link_within; auto. destruct (TF i Hi) as (_ & _ & _ & _ & L & _). now apply L.
      * apply ND. now left.
      * now apply R.
Qed.
End Values.

(** ** The states of the tree *)

Lemma entry_table (f : nat -> nat -> Q) V N v n : v < V -> n < N -> entry (map (fun n => map (fun v => f v n) (seq 0 V)) (seq 0 N)) v n = f v n.
Proof.
  intros Hv Hn. unfold entry. rewrite (nth_error_nth _ n [] (x := map (fun v => f v n) (seq 0 V))); [|rewrite nth_error_map, (nth_error_nth' _ 0), seq_nth by (rewrite ?seq_length; auto); reflexivity].
  apply nth_error_nth. rewrite nth_error_map, (nth_error_nth' _ 0), seq_nth by (rewrite ?seq_length; auto). reflexivity.
Qed.
Lemma filled_entry t V N v n : filled t V N -> v < V -> n < N -> entry_of t n v = Ok (entry t v n).
Proof.
  intros (L & R) Hv Hn. unfold entry_of, entry. rewrite (at_some _ n (nth n t [])) by (apply nth_error_nth'; lia). rewrite bind_ok. apply at_some, nth_error_nth'. rewrite Forall_forall in R. rewrite (R (nth n t [])) by (apply nth_In; lia). exact Hv.
Qed.
Lemma feasible_out w i o o' lk f : (forall n, n < lk_bal lk + 1 -> o n = o' n) -> EnergyTree.feasible w i o lk f <-> EnergyTree.feasible w i o' lk f.
Proof.
  intros H. unfold EnergyTree.feasible, balance_rule. split; intros (A & B & C & D & P); sp; auto; intros n Hn; rewrite (B n Hn), (H n Hn); reflexivity.
Qed.

Section States.
Variables (d : level) (data : list level).
Notation V := (rows (lv_inputs d)).
Notation lens := (map lv_names (d :: data)).
Hypothesis F : Forall (level_ok V) (d :: data).
Hypothesis NU : Forall (fun l => lv_unc l = false) (d :: data).
Variables (e : energy) (t : tree).
Hypothesis T : is_tree lens (map lv_unc (d :: data)) t.
Hypothesis EL : en_links e = links_spec lens t (List.length (marked lens t) - 1).
Hypothesis EV : sz_vectors (en_sizes e) = V.
Hypothesis EW : List.length (en_weight e) = EnergyTreeProofs.nodes lens.
Variables (I O : list (list Q)) (m : nm) (first : nat).
Hypothesis FI : filled I V (EnergyTreeProofs.nodes lens).
Hypothesis FO : filled O V (EnergyTreeProofs.nodes lens).
Hypothesis ZI : forall v, v < V -> entry I v 0 = 0%Q.
Hypothesis ZO : forall v, v < V -> entry O v 0 = 0%Q.
Hypothesis FN : first + nm_days m = EnergyTreeProofs.nodes lens.
Hypothesis F1 : 1 <= first.

Lemma states_nodes I' O' : tm_nodes (tree_of (with_water e I' O')) = EnergyTreeProofs.nodes lens.
Proof. cbn [tree_of tm_nodes with_water en_links]. rewrite EL. cbn [lk_bal links_spec]. pose proof (nodes_two d data F). lia. Qed.
Lemma water_sound O' : filled O' V (EnergyTreeProofs.nodes lens) -> sound (tree_of (with_water e I O')) (fwd_of e) (bwd_of e) (weight_of e) (fun j i => entry I i j) (fun j i => entry O' i j).
Proof.
  intros FO'. apply (tree_sound d data F (with_water e I O') t EL T EV EW).
  - intros j i Hj Hi. split; [exact (filled_entry I V _ i j FI Hi Hj)|exact (filled_entry O' V _ i j FO' Hi Hj)].
  - exact NU.
Qed.
Lemma facts_rules s v : v < V -> tree_facts e I O m first s v <->
  (forall n, n < EnergyTreeProofs.nodes lens -> (s (IT v, n) == entry I v n)%Q /\ (s (OT v, n) == drawn m (plan_of s) first O v n)%Q) /\
  (forall j, j < nm_days m -> (0 <= day_energy m (plan_of s) v j)%Q) /\
  EnergyTree.feasible (weight_of e) (entry I v) (drawn m (plan_of s) first O v) (en_links e) (fun n k => s (side v k, n)).
Proof.
  intros Hv. set (D := drawn m (plan_of s) first O). set (O' := map (fun n => map (fun v => D v n) (seq 0 V)) (seq 0 (EnergyTreeProofs.nodes lens))).
  assert (FO' : filled O' V (EnergyTreeProofs.nodes lens)). { unfold filled, O'. split; [now rewrite map_length, seq_length|]. apply Forall_forall. intros r H. apply in_map_iff in H as (n & <- & _). now rewrite map_length, seq_length. }
  assert (EO : forall n, n < EnergyTreeProofs.nodes lens -> entry O' v n = D v n) by (intros n Hn; now apply (entry_table D V (EnergyTreeProofs.nodes lens) v n)).
  pose proof (water_sound O' FO') as SO. pose proof (nodes_two d data F) as N2. pose proof (states_nodes I O') as NN.
  assert (D0 : D v 0 = 0%Q) by (unfold D, drawn; destruct (Nat.leb_spec first 0); [lia|]; now apply ZO).
  assert (DL : forall n, n < first -> D v n = entry O v n) by (intros n Hn; unfold D, drawn; destruct (Nat.leb_spec first n); [lia|reflexivity]).
  assert (DH : forall j, D v (first + j) = day_energy m (plan_of s) v j) by (intros j; unfold D, drawn; destruct (Nat.leb_spec first (first + j)); [f_equal; lia|lia]).
  assert (NB : lk_bal (en_links e) + 1 = EnergyTreeProofs.nodes lens) by (rewrite EL; cbn [lk_bal links_spec]; lia).
  assert (X : (forall n, n < EnergyTreeProofs.nodes lens -> (s (IT v, n) == entry I v n)%Q /\ (s (OT v, n) == D v n)%Q) ->
    (tree_states (tree_of (with_water e I O')) (fwd_of e) (bwd_of e) (weight_of e) (fun j i => entry I i j) (fun j i => entry O' i j) s v <-> EnergyTree.feasible (weight_of e) (entry I v) (D v) (en_links e) (fun n k => s (side v k, n)))).
  { intros H. rewrite (feasible_out _ _ (D v) (entry O' v)) by (intros n Hn; symmetry; apply EO; lia). apply (states_feasible d data F (with_water e I O') t s v EL T NU); [exact (ZI v Hv)| |exact SO|].
    - change (entry O' v 0 = 0%Q). rewrite EO by lia. exact D0.
    - intros j Hj. rewrite NN in Hj. destruct (H j Hj) as (A & B). split; [exact A|]. change (s (OT v, j) == entry O' v j)%Q. now rewrite EO. }
  unfold tree_facts. rewrite (states_nodes I O). split.
  - intros (P0 & T0 & IN & OU & LI & EQ).
    assert (H : forall n, n < EnergyTreeProofs.nodes lens -> (s (IT v, n) == entry I v n)%Q /\ (s (OT v, n) == D v n)%Q).
    { intros n Hn. split; [now apply IN|]. destruct (Nat.lt_ge_cases n first) as [L|L]; [rewrite DL by auto; now apply OU|]. destruct (LI (n - first) ltac:(lia)) as (_ & Y). rewrite <- (DH (n - first)) in Y. replace (first + (n - first)) with n in Y by lia. exact Y. }
    sp.
    + exact H.
    + intros j Hj. destruct (LI j Hj) as (A & B). rewrite <- B. exact A.
    + apply (X H). unfold tree_states. rewrite NN. sp; auto.
      * intros j Hj. rewrite EO by auto. destruct (H j Hj). destruct (IN j Hj) as (_ & A & B). auto.
      * intros n Hn. destruct (EQ n Hn) as (A & B). split; [|exact B]. rewrite A. destruct (H n ltac:(lia)) as (C1 & C2). rewrite C1, C2, EO by lia. reflexivity.
  - intros (H & HE & FE). apply (X H) in FE. unfold tree_states in FE. rewrite NN in FE. destruct FE as (P0 & T0 & B & R). sp; auto.
    + intros n Hn. destruct (B n Hn) as (B1 & _ & B3 & B4). auto.
    + intros n Hn. rewrite <- DL by auto. apply H. lia.
    + intros j Hj. destruct (H (first + j) ltac:(lia)) as (_ & Y). rewrite DH in Y. split; [rewrite Y; now apply HE|exact Y].
    + intros n Hn. destruct (R n Hn) as (A & C). split; [|exact C]. rewrite A. destruct (H n ltac:(lia)) as (C1 & C2). rewrite C1, C2, EO by lia. reflexivity.
Qed.
End States.
