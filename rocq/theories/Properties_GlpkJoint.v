(** Properties of the models built with GLPK: the energy tree and the power system together. *)
From Coq Require Import List String Bool Arith ZArith QArith Lia Lqa.
From Verif Require Import Base Cases Network GraphData GraphDataProofs CasesProofs HydroTables EnergyTree EnergyTreeSpec EnergyTreeProofs EnergyTreeLinks EnergyTreeData EnergyTreeSoC Joint JointSpec JointTree JointEnergy JointExamples Glpk GlpkSpec GlpkProofs GlpkEnergy GlpkEnergyProofs GlpkTree GlpkRows GlpkParts GlpkNetwork GlpkNetworkSpec GlpkNetworkParts GlpkNetworkPlaces GlpkNetworkRows GlpkNetworkSystem GlpkNetworkValues GlpkFinal GlpkJoint GlpkJointParts GlpkJointSystem GlpkJointSpec GlpkJointValues GlpkJointNames Properties_Glpk Properties_GlpkNetwork.
Import ListNotations.
Open Scope nat_scope.
Open Scope list_scope.
Local Ltac sp := repeat match goal with |- _ /\ _ => split end.

(** ** The data of the tree *)

Definition blank (V : nat) (l : level) : level := mkLevel (lv_names l) (lv_weights l) (Mat (repeat (repeat 0%Q (lv_names l)) V)) (Mat (repeat (repeat 0%Q (lv_names l)) V)) (lv_unc l).
Lemma blank_ok V l : level_named l -> level_ok V (blank V l).
Proof.
  intros (W & N). unfold level_ok, blank. cbn [lv_weights lv_names lv_inputs lv_outputs is_vec shaped]. rewrite repeat_length. sp; auto; intros r I; apply repeat_spec in I; subst r; now rewrite repeat_length.
Qed.

Section Coupled.
Variables (V : nat) (d : level) (data : list level) (e : energy) (first : nat) (I O : list (list Q)) (m : nm).
Hypothesis C : coupled V (d :: data) e first I O m.
Notation d' := (blank V d).
Notation data' := (map (blank V) data).
Notation lens := (map lv_names (d :: data)).
Notation lens' := (map lv_names (d' :: data')).
Notation NL := (EnergyTreeProofs.nodes lens).

Lemma blank_rows : rows (lv_inputs d') = V.
Proof. cbn. apply repeat_length. Qed.
Lemma blank_names : lens' = lens.
Proof. cbn [map]. rewrite map_map. reflexivity. Qed.
Lemma blank_unc : map lv_unc (d' :: data') = map lv_unc (d :: data).
Proof. cbn [map]. rewrite map_map. reflexivity. Qed.
Lemma blank_levels : Forall (level_ok (rows (lv_inputs d'))) (d' :: data').
Proof. rewrite blank_rows. change (d' :: data') with (map (blank V) (d :: data)). apply Forall_map. eapply Forall_impl; [|exact (cp_named _ _ _ _ _ _ _ C)]. intros l. apply blank_ok. Qed.
Lemma blank_certain : Forall (fun l => lv_unc l = false) (d' :: data').
Proof. change (d' :: data') with (map (blank V) (d :: data)). apply Forall_map. eapply Forall_impl; [|exact (cp_certain _ _ _ _ _ _ _ C)]. auto. Qed.

Lemma coupled_tree : exists t, is_tree lens (map lv_unc (d :: data)) t /\ en_links e = links_spec lens t (List.length (marked lens t) - 1) /\ sz_vectors (en_sizes e) = V /\ List.length (en_weight e) = NL /\
  lk_bal (en_links e) + 1 = NL /\ first + nm_days m = NL /\ 1 <= first /\ first = off lens (depth lens) /\ nm_days m = width lens (depth lens) /\ (forall n, n < NL -> nth n (en_weight e) 0%Q = jw V d data t n) /\
  exists f, scenario_weights (nm_days m) e = Ok f /\ List.length f = nm_days m /\ forall j, j < nm_days m -> (nth j f 0 == path_weight lens (jw V d data t) (depth lens) j)%Q.
Proof.
  destruct C as [_ N CE ET EL _ _ _ _ _ _ _]. assert (U : lv_unc d = false) by (inversion CE; auto). destruct (energy_of_spec V d data N U) as (t & T & E). rewrite ET in E. injection E as E. exists t. pose proof (joint_pos d data N) as pos. assert (D0 : 0 < depth lens) by (rewrite joint_depth; lia).
  assert (WP : 0 < width lens (depth lens)) by (apply width_pos; auto). assert (N0 : 0 < NL) by (apply off_pos; lia).
  assert (LN : first = off lens (depth lens) /\ nm_days m = width lens (depth lens)).
  { unfold last_level in EL. rewrite E in EL. cbn [en_tree en_sizes] in EL. assert (Pd : sz_periods (jsz V d data) = depth lens) by reflexivity. rewrite Pd in EL.
    assert (Tm : nth_error (tr_time t) (depth lens) = Some (off lens (depth lens), off lens (depth lens + 1) - 1)) by (apply (it_time _ _ _ T); lia). rewrite (proj2 (at_nth _ _ _) Tm), bind_ok in EL. cbn [fst snd] in EL. assert (E1 : off lens (depth lens) = first) by congruence. assert (E2 : 1 + (off lens (depth lens + 1) - 1) - off lens (depth lens) = nm_days m) by congruence. rewrite off_S in E2. split; [symmetry; exact E1|lia]. }
  destruct LN as (L1 & L2). assert (NS : NL = off lens (depth lens) + width lens (depth lens)) by (unfold EnergyTreeProofs.nodes; rewrite off_S; lia).
  sp; auto; try lia.
  - now rewrite E.
  - now rewrite E.
  - rewrite E. cbn [en_weight]. now rewrite map_length, seq_length.
  - rewrite E. cbn [en_links lk_bal links_spec]. change (NL - 1 + 1 = NL). lia.
  - rewrite L1. apply off_pos. lia.
  - intros n Hn. rewrite E. cbn [en_weight]. apply nth_error_nth. rewrite nth_error_map, (nth_error_nth' _ 0), seq_nth by (rewrite ?seq_length; auto). reflexivity.
  - destruct (scenario_weights_spec V d data N t T e E) as (f & Ef & Lf & Hf). rewrite <- L2 in *. exists f. sp; auto. intros j Hj. destruct (Hf j Hj) as (q & Hq & HQ). rewrite (nth_error_nth _ _ _ Hq). exact HQ.
Qed.

Variable pen : Q.
Notation c := (joint_of e I O m first pen).
Notation inp := (fun j i => entry I i j).
Notation out := (fun j i => entry O i j).

Lemma coupled_joined : joined c (fwd_of e) (bwd_of e) (weight_of e) inp out /\ tm_nodes (tree_of (with_water e I O)) = NL /\ tm_trees (tree_of (with_water e I O)) = V /\
  forall s v, v < V -> tree_facts e I O m first s v <->
  (forall n, n < NL -> (s (IT v, n) == entry I v n)%Q /\ (s (OT v, n) == drawn m (plan_of s) first O v n)%Q) /\
  (forall j, j < nm_days m -> (0 <= day_energy m (plan_of s) v j)%Q) /\
  EnergyTree.feasible (weight_of e) (entry I v) (drawn m (plan_of s) first O v) (en_links e) (fun n k => s (side v k, n)).
Proof.
  destruct coupled_tree as (t & T & EL & EV & EW & NB & FN & F1 & _ & _ & _ & _). pose proof blank_levels as F. pose proof blank_certain as NU.
  pose proof (water_sound d' data' F NU e t) as WS. pose proof (states_nodes d' data' F e t) as SN. pose proof (facts_rules d' data' F NU e t) as FR. rewrite blank_names, blank_unc, blank_rows in *. specialize (WS T EL EV EW I). specialize (SN EL EV EW m first FN F1 I O).
  assert (FI : filled I V NL) by (rewrite <- NB; apply (cp_in _ _ _ _ _ _ _ C)). assert (FO : filled O V NL) by (rewrite <- NB; apply (cp_out _ _ _ _ _ _ _ C)).
  assert (TV : tm_trees (tree_of (with_water e I O)) = V) by exact EV. sp; auto.
  - constructor; cbn [ec_energy ec_net ec_conn joint_of].
    + exact (WS FI O FO).
    + apply (cp_net _ _ _ _ _ _ _ C).
    + apply (cp_flag _ _ _ _ _ _ _ C).
    + apply (cp_times _ _ _ _ _ _ _ C).
    + rewrite TV. pose proof (cp_units _ _ _ _ _ _ _ C). lia.
    + rewrite map_length, seq_length. split; [lia|]. intros j Hj. change (conn c j < tm_nodes (tree_of (with_water e I O))). rewrite conn_of, SN by auto. lia.
  - intros s v Hv. apply FR; auto; intros u Hu; apply (cp_zero _ _ _ _ _ _ _ C); auto.
Qed.

Lemma vspecs_proper r : In r (vspecs m) -> proper (rs_bnd r) = true.
Proof. intros H. apply in_vspecs in H. destruct H; reflexivity. Qed.

Theorem joint_solver : apart c -> exists f l S (vw : (nat -> Q) -> place -> Q), scenario_weights (nm_days m) e = Ok f /\ definition_enm c = Ok l /\ run l = Ok S /\ (solvable S = true <-> limits_ok m /\ ramps_ok m) /\
  (forall x, Glpk.feasible S x <-> joint_rules e I O m first (plan_of (vw x)) (fun v n k => vw x (side v k, n)) /\
     forall v n, v < V -> n < NL -> (vw x (IT v, n) == entry I v n)%Q /\ (vw x (OT v, n) == drawn m (plan_of (vw x)) first O v n)%Q) /\
  (forall x n o, inside (joint_cols c) (n, o) -> primal S x n o = Ok (vw x (n, o))) /\
  (forall s, exists x, (forall q, inside (joint_cols c) q -> vw x q = s q) /\
     (joint_rules e I O m first (plan_of s) (fun v n k => s (side v k, n)) -> (forall v n, v < V -> n < NL -> (s (IT v, n) == entry I v n)%Q /\ (s (OT v, n) == drawn m (plan_of s) first O v n)%Q) -> Glpk.feasible S x) /\
     (get_objective S x == plan_cost m (plan_of s) (fun i => nth i f 0) pen)%Q) /\
  (forall x, (get_objective S x == plan_cost m (plan_of (vw x)) (fun i => nth i f 0) pen)%Q).
Proof.
  intros NM. destruct coupled_tree as (t & T & EL & EV & EW & NB & FN & F1 & _ & _ & _ & f & Ef & Lf & _). destruct coupled_joined as (J & SN & TV & FR).
  destruct (joint_run c _ _ _ _ _ J NM f Ef) as (l & S & DE & R & SO & vw & FE & PR & SU & OB). exists f, l, S, vw. pose proof (cp_net _ _ _ _ _ _ _ C) as U. pose proof (cp_flag _ _ _ _ _ _ _ C) as FL.
  assert (CR : forall s, conds (joint_cols c) (joint_bnds c inp out) (joint_specs c (fwd_of e) (bwd_of e) (weight_of e)) s <-> joint_rules e I O m first (plan_of s) (fun v n k => s (side v k, n)) /\
     forall v n, v < V -> n < NL -> (s (IT v, n) == entry I v n)%Q /\ (s (OT v, n) == drawn m (plan_of s) first O v n)%Q).
  { intros s. rewrite (conds_split e I O m first pen J) by (rewrite ?SN; auto). rewrite (conds_rules m s (plan_of s) U (agrees_plan s)). rewrite TV. unfold joint_rules. rewrite EV. split.
    - intros (A & B & D). sp; auto.
      + intros v Hv. specialize (D v Hv). apply (FR s v Hv) in D as (_ & D1 & D2). auto.
      + intros v n Hv Hn. specialize (D v Hv). apply (FR s v Hv) in D as (D & _). now apply D.
    - intros ((A & B & D) & E). sp; auto. intros v Hv. apply (FR s v Hv). destruct (D v Hv) as (D1 & D2). sp; auto. }
  assert (EXT : forall s s', (forall q, inside (joint_cols c) q -> s q = s' q) -> conds (joint_cols c) (joint_bnds c inp out) (joint_specs c (fwd_of e) (bwd_of e) (weight_of e)) s -> conds (joint_cols c) (joint_bnds c inp out) (joint_specs c (fwd_of e) (bwd_of e) (weight_of e)) s').
  { intros s s' H. apply conds_ext; auto.
    - intros q b. apply (joint_bnds_inside c _ _ _ _ _ J).
    - intros r q K. apply (proj2 (own_of c _ _ _ _ _ J r K)). }
  assert (OBJ : forall s, (term_sum s (joint_objs c f) == plan_cost m (plan_of s) (fun i => nth i f 0) pen)%Q) by (intros s; unfold joint_objs; cbn [ec_net ec_penalty joint_of]; apply costs_sum; auto; apply agrees_plan).
  sp; auto.
  - rewrite SO. split.
    + intros (A & B). split.
      * apply proper_limits. intros q b H. apply (A q b). unfold joint_bnds. rewrite !in_app_iff. right. left. now apply in_vbnds.
      * intros D0 T1 k u K H. apply In_nth_error in H as (n & H). specialize (B (ramp_spec k 0 1 n u)). unfold ramp_spec, rs_bnd in B. cbn [snd proper] in B.
        assert (G : negb (Qle_bool (un_ramp u) (- un_ramp u)) = true). { apply B. unfold joint_specs. rewrite !in_app_iff. do 3 right. apply in_ramp_specs. exists k, 0, 1, n, u. cbn [ec_net joint_of]. sp; auto; [|split; lia]. destruct K as [-> | ->]; [now left|right; now left]. }
        apply negb_true_iff in G. destruct (Qlt_le_dec 0 (un_ramp u)) as [P|P]; [exact P|]. assert (X : (un_ramp u <= - un_ramp u)%Q) by lra. apply Qle_bool_iff in X. congruence.
    + intros (L & RA). split.
      * intros q b H. unfold joint_bnds in H. rewrite !in_app_iff in H. destruct H as [H|[H|H]].
        -- unfold kept in H. apply filter_In in H as (H & _). apply in_tree_bnds in H as (i & _ & [(_ & ->)|[(_ & ->)|[(j & _ & _ & ->)|(j & _ & _ & ->)]]]); reflexivity.
        -- apply (limits_proper m L q). now apply in_vbnds.
        -- apply in_released in H as (_ & ->). reflexivity.
      * intros r H. unfold joint_specs in H. cbn [ec_net ec_energy joint_of] in H. rewrite !in_app_iff in H. destruct H as [[H|[H|H]]|[H|[H|H]]].
        -- apply in_over in H as (i & n & _ & _ & ->). reflexivity.
        -- apply in_over in H as (i & n & _ & _ & ->). reflexivity.
        -- apply vspecs_proper. rewrite vspecs_split. apply in_or_app. now right.
        -- unfold all_link_specs in H. apply in_map_iff in H as ((i & j) & <- & _). reflexivity.
        -- apply vspecs_proper. rewrite vspecs_split. apply in_or_app. now left.
        -- apply in_ramp_specs in H as (k & i & j & n & u & K & (P1 & P2) & Z & E & ->). unfold ramp_spec, rs_bnd. cbn [snd proper]. apply negb_true_iff. destruct (Qle_bool (un_ramp u) (- un_ramp u)) eqn:G; [|reflexivity]. apply Qle_bool_iff in G. assert (X : (0 < un_ramp u)%Q). { apply (RA ltac:(lia) ltac:(lia) k u); [destruct K as [<-|[<-|[]]]; auto|]. now apply nth_error_In in E. } lra.
  - intros x. rewrite FE. apply CR.
  - intros x n o H. apply PR. now apply (inside_name _ n o).
  - intros s. destruct (SU s) as (x & X). exists x. sp; auto.
    + intros A B. apply FE. apply (EXT s); [intros q H; symmetry; now apply X|]. apply CR. auto.
    + unfold get_objective. rewrite OB, <- OBJ. apply term_sum_ext. intros (q & a) H. cbn [fst]. rewrite X; [reflexivity|]. apply inside_net. exact (objs_inside m _ _ q a FL H).
  - intros x. unfold get_objective. rewrite OB. apply OBJ.
Qed.

Lemma feasible_ext w i o f g : (forall n k, n < NL -> k < 2 -> f n k = g n k) -> EnergyTree.feasible w i o (en_links e) f -> EnergyTree.feasible w i o (en_links e) g.
Proof.
  intros H (A & B & D & _ & P). destruct coupled_tree as (t & T & EL & EV & EW & NB & FN & F1 & _). destruct coupled_joined as (J & SN & _). pose proof (jn_tree _ _ _ _ _ _ J) as SO. cbn [ec_energy joint_of] in SO.
  pose proof (no_marks d' data' t) as NMK. rewrite blank_names, blank_unc in NMK. destruct (NMK T blank_certain) as (M1 & M2).
  assert (R : forall n, n < NL -> fst (nth n (lk_ll1 (en_links e)) (0, 0)) < NL /\ snd (nth n (lk_ll1 (en_links e)) (0, 0)) < 2).
  { intros n Hn. destruct n as [|n]; [rewrite EL; cbn [links_spec lk_ll1 ll1_spec nth fst snd]; lia|]. destruct (sd_fwd _ _ _ _ _ _ SO (Datatypes.S n)) as (_ & X & Y); [lia|]. unfold fwd_of in *. split; lia. }
  assert (R2 : forall k, k < lk_agg (en_links e) + 1 -> fst (nth k (lk_ll2 (en_links e)) (0, (0, 0))) < NL /\ fst (snd (nth k (lk_ll2 (en_links e)) (0, (0, 0)))) < NL /\ snd (snd (nth k (lk_ll2 (en_links e)) (0, (0, 0)))) < 2).
  { intros k Hk. assert (k < NL) by (rewrite EL in Hk; cbn [lk_agg links_spec] in Hk; rewrite M2, seq_length in Hk; lia). destruct k as [|k]; [rewrite EL; cbn [links_spec lk_ll2 nth fst snd]; lia|]. destruct (sd_bwd _ _ _ _ _ _ SO (Datatypes.S k)) as (X & Y); [lia|]. cbn [tree_of with_water en_links tm_llea] in X. rewrite (nth_error_nth _ _ (0, (0, 0)) X). cbn [fst snd]. rewrite SN in Y. destruct Y as [Y|Y]; [rewrite Y; cbn [fst snd]; lia|lia]. }
  unfold EnergyTree.feasible, zero_rule, balance_rule, aggregate_rule in *. sp.
  - intros k K. rewrite <- H by (auto; lia). now apply A.
  - intros n Hn. pose proof Hn as Hn'. rewrite NB in Hn. rewrite <- !H; try apply R; auto.
  - intros k Hk. destruct (R2 k Hk) as (Q1 & Q2 & Q3). rewrite <- !H; try apply R; auto.
  - intros X. exfalso. apply X. rewrite EL. cbn [lk_unc links_spec]. now rewrite M1.
  - intros n k Hn K. rewrite <- H by (auto; lia). now apply P.
Qed.

(** The values of a plan and of the storage. *)
Definition joint_value (p : plan) (st : nat -> soc) (q : place) : Q :=
  match snd (fst q) with
  | [v] => if string_dec (fst (fst q)) "PartialStorage" then st v (snd q) 0%nat else if string_dec (fst (fst q)) "TotalStorage" then st v (snd q) 1%nat else if string_dec (fst (fst q)) "InputsTree" then entry I v (snd q) else drawn m p first O v (snd q)
  | _ => value_of p q
  end.
Lemma joint_agrees p st : agrees (joint_value p st) p.
Proof. destruct (agrees_value p). constructor; auto. Qed.
Lemma day_plan p st v j : (day_energy m (plan_of (joint_value p st)) v j == day_energy m p v j)%Q.
Proof. unfold day_energy. apply qsum_ext. intros k _. cbn [plan_of p_gen]. rewrite (ag_gen _ _ (joint_agrees p st)). reflexivity. Qed.
Lemma drawn_plan p st v n : (drawn m (plan_of (joint_value p st)) first O v n == drawn m p first O v n)%Q.
Proof. unfold drawn. destruct (first <=? n); [apply day_plan|reflexivity]. Qed.
Lemma feasible_eq w i o o' f : (forall n, n < NL -> (o n == o' n)%Q) -> EnergyTree.feasible w i o (en_links e) f -> EnergyTree.feasible w i o' (en_links e) f.
Proof.
  intros H (A & B & D & X & P). destruct coupled_tree as (_ & _ & _ & _ & _ & NB & _). unfold EnergyTree.feasible, balance_rule in *. sp; auto. intros n Hn. rewrite (B n Hn), H by lia. reflexivity.
Qed.
Lemma rules_value p st : joint_rules e I O m first p st -> joint_rules e I O m first (plan_of (joint_value p st)) (fun v n k => joint_value p st (side v k, n)).
Proof.
  intros (A & B & D). pose proof (joint_agrees p st) as AG. pose proof (cp_net _ _ _ _ _ _ _ C) as U. unfold joint_rules. sp.
  - apply (conds_rules m _ _ U (agrees_plan _)). now apply (conds_rules m _ _ U AG).
  - intros k i j n u K Hi Hj E. cbn [plan_of p_gen]. rewrite !(ag_gen _ _ AG). now apply B.
  - intros v Hv. destruct (D v Hv) as (D1 & D2). split; [intros j Hj; rewrite day_plan; auto|]. apply (feasible_eq _ _ (drawn m p first O v)); [intros n _; symmetry; apply drawn_plan|].
    apply (feasible_ext _ _ _ (st v)); [|exact D2]. intros n k _ K. destruct k as [|[|k]]; [reflexivity|reflexivity|lia].
Qed.
End Coupled.

(** The links of the joint settings and their names. *)
Lemma coupled_apart V d data e first I O m pen : coupled V (d :: data) e first I O m -> V <= 11 \/ nm_days m <= 10 -> apart (joint_of e I O m first pen).
Proof.
  intros C H i j i' j'. destruct (coupled_joined V d data e first I O m C pen) as (_ & _ & TV & _). cbn [ec_energy ec_net joint_of]. rewrite TV. now apply names_injective.
Qed.

(* ------------------------------------------------------------------------------------------------------------------ *)
(** ** C241 *)

(** What is read after solving, against a plan and the storage of the vectors. *)
Definition told (V : nat) (e : energy) (m : nm) (f : list Q) (pen : Q) (S : solver) (x : nat -> Q) (p : plan) (st : nat -> soc) : Prop :=
  answers m S x = Ok (reported m p) /\ (get_objective S x == plan_cost m p (fun i => nth i f 0) pen)%Q /\
  exists P T, values_em (tree_of e) S x PS = Ok P /\ values_em (tree_of e) S x TS = Ok T /\ forall v n k, v < V -> n < lk_bal (en_links e) + 1 -> k < 2 -> Properties_Glpk.reported P T v n k = st v n k.

(** C241: a tree without uncertainty with as many vectors as hydro units or fewer, a day of the network for each node of its last level, and a network for the optimal power flow give a problem that is built and solved.
    Its answers are the plans and storages that meet the rules of the power flow, the ramps and the tree, whose last level gives in each day the energy of the units; they are read as they are, and the objective is the cost of the plan with the chance of each day and the penalty. *)
Theorem C241_joint : forall V levels e first I O m pen, coupled V levels e first I O m -> V <= 11 \/ nm_days m <= 10 -> limits_ok m -> ramps_ok m ->
  exists f S, optimisation_enm (joint_of e I O m first pen) = Ok S /\ List.length f = nm_days m /\ (forall h, h < nm_days m -> (nth h f 0 == chance levels (List.length levels) h)%Q) /\
  (forall x, Glpk.feasible S x -> exists p st, joint_rules e I O m first p st /\ told V e m f pen S x p st /\
     exists W, values_em (tree_of e) S x OT = Ok W /\ forall v n, v < V -> n < lk_bal (en_links e) + 1 -> (nth n (nth v W []) 0 == drawn m p first O v n)%Q) /\
  (forall p st, joint_rules e I O m first p st -> exists x, Glpk.feasible S x /\ told V e m f pen S x p st).
Proof.
  intros V levels e first I O m pen C NM L RA. destruct levels as [|d data]; [destruct (cp_some _ _ _ _ _ _ _ C); reflexivity|].
  destruct (coupled_tree V d data e first I O m C) as (t & T & EL & EV & EW & NB & FN & F1 & _ & L2 & _ & f' & Ef' & Lf & Hf). destruct (coupled_joined V d data e first I O m C pen) as (J & SN & TV & _).
  destruct (joint_solver V d data e first I O m C pen (coupled_apart V d data e first I O m pen C NM)) as (f & l & S & vw & Ef & DE & R & SO & FE & PR & SU & OB). rewrite Ef in Ef'. injection Ef' as <-. exists f, S.
  set (N := EnergyTreeProofs.nodes (map lv_names (d :: data))) in *. pose proof (cp_flag _ _ _ _ _ _ _ C) as FL.
  assert (IN : forall g v n, (g = PS \/ g = TS \/ g = IT \/ g = OT) -> v < V -> n < N -> inside (joint_cols (joint_of e I O m first pen)) (g v, n)).
  { intros g v n Hg Hv Hn. apply inside_tree. cbn [ec_energy joint_of]. apply (inside_col _ v); [lia|lia|]. destruct Hg as [->|[->|[->| ->]]]; auto. }
  assert (VA : forall x g (s : place -> Q), (g = PS \/ g = TS \/ g = IT \/ g = OT) -> (forall q, inside (joint_cols (joint_of e I O m first pen)) q -> vw x q = s q) -> exists r, values_em (tree_of e) S x g = Ok r /\ forall v n, v < V -> n < N -> nth n (nth v r []) 0%Q = s (g v, n)).
  { intros x g s Hg X. destruct (values_ok (tree_of (with_water e I O)) S x g (fun v n => s (g v, n))) as (r & A & B).
    - intros v n Hv Hn. rewrite PR by (apply IN; auto; lia). rewrite X by (apply IN; auto; lia). reflexivity.
    - exists r. split; [exact A|]. intros v n Hv Hn. apply B; lia. }
  assert (TO : forall x s p st, agrees s p -> (forall q, inside (joint_cols (joint_of e I O m first pen)) q -> vw x q = s q) -> (get_objective S x == plan_cost m (plan_of s) (fun i => nth i f 0) pen)%Q -> (forall v n k, v < V -> n < N -> k < 2 -> s (side v k, n) = st v n k) -> told V e m f pen S x p st).
  { intros x s p st AG X O1 ST. unfold told. sp.
    - apply (answers_reported m S x s); auto. intros n o H. rewrite PR by (now apply inside_net). rewrite X by (now apply inside_net). reflexivity.
    - rewrite O1. rewrite <- (costs_sum m s p AG _ _ FL), <- (costs_sum m s (plan_of s) (agrees_plan s) _ _ FL). reflexivity.
    - destruct (VA x PS s ltac:(auto) X) as (P & EP & GP). destruct (VA x TS s ltac:(auto) X) as (Tt & ET & GT). exists P, Tt. sp; auto. intros v n k Hv Hn K. rewrite NB in Hn. unfold Properties_Glpk.reported. rewrite <- ST by auto. unfold side. destruct (k =? 0); [now apply GP|now apply GT]. }
  sp.
  - unfold optimisation_enm. rewrite DE, bind_ok, R, bind_ok. unfold simplex. rewrite (proj2 SO (conj L RA)). reflexivity.
  - exact Lf.
  - intros h Hh. rewrite (Hf h Hh). rewrite (weight_chance V d data t (cp_named _ _ _ _ _ _ _ C) T _ h (le_n _) ltac:(rewrite <- L2; exact Hh)). unfold depth. rewrite map_length. reflexivity.
  - intros x Hx. destruct (proj1 (FE x) Hx) as (JR & IO). exists (plan_of (vw x)), (fun v n k => vw x (side v k, n)). sp; auto.
    + apply (TO x (vw x)); auto. apply agrees_plan.
    + destruct (VA x OT (vw x) ltac:(auto) ltac:(auto)) as (W & EW' & GW). exists W. split; [exact EW'|]. intros v n Hv Hn. rewrite GW by lia. apply IO; lia.
  - intros p st JR. set (s := joint_value first I O m p st). destruct (SU s) as (x & X & Y & Z). exists x. split.
    + apply Y; [exact (rules_value V d data e first I O m C pen p st JR)|]. intros v n Hv Hn. unfold s. split; [reflexivity|]. rewrite drawn_plan. reflexivity.
    + apply (TO x s); auto; [apply joint_agrees|]. intros v n k Hv Hn K. destruct k as [|[|k]]; [reflexivity|reflexivity|lia].
Qed.
Print Assumptions C241_joint.

(** Two days of two times, a thermal unit and two hydro units with ramps at the first bus, and a load of 2 at the second. *)
Definition jn_unit : unit_ := mkUnit 1 0 10 [(3, 1)]%Q 2 true.
Definition jn_net : nm := mkNm 2 2 (fun k => match k with Thermal => [jn_unit] | Hydro => [jn_unit; jn_unit] | Renewable => [] end) [] [] (fun _ => 2%Q) (fun _ _ _ => 1%Q) 0 [ex_bus1; ex_bus2] [ex_line] None (fun _ _ _ => 1%Q) None true 100 true.
(** The thermal unit gives 1; the hydro units [a] and [b]. *)
Definition jn_plan (a b : Q) : plan := mkPlan (fun k _ _ n => match k with Hydro => if (n =? 0)%nat then a else b | _ => 1%Q end) (fun _ _ _ _ => 14%Q) (fun _ _ _ => 0%Q) (fun _ _ _ => 0%Q) (fun _ _ _ _ => 2%Q) (fun _ _ _ _ => 0%Q) (fun _ _ _ _ => 0%Q) (fun _ _ _ _ => 0%Q) (fun _ _ _ n => if (n =? 0)%nat then 0%Q else (- (2))%Q).
Definition jn_levels : list level := [intervals [1; 1]%Q false].
Definition jn_energy : energy := match energy_of 1 jn_levels with Ok e => e | Err _ => no_energy end.
Definition jn_out : list (list Q) := [[0]; [0]; [0]]%Q.
Local Ltac q := vm_compute; (reflexivity || (intros; discriminate) || (split; intros; discriminate)).
Lemma jn_usable : usable jn_net.
Proof.
  constructor; cbn; try discriminate; try lia; auto; try tauto.
  - intros [] u H; cbn in H; try tauto; [destruct H as [<-|[]]|destruct H as [<-|[<-|[]]]]; discriminate.
  - intros l [<-|[]]. cbn. lia.
  - intros l [<-|[]] E. discriminate E.
Qed.
Lemma jn_limits : limits_ok jn_net.
Proof.
  constructor; cbn; try tauto.
  - intros [] n u i j I J H; try (destruct n; discriminate H); [apply single in H as (-> & ->); intros _; cbn; lra|apply double in H as [(-> & ->)|(-> & ->)]; cbn; lra].
  - intros _ n b i j _ _ _ _. lra.
Qed.
Lemma jn_ramps : ramps_ok jn_net.
Proof. intros _ _ k u [-> | ->] H; cbn in H; [destruct H as [<-|[]]|destruct H as [<-|[<-|[]]]]; cbn; lra. Qed.
Lemma jn_coupled I : filled I 1 3 -> entry I 0 0 = 0%Q -> coupled 1 jn_levels jn_energy 1 I jn_out jn_net.
Proof.
  intros F Z. constructor; try reflexivity; try discriminate; try exact jn_usable; try (cbn; lia).
  - repeat constructor.
  - repeat constructor.
  - exact F.
  - split; [reflexivity|repeat constructor].
  - intros v Hv. assert (v = 0) as -> by lia. split; [exact Z|reflexivity].
Qed.
Lemma jn_rules a b : (a = 1 # 2 /\ b = 1 # 2)%Q \/ (a = 0 /\ b = 1)%Q -> opf_rules jn_net (jn_plan a b) /\ ramp_rules jn_net (jn_plan a b).
Proof.
  intros AB. split.
  - intros i j I J. split.
    + constructor.
      * intros [] n u H; try (destruct n; discriminate H); [apply single in H as (-> & ->); q|apply double in H as [(-> & ->)|(-> & ->)]; destruct AB as [(-> & ->)|(-> & ->)]; q].
      * intros [] n u H; try (destruct n; discriminate H); [apply single in H as (-> & ->)|apply double in H as [(-> & ->)|(-> & ->)]]; (split; [q|]); intros x y [E|[]]; injection E as <- <-; destruct AB as [(-> & ->)|(-> & ->)]; q.
      * intros n c H. destruct n; discriminate H.
      * intros n c H. destruct n; discriminate H.
    + intros k K. assert (k = 0) as -> by (unfold cases in K; cbn in K; lia). constructor.
      * intros n l H O. apply single in H as (-> & ->). discriminate O.
      * intros n l H O. apply single in H as (-> & ->). split; q.
      * intros c n l N. discriminate N.
      * intros _ n x H. apply double in H as [(-> & ->)|(-> & ->)]; (split; [q|split; [q|intros _; q]]).
      * intros n x H T. apply double in H as [(-> & ->)|(-> & ->)]; [q|discriminate T].
      * intros n x H T. assert (JJ : j = 0 \/ j = 1) by (cbn in J; lia). destruct JJ as [-> | ->]; destruct AB as [(-> & ->)|(-> & ->)]; apply double in H as [(-> & ->)|(-> & ->)]; q.
  - intros k i j n u [-> | ->] Hi Hj E; cbn [jn_net nm_units] in E; [apply single in E as (-> & ->)|apply double in E as [(-> & ->)|(-> & ->)]]; destruct AB as [(-> & ->)|(-> & ->)]; q.
Qed.
Definition jn_in : list (list Q) := [[0]; [300]; [200]]%Q.
Definition jn_states : nat -> soc := states_of [[(0, 0); (100, 100); (100, 100)]]%Q.
Example C241_witness : coupled 1 jn_levels jn_energy 1 jn_in jn_out jn_net /\ (1 <= 11 \/ nm_days jn_net <= 10) /\ limits_ok jn_net /\ ramps_ok jn_net /\ joint_rules jn_energy jn_in jn_out jn_net 1 (jn_plan (1 # 2) (1 # 2)) jn_states /\
  (day_energy jn_net (jn_plan (1 # 2) (1 # 2)) 0 1 == 200)%Q.
Proof.
  split; [apply jn_coupled; [split; [reflexivity|repeat constructor]|reflexivity]|]. split; [left; lia|]. split; [exact jn_limits|]. split; [exact jn_ramps|]. split; [|reflexivity].
  destruct (jn_rules (1 # 2) (1 # 2) ltac:(auto)) as (A & B). unfold joint_rules. sp; auto. intros v Hv. assert (v = 0) as -> by (cbn in Hv; lia). split.
  - intros j Hj. q.
  - apply feasibleb_ok. vm_compute. reflexivity.
Qed.

(* ------------------------------------------------------------------------------------------------------------------ *)
(** ** C242 *)

(** What leaves the nodes before the last level, and what the unit of the vector uses in all days. *)
Definition earlier_use (levels : list level) (O : list (list Q)) (v : nat) : Q :=
  let lens := map lv_names levels in
  sumf (fun i => sumf (fun j => chance levels (1 + i) j * entry O v (node lens (1 + i) j))%Q (width lens (1 + i))) (List.length levels - 1).
Definition unit_use (levels : list level) (m : nm) (p : plan) (v : nat) : Q := sumf (fun h => chance levels (List.length levels) h * day_energy m p v h)%Q (nm_days m).

(** C242: what is stored of a vector at the end is all that enters, less what leaves before the last level and what its unit generates, each interval as often as it occurs.
    So no unit of a vector generates more energy than enters and does not leave before. *)
Theorem C242_water : forall V levels e first I O m p st, coupled V levels e first I O m -> joint_rules e I O m first p st -> forall v, v < V ->
  (st v (lv_names (hd no_level levels)) 1%nat == supply levels I v - earlier_use levels O v - unit_use levels m p v)%Q /\
  (unit_use levels m p v <= supply levels I v - earlier_use levels O v)%Q.
Proof.
  intros V levels e first I O m p st C JR v Hv. destruct levels as [|d data]; [destruct (cp_some _ _ _ _ _ _ _ C); reflexivity|].
  destruct (coupled_tree V d data e first I O m C) as (t & T & EL & EV & EW & NB & FN & F1 & L1 & L2 & WT & _). destruct C as [_ F CE _ _ _ _ _ _ _ _ _].
  destruct JR as (_ & _ & JR). destruct (JR v ltac:(lia)) as (_ & Fe). clear JR. rewrite EL in Fe. set (lens := map lv_names (d :: data)) in *.
  assert (pos : Forall (fun n => 0 < n) lens) by (exact (joint_pos d data F)). assert (D : depth lens = Datatypes.S (List.length data)) by (apply joint_depth). assert (D0 : 0 < depth lens) by lia. assert (UL : List.length (map lv_unc (d :: data)) = depth lens) by (unfold depth, lens; now rewrite !map_length).
  assert (FC : nth 0 (map lv_unc (d :: data)) false = false) by (inversion CE; auto).
  assert (M : List.length (marked lens t) <> 1).
  { pose proof (no_marks (blank V d) (map (blank V) data) t) as NMK. change (blank V d :: map (blank V) data) with (map (blank V) (d :: data)) in NMK. rewrite !map_map in NMK. cbn [blank lv_names lv_unc] in NMK. change (map (fun x => lv_names x) (d :: data)) with lens in NMK. change (map (fun x => lv_unc x) (d :: data)) with (map lv_unc (d :: data)) in NMK. destruct (NMK T) as (M1 & _); [|rewrite M1; discriminate].
    apply Forall_map. eapply Forall_impl; [|exact CE]. auto. }
  pose proof (final_sum lens pos (map lv_unc (d :: data)) UL D0 FC t T _ (entry I v) (drawn m p first O v) (st v) M Fe) as Sx.
  assert (NE : node lens 1 (len lens 0) - 1 = lv_names d) by (unfold node, off, len, lens; cbn; lia).
  rewrite NE in Sx. cbn [hd].
  assert (V0 : (0 <= st v (lv_names d) 1%nat)%Q).
  { destruct Fe as (_ & _ & _ & _ & P). apply P; [|lia]. cbn [lk_bal links_spec]. assert (L0 : 0 < len lens 0) by (apply len_pos; auto). pose proof (node_nodes lens 1 (len lens 0 - 1) ltac:(lia) ltac:(change (width lens 1) with (1 * len lens 0); lia)) as NN. unfold node in *. lia. }
  assert (PW : forall k j, k <= depth lens -> j < width lens k -> (path_weight lens (fun n => nth n (en_weight e) 0%Q) k j == chance (d :: data) k j)%Q).
  { intros k j Kk Jj. rewrite <- (weight_chance V d data t F T k j Kk Jj). fold lens. revert j Jj. induction k as [|k IH]; intros j Jj; [reflexivity|]. cbn [path_weight]. replace (Datatypes.S k) with (k + 1) in * by lia. destruct (child_of lens pos k j ltac:(lia) Jj) as (i & c & Hi & _ & _ & Dv & _). rewrite IH by (try lia; rewrite Dv; auto). rewrite WT; [reflexivity|]. now apply node_nodes. }
  assert (E : (st v (lv_names d) 1%nat == supply (d :: data) I v - earlier_use (d :: data) O v - unit_use (d :: data) m p v)%Q).
  { rewrite Sx.
    assert (Sp : (sumf (fun i => sumf (fun j => path_weight lens (fun n => nth n (en_weight e) 0%Q) (1 + i) j * (entry I v (node lens (1 + i) j) - drawn m p first O v (node lens (1 + i) j)))%Q (width lens (1 + i))) (depth lens) ==
      supply (d :: data) I v - sumf (fun i => sumf (fun j => chance (d :: data) (1 + i) j * drawn m p first O v (node lens (1 + i) j))%Q (width lens (1 + i))) (depth lens))%Q).
    { unfold supply. fold lens. replace (List.length (d :: data)) with (depth lens) by (rewrite D; reflexivity). rewrite <- sumf_sub. apply sumf_ext. intros i Hi. rewrite <- sumf_sub. apply sumf_ext. intros j Hj. rewrite PW by (auto; lia). change (Joint.input_of I v) with (entry I v). ring. }
    rewrite Sp, D, sumf_S.
    assert (E1 : (sumf (fun i => sumf (fun j => chance (d :: data) (1 + i) j * drawn m p first O v (node lens (1 + i) j))%Q (width lens (1 + i))) (List.length data) == earlier_use (d :: data) O v)%Q).
    { unfold earlier_use. fold lens. replace (List.length (d :: data) - 1) with (List.length data) by (cbn; lia). apply sumf_ext. intros i Hi. apply sumf_ext. intros j Hj. unfold drawn. destruct (Nat.leb_spec first (node lens (1 + i) j)) as [X|X]; [|reflexivity]. exfalso.
      assert (node lens (1 + i) j < off lens (1 + i + 1)) by (unfold node; rewrite off_S; lia). assert (off lens (1 + i + 1) <= off lens (depth lens)) by (apply off_le; auto; lia). lia. }
    assert (E2 : (sumf (fun j => chance (d :: data) (1 + List.length data) j * drawn m p first O v (node lens (1 + List.length data) j))%Q (width lens (1 + List.length data)) == unit_use (d :: data) m p v)%Q).
    { unfold unit_use. change (List.length (d :: data)) with (1 + List.length data). rewrite L2, D. apply sumf_ext. intros j Hj. unfold drawn, node. rewrite L1, D. change (Datatypes.S (List.length data)) with (1 + List.length data). destruct (Nat.leb_spec (off lens (1 + List.length data)) (off lens (1 + List.length data) + j)) as [X|X]; [|lia]. replace (off lens (1 + List.length data) + j - off lens (1 + List.length data)) with j by lia. reflexivity. }
    rewrite E1, E2. ring. }
  split; [exact E|]. rewrite E in V0. lra.
Qed.
Print Assumptions C242_water.
Example C242_witness : coupled 1 jn_levels jn_energy 1 jn_in jn_out jn_net /\ joint_rules jn_energy jn_in jn_out jn_net 1 (jn_plan (1 # 2) (1 # 2)) jn_states /\
  (supply jn_levels jn_in 0 == 500)%Q /\ (unit_use jn_levels jn_net (jn_plan (1 # 2) (1 # 2)) 0 == 400)%Q.
Proof. split; [apply C241_witness|]. split; [apply C241_witness|]. split; vm_compute; reflexivity. Qed.

(* ------------------------------------------------------------------------------------------------------------------ *)
(** ** C243 *)

(** C243: the joint problem is solved if, and only if, the limits are ones GLPK takes and every thermal and hydro unit has a positive ramp (when a day has two times); otherwise the run ends in an AssertionError. *)
Theorem C243_limits : forall V levels e first I O m pen, coupled V levels e first I O m -> V <= 11 \/ nm_days m <= 10 ->
  ((exists S, optimisation_enm (joint_of e I O m first pen) = Ok S) <-> limits_ok m /\ ramps_ok m) /\
  (optimisation_enm (joint_of e I O m first pen) = Err AssertionError <-> ~ (limits_ok m /\ ramps_ok m)).
Proof.
  intros V levels e first I O m pen C NM. destruct levels as [|d data]; [destruct (cp_some _ _ _ _ _ _ _ C); reflexivity|].
  destruct (joint_solver V d data e first I O m C pen (coupled_apart V d data e first I O m pen C NM)) as (f & l & S & vw & Ef & DE & R & SO & _).
  unfold optimisation_enm. rewrite DE, bind_ok, R, bind_ok. unfold simplex. destruct (solvable S); [rewrite bind_ok|cbn [rbind]]; split; split; intros H.
  - now apply SO.
  - now exists S.
  - discriminate H.
  - exfalso. apply H. now apply SO.
  - destruct H as (S' & H). discriminate H.
  - apply SO in H. discriminate H.
  - intros G. apply SO in G. discriminate G.
  - reflexivity.
Qed.
Print Assumptions C243_limits.
(** With no times in a day and a thermal or hydro unit nothing is solved: the array of the ramps has a negative size. *)
Theorem C243_no_times : forall c S, nm_times (ec_net c) = 0 -> nm_units (ec_net c) Thermal <> [] \/ nm_units (ec_net c) Hydro <> [] -> optimisation_enm c <> Ok S.
Proof.
  intros c S T U. assert (R : ramps (ec_net c) = Err ValueError).
  { unfold ramps. rewrite T. cbn [Nat.eqb andb ramped existsb]. destruct U as [U|U]; destruct (nm_units (ec_net c) _); try congruence; cbn; rewrite ?orb_true_r; reflexivity. }
  unfold optimisation_enm, definition_enm. destruct (variables_em _); [|discriminate]. destruct (energy_balance _); [|discriminate]. destruct (aggregation _); [|discriminate]. destruct (balance_cmds _); [|discriminate]. destruct (hydro_cmds _); [|discriminate]. rewrite R. discriminate.
Qed.
Print Assumptions C243_no_times.
(** A thermal unit without a ramp. *)
Definition jn_stiff : nm := mkNm 2 2 (fun k => match k with Thermal => [ex_unit] | Hydro => [jn_unit] | Renewable => [] end) [] [] (fun _ => 2%Q) (fun _ _ _ => 1%Q) 0 [ex_bus1; ex_bus2] [ex_line] None (fun _ _ _ => 1%Q) None true 100 true.
Lemma jn_stiff_coupled : coupled 1 jn_levels jn_energy 1 jn_in jn_out jn_stiff.
Proof.
  constructor; try reflexivity; try discriminate; try (cbn; lia).
  - repeat constructor.
  - repeat constructor.
  - split; [reflexivity|repeat constructor].
  - split; [reflexivity|repeat constructor].
  - intros v Hv. assert (v = 0) as -> by lia. split; reflexivity.
  - constructor; cbn; try discriminate; try lia; auto; try tauto.
    + intros [] u H; cbn in H; try tauto; destruct H as [<-|[]]; discriminate.
    + intros l [<-|[]]. cbn. lia.
    + intros l [<-|[]] E. discriminate E.
Qed.
Example C243_witness : coupled 1 jn_levels jn_energy 1 jn_in jn_out jn_stiff /\ ~ ramps_ok jn_stiff /\ optimisation_enm (joint_of jn_energy jn_in jn_out jn_stiff 1 0) = Err AssertionError.
Proof.
  assert (N : ~ ramps_ok jn_stiff). { intros H. specialize (H ltac:(cbn; lia) ltac:(cbn; lia) Thermal ex_unit ltac:(auto) ltac:(cbn; auto)). cbn in H. lra. }
  split; [exact jn_stiff_coupled|]. split; [exact N|]. apply (C243_limits 1 jn_levels jn_energy 1 jn_in jn_out jn_stiff 0 jn_stiff_coupled ltac:(left; lia)). tauto.
Qed.

(* ------------------------------------------------------------------------------------------------------------------ *)
(** ** C244 *)

(** Twelve units and eleven days. *)
Definition jn_many : nm := mkNm 11 2 (fun k => match k with Hydro => repeat jn_unit 12 | _ => [] end) [] [] (fun _ => 2%Q) (fun _ _ _ => 1%Q) 0 [ex_bus1; ex_bus2] [ex_line] None (fun _ _ _ => 1%Q) None true 100 true.
Lemma jn_many_usable : usable jn_many.
Proof.
  constructor.
  - discriminate.
  - discriminate.
  - intros [] u H; [destruct H|destruct H|]. apply repeat_spec in H. subst u. discriminate.
  - discriminate.
  - intros l [<-|[]]. cbn. lia.
  - intros l [<-|[]] E. discriminate E.
  - intros H. now destruct H.
  - intros H. cbn in H. lia.
  - intros k H. unfold cases in H. cbn in H. lia.
  - now left.
Qed.
(** C244 refuted: with twelve vectors or more and eleven days or more the problem cannot be built, as the names of two rows are the same (vector 11 and day 0, vector 1 and day 10). *)
Theorem C244_refuted :
  (forall V levels e first I O m pen, coupled V levels e first I O m -> 11 < V -> 10 < nm_days m -> optimisation_enm (joint_of e I O m first pen) = Err KeyError) /\
  exists V levels e first I O m, coupled V levels e first I O m /\ 11 < V /\ 10 < nm_days m.
Proof.
  split.
  - intros V levels e first I O m pen C HV HD. destruct levels as [|d data]; [destruct (cp_some _ _ _ _ _ _ _ C); reflexivity|].
    destruct (coupled_tree V d data e first I O m C) as (_ & _ & _ & _ & _ & _ & _ & _ & _ & _ & _ & f & Ef & _). destruct (coupled_joined V d data e first I O m C pen) as (J & _ & TV & _).
    unfold optimisation_enm. rewrite (definition_eq _ _ _ _ _ _ J f Ef), bind_ok.
    rewrite (joint_twice _ _ _ _ _ _ J 11 0 1 10); cbn [ec_energy ec_net joint_of]; rewrite ?TV; try lia; [reflexivity|intros X; injection X; intros; discriminate|exact names_collide].
  - set (lv := [intervals (repeat 1%Q 11) false]). set (en := match energy_of 12 lv with Ok e => e | Err _ => no_energy end).
    exists 12, lv, en, 1, (repeat (repeat 0%Q 12) 12), (repeat (repeat 0%Q 12) 12), jn_many.
    split; [|split; cbn; lia].
    assert (NE : lk_bal (en_links en) + 1 = 12) by (vm_compute; reflexivity). assert (F : filled (repeat (repeat 0%Q 12) 12) 12 12) by (split; [reflexivity|]; apply Forall_forall; intros r H; apply repeat_spec in H; subst r; reflexivity).
    constructor.
    + discriminate.
    + repeat constructor.
    + repeat constructor.
    + vm_compute. reflexivity.
    + vm_compute. reflexivity.
    + rewrite NE. exact F.
    + rewrite NE. exact F.
    + intros v Hv. unfold entry. do 12 (destruct v as [|v]; [split; reflexivity|]). lia.
    + cbn. lia.
    + exact jn_many_usable.
    + reflexivity.
    + cbn. lia.
Qed.
Print Assumptions C244_refuted.
Example C244_witness : link_row 11 0 = link_row 1 10 /\ link_row 0 10 <> link_row 1 0.
Proof. split; [reflexivity|discriminate]. Qed.

(* ------------------------------------------------------------------------------------------------------------------ *)
(** ** C245 *)

(** The network as it is for the economic dispatch. *)
Definition dispatched (m : nm) : nm := mkNm (nm_days m) (nm_times m) (nm_units m) (nm_pumps m) (nm_stores m) (nm_hours m) (nm_level m) (nm_conts m) (nm_buses m) (nm_lines m) (nm_losses m) (nm_mult m) (nm_perc m) (nm_feas m) (nm_base m) false.

(** C245 refuted: the joint economic dispatch cannot be built for any network with renewable units, as one coefficient more than there are places is stored. *)
Theorem C245_refuted :
  (forall V levels e first I O m pen, coupled V levels e first I O m -> nm_units m Renewable <> [] -> optimisation_enm (joint_of e I O (dispatched m) first pen) = Err IndexError) /\
  exists V levels e first I O m, coupled V levels e first I O m /\ nm_units m Renewable <> [] /\ limits_ok m /\ ramps_ok m.
Proof.
  split.
  - intros V levels e first I O m pen C R. destruct levels as [|d data]; [destruct (cp_some _ _ _ _ _ _ _ C); reflexivity|].
    destruct (coupled_tree V d data e first I O m C) as (t & T & _ & _ & _ & NB & FN & F1 & L1 & L2 & _). destruct (coupled_joined V d data e first I O m C pen) as (J & _). pose proof (jn_tree _ _ _ _ _ _ J) as SO. cbn [ec_energy joint_of] in SO.
    assert (D0 : 0 < nm_days m). { rewrite L2. apply width_pos; [exact (joint_pos d data (cp_named _ _ _ _ _ _ _ C))|auto]. }
    pose proof (cp_times _ _ _ _ _ _ _ C) as T0. unfold optimisation_enm, definition_enm. cbn [ec_energy ec_net joint_of]. rewrite (variables_l _ _ _ _ _ _ SO), bind_ok, (balance_l _ _ _ _ _ _ SO), bind_ok, (aggregation_l _ _ _ _ _ _ SO), bind_ok.
    unfold balance_cmds, system_balance. cbn [nm_flag dispatched nm_units]. replace (0 <? List.length (periods (dispatched m))) with true.
    + destruct (nm_units m Renewable); [now destruct R|]. reflexivity.
    + symmetry. apply Nat.ltb_lt. unfold periods. rewrite prod_length, !seq_length. cbn [nm_days nm_times dispatched]. nia.
  - exists 1, jn_levels, jn_energy, 1, jn_in, jn_out, (mkNm 2 2 (fun _ => [jn_unit]) [] [] (fun _ => 2%Q) (fun _ _ _ => 1%Q) 0 [ex_bus1; ex_bus2] [ex_line] None (fun _ _ _ => 1%Q) None true 100 true).
    sp; try discriminate.
    + constructor; try reflexivity; try discriminate; try (cbn; lia).
      * repeat constructor.
      * repeat constructor.
      * split; [reflexivity|repeat constructor].
      * split; [reflexivity|repeat constructor].
      * intros v Hv. assert (v = 0) as -> by lia. split; reflexivity.
      * constructor; cbn; try discriminate; try lia; auto; try tauto.
        -- intros _ u [<-|[]]. discriminate.
        -- intros l [<-|[]]. cbn. lia.
        -- intros l [<-|[]] E. discriminate E.
    + constructor; cbn; try tauto.
      * intros k n u i j _ _ H. apply single in H as (-> & ->). destruct k; [intros _|..]; cbn; lra.
      * intros _ n b i j _ _ _ _. lra.
    + intros _ _ k u _ [<-|[]]. cbn. lra.
Qed.
Print Assumptions C245_refuted.
Example C245_witness : system_balance (dispatched jn_net) <> Err IndexError /\ nm_units jn_net Renewable = [].
Proof. split; [discriminate|reflexivity]. Qed.

(* ------------------------------------------------------------------------------------------------------------------ *)
(** ** C246 *)

(** C246 refuted: a plan that meets all rules may take energy from a hydro unit though no water enters any vector of the tree, if there are more units than vectors. *)
Theorem C246_refuted : exists V levels e first I O m p st u, coupled V levels e first I O m /\ limits_ok m /\ ramps_ok m /\ joint_rules e I O m first p st /\
  (forall v, v < V -> (supply levels I v == 0)%Q) /\ u < List.length (nm_units m Hydro) /\ (0 < unit_use levels m p u)%Q.
Proof.
  exists 1, jn_levels, jn_energy, 1, jn_out, jn_out, jn_net, (jn_plan 0 1), (fun _ _ _ => 0%Q), 1.
  split; [apply jn_coupled; [split; [reflexivity|repeat constructor]|reflexivity]|]. split; [exact jn_limits|]. split; [exact jn_ramps|]. split; [|sp; [|cbn; lia|reflexivity]].
  - destruct (jn_rules 0 1 ltac:(auto)) as (A & B). unfold joint_rules. sp; auto. intros v Hv. assert (v = 0) as -> by (cbn in Hv; lia). split.
    + intros j Hj. q.
    + apply feasibleb_ok. vm_compute. reflexivity.
  - intros v Hv. assert (v = 0) as -> by lia. vm_compute. reflexivity.
Qed.
Print Assumptions C246_refuted.
Example C246_witness : (unit_use jn_levels jn_net (jn_plan 0 1) 1 == 800)%Q /\ (unit_use jn_levels jn_net (jn_plan 0 1) 0 == 0)%Q.
Proof. split; vm_compute; reflexivity. Qed.

(* ------------------------------------------------------------------------------------------------------------------ *)
(** ** C247 *)

(** The balance of the whole system in a day and time: what thermal and hydro units and storage devices give, and what is not served less what is not produced, is the demand of all buses and what the pumps take. *)
Definition system_rule (m : nm) (p : plan) (lcs gcs : Q) (i j : nat) : Prop :=
  (total (nm_units m Thermal) (fun n _ => p_gen p Thermal i j n) + total (nm_units m Hydro) (fun n _ => p_gen p Hydro i j n) + stored_power m p i j + (if nm_feas m then lcs - gcs else 0) ==
   total (nm_buses m) (fun n b => demand m i j n b) + pumped m p i j)%Q.

Lemma system_row_iff m s i j : within (rs_bnd (system_spec m (i, j))) (term_sum s (rs_terms (system_spec m (i, j)))) <-> system_rule m (plan_of s) (s (lcs_name i j, 0)) (s (gcs_name i j, 0)) i j.
Proof.
  unfold system_spec, rs_bnd, rs_terms. cbn [fst snd within]. unfold system_terms. rewrite !term_sum_app, term_sum_flat. unfold ramped. cbn [map]. repeat change (qsum (?a :: ?b)) with (a + qsum b)%Q. change (qsum []) with 0%Q. rewrite !total_map. cbn [fst snd].
  assert (G : forall k, (total (nm_units m k) (fun n _ => 1 * s (gen_name k i j, n)) == total (nm_units m k) (fun n _ => p_gen (plan_of s) k i j n))%Q) by (intros k; apply total_ext; intros n a _; cbn [plan_of p_gen]; ring).
  rewrite !G. clear G.
  assert (P : (total (nm_pumps m) (fun n _ => - (1) * s (pump_name i j, n)) == - pumped m (plan_of s) i j)%Q) by (unfold pumped; rewrite total_opp; apply total_ext; intros n a _; cbn [plan_of p_pump]; ring).
  rewrite P. clear P.
  assert (D : (system_demand m i j == total (nm_buses m) (fun n b => demand m i j n b))%Q) by (unfold system_demand, demand, total; apply qsum_ext; intros b _; destruct (nm_perc m); ring).
  rewrite D. clear D.
  assert (ST : (term_sum s (if stored m j then store_terms m i j ++ map (fun u => ((store_name i (j - 1), fst u), (- snd u / nm_hours m (j - 1))%Q)) (enum (nm_stores m)) else []) == stored_power m (plan_of s) i j)%Q).
  { unfold stored_power, stored. destruct (Nat.eqb_spec j 0) as [Z|Z]; [subst j; rewrite andb_false_r; apply term_nil|]. replace (0 <? j) with true by (symmetry; apply Nat.ltb_lt; lia). rewrite andb_true_r. destruct (Nat.ltb_spec 0 (List.length (nm_stores m))) as [L|L].
    - rewrite term_sum_app. unfold store_terms. rewrite !total_map, <- total_plus. apply total_ext. intros n e _. cbn [fst snd plan_of p_store]. unfold Qdiv. ring.
    - rewrite term_nil. destruct (nm_stores m); [reflexivity|cbn in L; lia]. }
  rewrite ST. clear ST.
  assert (FE : (term_sum s (if nm_feas m then [((lcs_name i j, 0%nat), 1%Q); ((gcs_name i j, 0%nat), (- (1))%Q)] else []) == if nm_feas m then s (lcs_name i j, 0%nat) - s (gcs_name i j, 0%nat) else 0)%Q).
  { destruct (nm_feas m); [|apply term_nil]. rewrite !term_cons, term_nil. cbn [fst snd]. ring. }
  rewrite FE. clear FE. unfold system_rule. split; intros H; lra.
Qed.

(** C247 (partial): without renewable units the balance of the joint economic dispatch is built, with one row for each day and time, which is met by the plans in which the whole system is in balance.
    Missing: that the whole problem with these rows is built and solved. *)
Theorem C247_balance_partial : forall m, nm_units m Renewable = [] -> exists R : list rowspec,
  system_balance m = Ok (add_rows (map (fun r => (fst (rs_place r), 1)) R) ++ flat_map row_cmds R) /\ NoDup (map rs_place R) /\
  (forall r, In r R -> exists i j, i < nm_days m /\ j < nm_times m /\ rs_place r = (system_row i j, 0)) /\
  (forall i j, i < nm_days m -> j < nm_times m -> exists r, In r R /\ rs_place r = (system_row i j, 0) /\
     forall s, within (rs_bnd r) (term_sum s (rs_terms r)) <-> system_rule m (plan_of s) (s (lcs_name i j, 0)) (s (gcs_name i j, 0)) i j).
Proof.
  intros m R0. exists (map (system_spec m) (periods m)). sp.
  - unfold system_balance. rewrite R0. cbn [List.length Nat.ltb Nat.leb]. rewrite andb_false_r. rewrite map_map. reflexivity.
  - rewrite map_map. apply NoDup_map_in; [apply NoDup_prod; apply seq_NoDup|]. intros (i & j) (i' & j') _ _ E. cbn in E. now injection E as -> ->.
  - intros r H. apply in_map_iff in H as ((i & j) & <- & H). apply in_periods in H. exists i, j. sp; try apply H; auto.
  - intros i j Hi Hj. exists (system_spec m (i, j)). sp; [|reflexivity|intros s; apply system_row_iff]. apply in_map, in_periods. split; auto.
Qed.
Print Assumptions C247_balance_partial.
(** In the first day and time of the example the hydro units give 1 less than the demand less the thermal unit. *)
Example C247_witness : nm_units (dispatched jn_net) Renewable = [] /\ system_rule (dispatched jn_net) (jn_plan 0 0) 1 0 0 0 /\ ~ system_rule (dispatched jn_net) (jn_plan 0 0) 0 0 0 0.
Proof. split; [reflexivity|]. split; [reflexivity|]. intros H. vm_compute in H. discriminate H. Qed.
