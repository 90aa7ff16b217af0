(** Properties C185-C197: the joint model of energy, network and rivers. *)
From Coq Require Import List Bool Arith ZArith QArith Lia Lqa.
From Verif Require Import Base GraphData GraphDataProofs Cases CasesProofs Network InputOutput InputOutputProofs ConverterOpen ScreeningProofs HydroTables Linear LinearProofs Devices
  EnergyTree EnergyTreeSpec EnergyTreeProofs EnergyTreeLinks EnergyTreeSoC EnergyTreeData Properties_EnergyTree Joint JointTree JointSpec JointEnergy JointWater JointUse JointCost JointExamples.
From Verif Require Power PowerSpec PowerExamples Hydro HydroSpec HydroModel HydroNet HydroExamples.
Import ListNotations.
Open Scope nat_scope.
Open Scope list_scope.

Local Ltac sp := repeat match goal with |- _ /\ _ => split end.

(* ------------------------------------------------------------------ *)
(** ** C185 *)

(** The weight of a scenario in the objective is the product of the weights of the intervals that lead to it; all together
    weigh the product of the sums of the weights of the levels. *)
Theorem C185_scenario_weights : forall cf pow53 root pow23 J K, j_data J <> [] -> Forall level_named (j_data J) -> initialise cf pow53 root pow23 J = Ok K ->
  exists f, scenario_weights (q_number K) (q_energy K) = Ok f /\ List.length f = q_number K /\
  (forall h, h < q_number K -> (nth h f 0 == chance (j_data J) (List.length (j_data J)) h)%Q) /\ (qsum f == volume (j_data J))%Q.
Proof.
  intros cf pow53 root pow23 J K NE F I. destruct (j_data J) as [|d data] eqn:Ej; [contradiction|]. rewrite <- Ej in F. destruct (joint_tree cf pow53 root pow23 J K d data Ej F I) as (C & E1 & E2 & En & EV & t & T & Lk & Wt & EQ). rewrite Ej in *. set (lens := map lv_names (d :: data)) in *.
  destruct (scenario_weights_spec (vectors_of J) d data F t T (q_energy K) EQ) as (f & Ef & Lf & Hf). fold lens in Ef, Lf, Hf. rewrite <- E2 in Ef, Lf, Hf. exists f. assert (DP : depth lens = List.length (d :: data)) by apply map_length.
  assert (X : forall h, h < q_number K -> (nth h f 0 == chance (d :: data) (List.length (d :: data)) h)%Q).
  { intros h Lh. destruct (Hf h Lh) as (q & Hq & HQ). rewrite (nth_error_nth _ _ _ Hq), HQ, <- DP. apply weight_chance; auto. fold lens. now rewrite <- E2. }
  sp; auto. pose proof (chance_total (d :: data) F (List.length (d :: data)) (le_n _)) as CT. rewrite firstn_all in CT. rewrite <- CT. fold lens. rewrite <- DP, <- E2. transitivity (sumf (fun h => nth h f 0%Q) (List.length f)); [symmetry; apply sumf_list|]. rewrite Lf. apply sumf_ext. intros h Lh. rewrite DP. now apply X.
Qed.
Print Assumptions C185_scenario_weights.

Example C185_witness : j_data seasons <> [] /\ Forall level_named (j_data seasons) /\ start seasons = Ok (model_of seasons) /\ q_number (model_of seasons) = 4 /\ scenario_weights 4 (q_energy (model_of seasons)) = Ok [1 # 2; 1 # 2; 2 # 2; 2 # 2] /\ (volume (j_data seasons) == 3)%Q.
Proof. sp; try (vm_compute; reflexivity); [discriminate|repeat constructor]. Qed.

(* ------------------------------------------------------------------ *)
(** ** C186 *)

(** The tree that joint initialisation makes: one vector per water input, or per hydropower plant without rivers; no inputs
    and outputs; the weights of the data; the nodes of the last level, one for each network model. *)
Theorem C186_tree : forall cf pow53 root pow23 J K, j_data J <> [] -> Forall level_named (j_data J) -> initialise cf pow53 root pow23 J = Ok K ->
  let lens := map lv_names (j_data J) in
  vectors K = match j_water J with Some E => List.length (Hydro.e_in E) | None => List.length (Power.w_plants (j_power J)) end /\
  q_first K = off lens (List.length lens) /\ q_number K = width lens (List.length lens) /\ nodes K = q_first K + q_number K /\ Power.w_noh (q_power K) = q_number K /\
  List.length (en_in (q_energy K)) = nodes K /\ List.length (en_out (q_energy K)) = nodes K /\
  (forall n x, (input_of (en_in (q_energy K)) x n == 0 /\ input_of (en_out (q_energy K)) x n == 0)%Q) /\
  forall k j l, nth_error (j_data J) k = Some l -> j < width lens (k + 1) -> weight_of K (node lens (k + 1) j) = nth (j mod lv_names l) (lv_weights l) 0%Q.
Proof.
  intros cf pow53 root pow23 J K NE F I lens. destruct (network_counts cf pow53 root pow23 J K I) as (WN & _). destruct (j_data J) as [|d data] eqn:Ej; [contradiction|]. rewrite <- Ej in F. destruct (joint_tree cf pow53 root pow23 J K d data Ej F I) as (C & E1 & E2 & En & EV & t & T & Lk & Wt & EQ). rewrite Ej in *. fold lens in E1, E2, En, T, Lk, EQ.
  assert (CO : Forall (level_ok (vectors_of J)) (map (cleared (vectors_of J)) (d :: data))) by (exact (clear_ok (vectors_of J) d data F)). pose proof (node_data (map (cleared (vectors_of J)) (d :: data)) (vectors_of J) CO (map lv_unc (d :: data)) t) as ND. rewrite clear_names in ND. fold lens in ND. specialize (ND T).
  assert (RZ : forall l c x, (nth x (row_of (vectors_of J) (lv_inputs (cleared (vectors_of J) l)) c) 0 == 0)%Q /\ (nth x (row_of (vectors_of J) (lv_outputs (cleared (vectors_of J) l)) c) 0 == 0)%Q).
  { intros l c x. unfold row_of. split; (destruct (Nat.lt_ge_cases x (vectors_of J)) as [L|L]; [|rewrite nth_overflow by (rewrite map_length, seq_length; exact L); reflexivity]); match goal with |- (nth x (map ?g _) _ == _)%Q => rewrite (nth_indep _ 0%Q (g 0)) by (rewrite map_length, seq_length; exact L); rewrite (map_nth g), seq_nth by exact L end; cbn [Nat.add]; destruct (cleared_reads (vectors_of J) l x c) as [X1 X2]; (rewrite X1 || rewrite X2); reflexivity. }
  sp.
  - rewrite EV. unfold vectors_of. reflexivity.
  - exact E1.
  - exact E2.
  - rewrite En, E1, E2. unfold EnergyTreeProofs.nodes. rewrite Nat.add_1_r. reflexivity.
  - exact WN.
  - rewrite EQ. cbn [en_in]. rewrite map_length, seq_length. now rewrite En.
  - rewrite EQ. cbn [en_out]. rewrite map_length, seq_length. now rewrite En.
  - intros n x. rewrite EQ. cbn [en_in en_out]. unfold input_of.
    assert (Z : forall g, (forall m, m < EnergyTreeProofs.nodes lens -> (nth x (g m) 0 == 0)%Q) -> (nth x (nth n (map g (seq 0 (EnergyTreeProofs.nodes lens))) []) 0 == 0)%Q).
    { intros g H. destruct (Nat.lt_ge_cases n (EnergyTreeProofs.nodes lens)) as [L|L]; [|rewrite (nth_overflow (map g _)) by (rewrite map_length, seq_length; exact L); destruct x; reflexivity]. rewrite (nth_indep _ [] (g 0)) by (rewrite map_length, seq_length; exact L). rewrite map_nth, seq_nth by exact L. now apply H. }
    assert (Y : forall m, m < EnergyTreeProofs.nodes lens -> (nth x (in_at (map (cleared (vectors_of J)) (d :: data)) (vectors_of J) t m) 0 == 0)%Q /\ (nth x (out_at (map (cleared (vectors_of J)) (d :: data)) (vectors_of J) t m) 0 == 0)%Q).
    { intros m Lm. destruct (node_surj lens _ m Lm) as (k & j & Lk' & Lj & ->). destruct k as [|k].
      - assert (j = 0) by (cbn in Lj; lia). subst j. assert (R0 : nth 0 (tr_inout t) 0 = 0). { pose proof (it_inout _ _ _ T 0 0 ltac:(lia) ltac:(cbn; lia)) as X. unfold node in X. cbn [off Nat.add inout_spec] in X. destruct (nth_error (tr_inout t) 0) eqn:NN; [|discriminate]. injection X as ->. now apply nth_error_nth. }
        unfold in_at, out_at. change (node lens 0 0) with 0. rewrite R0. unfold win_of, wout_of. cbn [nth]. split; (destruct (Nat.lt_ge_cases x (vectors_of J)) as [L|L]; [rewrite (nth_error_nth _ _ _ (nth_repeat 0%Q _ _ L)); reflexivity|rewrite nth_overflow by (rewrite repeat_length; exact L); reflexivity]).
      - assert (LK : k < List.length (d :: data)) by (unfold lens, depth in Lk'; rewrite map_length in Lk'; lia). destruct (nth_error (d :: data) k) as [l|] eqn:Nl; [|apply nth_error_None in Nl; lia]. specialize (ND k j (cleared (vectors_of J) l) (j mod lv_names (cleared (vectors_of J) l))). rewrite nth_error_map, Nl in ND. replace (k + 1) with (S k) in ND by lia. destruct (ND eq_refl Lj eq_refl) as (-> & -> & _). apply RZ. }
    split; apply Z; intros m Lm; now apply Y.
  - intros k j l Nl Lj. assert (LK : k < List.length (d :: data)) by (apply nth_error_Some; congruence). rewrite Wt; [|rewrite En; apply node_nodes; [unfold depth, lens; rewrite map_length; lia|exact Lj]].
    specialize (ND k j (cleared (vectors_of J) l) (j mod lv_names (cleared (vectors_of J) l))). rewrite nth_error_map, Nl in ND. destruct (ND eq_refl Lj eq_refl) as (_ & _ & X). exact X.
Qed.
Print Assumptions C186_tree.
(** The profiles that joint initialisation makes: those of demand are the given ones and then constant; those of the farms are
    0 until they are set.  The number of scenarios is that of the tree. *)
Theorem C186_profiles : forall cf pow53 root pow23 J K, initialise cf pow53 root pow23 J = Ok K ->
  let W := j_power J in let W' := q_power K in
  Power.w_time W' = Power.w_time W /\ Power.w_scen W' = sz_scenarios (en_sizes (q_energy K)) /\ Power.w_nodem W' = Power.w_scen W' /\
  (0 < Power.w_scen W' -> List.length (Power.w_demand W') = Power.w_time W * Power.w_scen W' /\ forall i, i < Power.w_time W * Power.w_scen W' -> nth_error (Power.w_demand W') i = Some (nth i (Power.w_demand W) 1%Q)) /\
  (Power.w_farms W <> [] -> List.length (Power.w_profile W') = Power.w_time W * Power.w_nores W /\ Forall (fun q => q = 0%Q) (Power.w_profile W')) /\
  Power.w_plants W' = Power.w_plants W /\ Power.w_farms W' = Power.w_farms W /\ Power.w_pumps W' = Power.w_pumps W /\ Power.w_buses W' = Power.w_buses W /\ Power.w_branches W' = Power.w_branches W.
Proof.
  intros cf pow53 root pow23 J K I W W'. destruct (initialise_energy cf pow53 root pow23 J K I) as (_ & _ & N & _). unfold network_of in N. apply bind_inv in N as (d & Ed & N). fold W in N, Ed. unfold W'. rewrite <- (f_equal (fun r => match r with Ok a => a | Err _ => q_power K end) N). cbn [Power.w_time Power.w_scen Power.w_nodem Power.w_demand Power.w_profile Power.w_plants Power.w_farms Power.w_pumps Power.w_buses Power.w_branches].
  sp; try reflexivity.
  - intros P. rewrite (proj2 (Nat.ltb_lt _ _) P) in Ed. unfold fill_demand in Ed. destruct (Nat.ltb_spec (Power.w_time W * sz_scenarios (en_sizes (q_energy K))) (List.length (Power.w_demand W))) as [X|X]; [discriminate|]. injection Ed as <-. rewrite app_length, repeat_length. split; [lia|].
    intros i Li. destruct (Nat.lt_ge_cases i (List.length (Power.w_demand W))) as [L|L].
    + rewrite nth_error_app1 by exact L. now apply nth_error_nth'.
    + rewrite nth_error_app2 by exact L. rewrite nth_repeat by lia. now rewrite nth_overflow.
  - intros NF. unfold Power.n_ren. destruct (Power.w_farms W) as [|x l]; [contradiction|]. cbn [List.length Nat.ltb Nat.leb]. rewrite repeat_length. split; [reflexivity|]. apply Forall_forall. intros q Iq. now apply repeat_spec in Iq.
Qed.
Print Assumptions C186_profiles.

Example C186_witness : j_data seasons <> [] /\ Forall level_named (j_data seasons) /\ start seasons = Ok (model_of seasons) /\ nodes (model_of seasons) = 7 /\ weight_of (model_of seasons) 2 = 2%Q /\ vectors (model_of lifted) = 1 /\ vectors (model_of crossed) = 2.
Proof. sp; try (vm_compute; reflexivity); [discriminate|repeat constructor]. Qed.

(* ------------------------------------------------------------------ *)
(** ** C187 *)

Lemma nth_or {A} (l : list A) n d : nth n l d = match nth_error l n with Some x => x | None => d end.
Proof. revert n. induction l as [|a l IH]; intros [|n]; cbn; auto. Qed.

(** Setting the energy of plant [index] changes one number only, unless there is one plant. *)
Theorem C187_hydro_partial : forall plants inputs index value r, plants <> 1 -> nth_error inputs 1 = Some r -> 1 <= index <= List.length r ->
  exists inputs', set_hydro plants inputs index value = Ok inputs' /\ List.length inputs' = List.length inputs /\
  forall n x, input_of inputs' x n = if (n =? 1) && (S x =? index) then value else input_of inputs x n.
Proof.
  intros plants inputs index value r NP Nr Li. unfold set_hydro. rewrite (proj2 (at_nth _ _ _) Nr), bind_ok. rewrite (proj2 (Nat.eqb_neq _ _) NP). destruct index as [|i]; [lia|]. cbn [slot]. rewrite (proj2 (Nat.ltb_lt _ _)) by lia. rewrite bind_ok. eexists. split; [reflexivity|]. rewrite set_nth_length. split; [reflexivity|].
  intros n x. unfold input_of. rewrite !(nth_or _ _ []), !(nth_or _ _ 0%Q). rewrite nth_set_nth. rewrite Nat.eqb_sym. destruct (Nat.eqb_spec n 1) as [->|]; cbn [andb]; [|reflexivity]. rewrite Nr. rewrite nth_set_nth. cbn [Nat.eqb]. rewrite (Nat.eqb_sym x). destruct (Nat.eqb_spec i x) as [->|]; [|reflexivity]. destruct (nth_error r x) eqn:Nx; [reflexivity|]. apply nth_error_None in Nx. lia.
Qed.
Print Assumptions C187_hydro_partial.
(** The inputs of a lone plant are set all; number 0 sets the last. *)
Theorem C187_lone_refuted : exists inputs inputs' index value n x, set_hydro 1 inputs index value = Ok inputs' /\ 1 <= index /\ index <> S x /\ ~ (input_of inputs' x n == input_of inputs x n)%Q.
Proof. exists [[0; 0]; [1; 2]]%Q. eexists. exists 1, 5%Q, 1, 1. sp; [reflexivity|lia|lia|vm_compute; discriminate]. Qed.
Print Assumptions C187_lone_refuted.
Theorem C187_zero_refuted : exists inputs inputs', set_hydro 2 inputs 0 5 = Ok inputs' /\ (input_of inputs' 1 1 == 5)%Q /\ (input_of inputs 1 1 == 2)%Q.
Proof. exists [[0; 0]; [1; 2]]%Q. eexists. sp; reflexivity. Qed.
Print Assumptions C187_zero_refuted.

Example C187_witness : exists inputs', set_hydro 2 [[0; 0]; [1; 2]]%Q 2 5 = Ok inputs' /\ inputs' = [[0; 0]; [1; 5]]%Q.
Proof. eexists. split; reflexivity. Qed.

(* ------------------------------------------------------------------ *)
(** ** C188 *)

(** Without rivers, a hydropower plant does not generate more than the inputs of its vector, all scenarios counted as often
    as they occur. *)
Theorem C188_energy_partial : forall cf pow53 root pow23 J K inputs v s x, j_data J <> [] -> Forall level_named (j_data J) -> Forall (fun l => Forall (fun w => (0 <= w)%Q) (lv_weights l)) (j_data J) -> uncertain_nodes (j_data J) <> 1 ->
  j_water J = None -> initialise cf pow53 root pow23 J = Ok K -> answer J K inputs v s -> x < List.length (Power.w_plants (j_power J)) ->
  (sumf (fun h => chance (j_data J) (List.length (j_data J)) h * over_time K (plant_power K s h x))%Q (q_number K) <= supply (j_data J) inputs x)%Q.
Proof.
  intros cf pow53 root pow23 J K inputs v s x NE F FW U NW I AN Lx. destruct (j_data J) as [|d data] eqn:Ej; [contradiction|]. rewrite <- Ej in *. destruct (joint_tree cf pow53 root pow23 J K d data Ej F I) as (_ & _ & _ & _ & EV & _). destruct (network_power cf pow53 root pow23 J K I) as (EP & _).
  assert (V : vectors K = Power.n_hyd (q_power K)) by (rewrite EV; unfold vectors_of; rewrite NW; unfold Power.n_hyd; now rewrite EP). assert (Lx' : x < Power.n_hyd (q_power K)) by (unfold Power.n_hyd; now rewrite EP).
  pose proof (tree_bound cf pow53 root pow23 J K inputs v s d data Ej F FW U I AN x ltac:(rewrite V; exact Lx')) as B. eapply Qle_trans; [|exact B]. apply Qle_lteq. right. apply sumf_ext. intros h Lh. apply Qmult_comp; [reflexivity|]. symmetry. now apply (dry_links cf pow53 root pow23 J K inputs v s I NW AN h x).
Qed.
Print Assumptions C188_energy_partial.
(** With one node that is followed by alternatives they are not kept. *)
Theorem C188_alternatives_refuted : exists J K inputs v s, Forall level_named (j_data J) /\ Forall (fun l => Forall (fun w => (0 <= w)%Q) (lv_weights l)) (j_data J) /\ uncertain_nodes (j_data J) = 1 /\ j_water J = None /\ start J = Ok K /\ answer J K inputs v s /\
  List.length (Power.w_plants (j_power J)) = 1 /\ (supply (j_data J) inputs 0 == 1)%Q /\ (sumf (fun h => chance (j_data J) (List.length (j_data J)) h * over_time K (plant_power K s h 0))%Q (q_number K) == 2)%Q.
Proof. exists twofold, (model_of twofold), twofold_in, (states_of twofold_states), twofold_answer. destruct twofold_checked as (A & B). sp; auto; try (vm_compute; reflexivity); repeat constructor; discriminate. Qed.
Print Assumptions C188_alternatives_refuted.

Example C188_witness : Forall level_named (j_data seasons) /\ Forall (fun l => Forall (fun w => (0 <= w)%Q) (lv_weights l)) (j_data seasons) /\ uncertain_nodes (j_data seasons) = 2 /\ start seasons = Ok (model_of seasons) /\ answer seasons (model_of seasons) seasons_in (states_of seasons_states) seasons_answer /\
  (sumf (fun h => chance (j_data seasons) 2 h * over_time (model_of seasons) (plant_power (model_of seasons) seasons_answer h 0))%Q 4 == 3)%Q /\ (supply (j_data seasons) seasons_in 0 == 3)%Q.
Proof. destruct seasons_checked as (A & B). sp; auto; try (vm_compute; reflexivity); repeat constructor; discriminate. Qed.

(* ------------------------------------------------------------------ *)
(** ** C189 *)

(** With equal steps of time and without conventional machines, the objective is at least the expected cost of generation,
    less what is paid for pumping, and the penalty of the rivers. *)
Theorem C189_expected_partial : forall cf pow53 root pow23 J K inputs v s f, j_data J <> [] -> Forall level_named (j_data J) -> Forall (fun l => Forall (fun w => (0 <= w)%Q) (lv_weights l)) (j_data J) ->
  initialise cf pow53 root pow23 J = Ok K -> answer J K inputs v s -> scenario_weights (q_number K) (q_energy K) = Ok f -> Power.w_machines (j_power J) = [] -> Power.w_weights (j_power J) = None -> (0 <= j_penalty J)%Q ->
  (sumf (fun h => chance (j_data J) (List.length (j_data J)) h * (costs K s 1 h - income K s h)) (q_number K) + s (JWater Hydro.HPenalty) <= objective J K f s)%Q.
Proof.
  intros cf pow53 root pow23 J K inputs v s f NE F FW I AN EF NM NWt P. destruct (C185_scenario_weights cf pow53 root pow23 J K NE F I) as (f' & EF' & Lf & Hf & _). assert (f' = f) by congruence. subst f'. destruct (network_counts cf pow53 root pow23 J K I) as (_ & _ & _ & _ & Wm). rewrite NWt in Wm.
  assert (S1 : forall t, t < Power.w_time (q_power K) -> step_weight K t = 1%Q) by (intros t Lt; unfold step_weight; rewrite Wm; exact (nth_error_nth _ _ 0%Q (nth_repeat 1%Q _ _ Lt))).
  eapply Qle_trans; [|apply (objective_bound cf pow53 root pow23 J K inputs v s f); auto].
  - apply Qplus_le_compat; [|apply Qle_refl]. apply sumf_le. intros h Lh. apply Qle_lteq. right. rewrite (Hf h Lh). apply Qmult_comp; [reflexivity|]. apply Qplus_comp; [|reflexivity]. unfold costs. apply sumf_ext. intros t Lt. rewrite (S1 t Lt). reflexivity.
  - intros t Lt. rewrite (S1 t Lt). reflexivity.
  - intros h Lh. rewrite (Hf h Lh). now apply chance_nonneg.
Qed.
Print Assumptions C189_expected_partial.
(** The weight of a step counts twice. *)
Theorem C189_twice : forall cf pow53 root pow23 J K inputs v s f, j_data J <> [] -> Forall level_named (j_data J) -> Forall (fun l => Forall (fun w => (0 <= w)%Q) (lv_weights l)) (j_data J) ->
  initialise cf pow53 root pow23 J = Ok K -> answer J K inputs v s -> scenario_weights (q_number K) (q_energy K) = Ok f -> Power.w_machines (j_power J) = [] -> (forall t, t < Power.w_time (q_power K) -> (0 < step_weight K t)%Q) -> (0 <= j_penalty J)%Q ->
  (sumf (fun h => chance (j_data J) (List.length (j_data J)) h * (costs K s 2 h - income K s h)) (q_number K) + s (JWater Hydro.HPenalty) <= objective J K f s)%Q.
Proof.
  intros cf pow53 root pow23 J K inputs v s f NE F FW I AN EF NM SW P. destruct (C185_scenario_weights cf pow53 root pow23 J K NE F I) as (f' & EF' & Lf & Hf & _). assert (f' = f) by congruence. subst f'.
  eapply Qle_trans; [|apply (objective_bound cf pow53 root pow23 J K inputs v s f); auto].
  - apply Qplus_le_compat; [|apply Qle_refl]. apply sumf_le. intros h Lh. apply Qle_lteq. right. now rewrite (Hf h Lh).
  - intros h Lh. rewrite (Hf h Lh). now apply chance_nonneg.
Qed.
Print Assumptions C189_twice.
Lemma sumf_one f : (sumf f 1 == f 0%nat)%Q.
Proof. cbn. ring. Qed.
(** So that no answer with the same generation has the cost as its objective. *)
Theorem C189_weights_refuted : exists J K inputs v s f, start J = Ok K /\ answer J K inputs v s /\ scenario_weights (q_number K) (q_energy K) = Ok f /\ q_number K = 1 /\ (nth 0 f 0 == 1)%Q /\ (costs K s 1 0 == 2)%Q /\ Power.w_pumps (q_power K) = [] /\
  forall s', answer J K inputs v s' -> (forall i t, s' (JNet (Power.NGen i t)) = s (JNet (Power.NGen i t))) -> (4 <= objective J K f s')%Q.
Proof.
  exists heavy, (model_of heavy), [[0]; [2]]%Q, (states_of [[(0, 0); (0, 0)]]%Q), heavy_answer, [1%Q]. destruct heavy_checked as (A & B). sp; auto; try (vm_compute; reflexivity). intros s' AN' SG. assert (S2 : scenario_weights (q_number (model_of heavy)) (q_energy (model_of heavy)) = Ok [1%Q]) by (vm_compute; reflexivity).
  assert (SW : forall t, t < Power.w_time (q_power (model_of heavy)) -> (0 < step_weight (model_of heavy) t)%Q) by (intros [|t] Lt; [vm_compute; reflexivity|vm_compute in Lt; lia]).
  assert (P0 : (0 <= s' (JWater Hydro.HPenalty))%Q) by (destruct AN' as (_ & _ & _ & X & _); exact X).
  pose proof (objective_bound PowerExamples.no_cf HydroExamples.p53 HydroExamples.rt HydroExamples.p23 heavy (model_of heavy) _ _ s' [1%Q] A AN' eq_refl ltac:(discriminate) SW) as X. eapply Qle_trans; [|apply X].
  - change (q_number (model_of heavy)) with 1. assert (C : (costs (model_of heavy) s' 2 0 == 4)%Q). { transitivity (costs (model_of heavy) heavy_answer 2 0); [|vm_compute; reflexivity]. unfold costs, gen_power. apply sumf_ext. intros t Lt. apply Qmult_comp; [reflexivity|]. apply sumf_ext. intros g Lg. now rewrite SG. }
    assert (Z : (income (model_of heavy) s' 0 == 0)%Q) by reflexivity. rewrite sumf_one. cbv beta. cbn [nth]. rewrite C, Z. revert P0. generalize (s' (JWater Hydro.HPenalty)). intros q P0. lra.
  - intros h Lh. change (q_number (model_of heavy)) with 1 in Lh. assert (h = 0) by lia. subst h. discriminate.
Qed.
Print Assumptions C189_weights_refuted.

Example C189_witness : start seasons = Ok (model_of seasons) /\ answer seasons (model_of seasons) seasons_in (states_of seasons_states) seasons_answer /\ Power.w_machines (j_power seasons) = [] /\ Power.w_weights (j_power seasons) = None /\ (0 <= j_penalty seasons)%Q /\
  exists f, scenario_weights 4 (q_energy (model_of seasons)) = Ok f /\ (objective seasons (model_of seasons) f seasons_answer == 3)%Q /\ (sumf (fun h => chance (j_data seasons) 2 h * costs (model_of seasons) seasons_answer 1 h) 4 == 3)%Q.
Proof. destruct seasons_checked as (A & B). sp; [exact A|exact B|reflexivity|reflexivity|discriminate|]. eexists. split; [vm_compute; reflexivity|]. split; vm_compute; reflexivity. Qed.

(* ------------------------------------------------------------------ *)
(** ** C190 *)

(** With rivers, the energy that leaves the tree for an input to which nothing is pumped is the water that enters there
    with the head and efficiency of the plant with the same number, and no more enters than is supplied. *)
Theorem C190_input_partial : forall cf pow53 root pow23 J K E Y inputs v s i u, j_data J <> [] -> Forall level_named (j_data J) -> Forall (fun l => Forall (fun w => (0 <= w)%Q) (lv_weights l)) (j_data J) -> uncertain_nodes (j_data J) <> 1 ->
  initialise cf pow53 root pow23 J = Ok K -> j_water J = Some E -> q_water K = Some Y -> HydroSpec.well_set E -> answer J K inputs v s -> Power.w_plants (j_power J) <> [] ->
  i < List.length (Hydro.e_in E) -> nth_error (Hydro.e_units E) i = Some u -> (forall node p, nth_error (Hydro.y_in Y) i = Some node -> nth_error (Hydro.e_pump_to E) p <> Some node) ->
  let enters h t := HydroSpec.water_in Y (fun x => s (JWater x)) h t i in let energy h := (per_flow (Hydro.u_head u) (Hydro.u_eff u) * over_time K (enters h))%Q in
  (forall h, h < q_number K -> (s (JOut (q_first K + h) i) == energy h)%Q) /\
  (sumf (fun h => chance (j_data J) (List.length (j_data J)) h * energy h)%Q (q_number K) <= supply (j_data J) inputs i)%Q.
Proof.
  intros cf pow53 root pow23 J K E Y inputs v s i u NE F FW U I EJ EK WS AN NP Li Nu NPu enters energy. destruct (j_data J) as [|d data] eqn:Ej; [contradiction|]. rewrite <- Ej in *. destruct (joint_tree cf pow53 root pow23 J K d data Ej F I) as (_ & _ & _ & _ & EV & _). destruct (network_power cf pow53 root pow23 J K I) as (EP & _).
  assert (NH : 0 < Power.n_hyd (q_power K)) by (unfold Power.n_hyd; rewrite EP; destruct (Power.w_plants (j_power J)); [contradiction|cbn; lia]). assert (LV : i < vectors K) by (rewrite EV; unfold vectors_of; rewrite EJ; exact Li).
  assert (X : forall h, h < q_number K -> (s (JOut (q_first K + h) i) == energy h)%Q).
  { intros h Lh. assert (Ni : exists node, nth_error (Hydro.y_in Y) i = Some node).
    { destruct (nth_error (Hydro.y_in Y) i) as [n|] eqn:Ni; [eauto|]. exfalso. destruct (water_links J K E Y inputs v s EJ EK AN NH) as (eh & ep & EH & EPu & A & _). destruct (inflow_holds J K E Y eh ep s h i EH EPu (A h i Lh LV)) as (p & Hp & _). destruct (water_model cf pow53 root pow23 J K E Y I EJ EK WS) as (E' & rs & ramp & _ & _ & _ & TD & _ & T1 & _).
      destruct (HydroModel.td_in _ _ _ TD) as (ND & Fi & _). assert (N0 : ~ In 0 (Hydro.y_in Y)) by (intros I0; rewrite Forall_forall in Fi; apply Fi in I0; lia). destruct (pump_inputs_spec _ _ _ _ _ ND N0 T1) as (L & _). assert (i < List.length (q_hin K)) by (apply nth_error_Some; congruence). apply nth_error_None in Ni. lia. }
    destruct Ni as (node & Ni). rewrite (input_water cf pow53 root pow23 J K E Y inputs v s I EJ EK WS AN NH h i node Lh LV Ni) by (intros p _; now apply NPu). unfold energy, plant_factor. rewrite Nu. reflexivity. }
  split; [exact X|]. eapply Qle_trans; [|apply (tree_bound cf pow53 root pow23 J K inputs v s d data Ej F FW U I AN i LV)]. apply Qle_lteq. right. apply sumf_ext. intros h Lh. now rewrite X.
Qed.
Print Assumptions C190_input_partial.
(** But the plant with the number of an input need not be below it: two plants generate 7 with 5 supplied. *)
Theorem C190_order_refuted : exists J K E inputs v s, start J = Ok K /\ j_water J = Some E /\ HydroSpec.well_set E /\ answer J K inputs v s /\ q_number K = 1 /\ List.length (Hydro.e_in E) = 2 /\ List.length (Power.w_plants (j_power J)) = 2 /\
  (supply (j_data J) inputs 0 + supply (j_data J) inputs 1 == 5)%Q /\ (over_time K (plant_power K s 0 0) + over_time K (plant_power K s 0 1) == 7)%Q.
Proof. exists crossed, (model_of crossed), (rivers_of crossed), [[0; 0]; [2; 3]]%Q, (states_of [[(0, 0); (0, 0)]; [(0, 0); (0, 0)]]%Q), crossed_answer. destruct crossed_checked as (A & B). split; [exact A|]. split; [reflexivity|]. split; [exact crossed_set|]. split; [exact B|]. sp; vm_compute; reflexivity. Qed.
Print Assumptions C190_order_refuted.
(** And with more inputs than plants there is no model. *)
Theorem C190_inputs_refuted : exists J K E, start J = Ok K /\ j_water J = Some E /\ HydroSpec.well_set E /\ 0 < List.length (Power.w_plants (j_power J)) < List.length (Hydro.e_in E) /\ links J K = Err IndexError.
Proof. exists joining, (model_of joining), (rivers_of joining). split; [vm_compute; reflexivity|]. split; [reflexivity|]. split; [exact joining_set|]. split; [vm_compute; lia|vm_compute; reflexivity]. Qed.
Print Assumptions C190_inputs_refuted.

Example C190_witness : start stream = Ok (model_of stream) /\ j_water stream = Some (rivers_of stream) /\ q_water (model_of stream) = Some (water_of_model stream) /\ HydroSpec.well_set (rivers_of stream) /\ answer stream (model_of stream) [[0]; [4]]%Q (states_of [[(0, 0); (0, 0)]]%Q) stream_answer /\
  uncertain_nodes (j_data stream) = 0 /\ nth_error (Hydro.e_units (rivers_of stream)) 0 = Some (unit_at 2 1) /\ (stream_answer (JOut 1 0) == 4)%Q /\ (over_time (model_of stream) (fun t => HydroSpec.water_in (water_of_model stream) (fun x => stream_answer (JWater x)) 0 t 0) == 4)%Q.
Proof. destruct stream_checked as (A & B). split; [exact A|]. split; [reflexivity|]. split; [vm_compute; reflexivity|]. split; [exact stream_set|]. split; [exact B|]. sp; vm_compute; reflexivity. Qed.

(* ------------------------------------------------------------------ *)
(** ** C191 *)

(** What enters the rivers at a node added for pumps is what the last pump to it moves with its power. *)
Theorem C191_pumped_partial : forall cf pow53 root pow23 J K E Y inputs v s h t i p node l, j_data J <> [] -> Forall level_named (j_data J) -> initialise cf pow53 root pow23 J = Ok K -> j_water J = Some E -> q_water K = Some Y -> HydroSpec.well_set E -> answer J K inputs v s -> Power.w_plants (j_power J) <> [] ->
  h < q_number K -> t < Power.w_time (j_power J) -> List.length (Hydro.e_in E) <= i -> nth_error (Hydro.y_in Y) i = Some node ->
  nth_error (Hydro.e_pump_to E) p = Some node -> p < List.length (Power.w_pumps (j_power J)) -> (forall q, p < q < List.length (Power.w_pumps (j_power J)) -> nth_error (Hydro.e_pump_to E) q <> Some node) -> nth_error (j_lifts J) p = Some l ->
  (HydroSpec.water_in Y (fun x => s (JWater x)) h t i == pump_power K s h p t / per_flow (fst l) (snd l))%Q.
Proof.
  intros cf pow53 root pow23 J K E Y inputs v s h t i p node l NE F I EJ EK WS AN NP Lh Lt Li Ni Np Lp LP Nl. destruct (j_data J) as [|d data] eqn:Ej; [contradiction|]. rewrite <- Ej in *. destruct (joint_tree cf pow53 root pow23 J K d data Ej F I) as (_ & _ & _ & _ & EV & _). destruct (network_power cf pow53 root pow23 J K I) as (EP & EPu & ET).
  assert (NH : 0 < Power.n_hyd (q_power K)) by (unfold Power.n_hyd; rewrite EP; destruct (Power.w_plants (j_power J)); [contradiction|cbn; lia]). assert (LV : vectors K <= i) by (rewrite EV; unfold vectors_of; rewrite EJ; exact Li). assert (PN : Power.n_pump (q_power K) = List.length (Power.w_pumps (j_power J))) by (unfold Power.n_pump; now rewrite EPu).
  rewrite (input_pumped cf pow53 root pow23 J K E Y inputs v s I EJ EK WS AN NH h i t node p Lh LV Ni); auto; try (rewrite PN; auto; fail); [|rewrite ET; auto]. unfold pump_factor. rewrite Nl. reflexivity.
Qed.
Print Assumptions C191_pumped_partial.

Definition watered (J : settings) (inputs : list (list Q)) (states : list (list (Q * Q))) (s : var -> Q) : Prop :=
  start J = Ok (model_of J) /\ j_water J = Some (rivers_of J) /\ q_water (model_of J) = Some (water_of_model J) /\ HydroSpec.well_set (rivers_of J) /\ answer J (model_of J) inputs (states_of states) s.
Lemma lifted_watered : watered lifted [[0]; [2]]%Q [[(0, 0); (0, 0)]]%Q lifted_answer.
Proof. destruct lifted_checked as (A & B). split; [exact A|]. split; [reflexivity|]. split; [vm_compute; reflexivity|]. split; [exact lifted_set|exact B]. Qed.
Example C191_witness : watered lifted [[0]; [2]]%Q [[(0, 0); (0, 0)]]%Q lifted_answer /\ List.length (Hydro.e_in (rivers_of lifted)) = 1 /\ Hydro.y_in (water_of_model lifted) = [1; 3] /\ Hydro.e_pump_to (rivers_of lifted) = [3] /\ List.length (Power.w_pumps (j_power lifted)) = 1 /\
  (HydroSpec.water_in (water_of_model lifted) (fun x => lifted_answer (JWater x)) 0 0 1 == 2)%Q /\ (pump_power (model_of lifted) lifted_answer 0 0 0 == 1)%Q.
Proof. split; [exact lifted_watered|]. sp; vm_compute; reflexivity. Qed.

(* ------------------------------------------------------------------ *)
(** ** C192 *)

(** When a pump delivers to an input of the tree, the power of the pump before it is subtracted instead of its own. *)
Theorem C192_shifted : forall cf pow53 root pow23 J K E Y inputs v s h i p node u l, j_data J <> [] -> Forall level_named (j_data J) -> initialise cf pow53 root pow23 J = Ok K -> j_water J = Some E -> q_water K = Some Y -> HydroSpec.well_set E -> answer J K inputs v s -> Power.w_plants (j_power J) <> [] ->
  h < q_number K -> i < List.length (Hydro.e_in E) -> nth_error (Hydro.y_in Y) i = Some node -> nth_error (Hydro.e_units E) i = Some u ->
  nth_error (Hydro.e_pump_to E) (S p) = Some node -> S p < List.length (Power.w_pumps (j_power J)) -> (forall q, S p < q < List.length (Power.w_pumps (j_power J)) -> nth_error (Hydro.e_pump_to E) q <> Some node) -> nth_error (j_lifts J) (S p) = Some l ->
  (s (JOut (q_first K + h) i) == per_flow (Hydro.u_head u) (Hydro.u_eff u) * over_time K (fun t => HydroSpec.water_in Y (fun x => s (JWater x)) h t i - pump_power K s h p t / per_flow (fst l) (snd l)))%Q.
Proof.
  intros cf pow53 root pow23 J K E Y inputs v s h i p node u l NE F I EJ EK WS AN NP Lh Li Ni Nu Np Lp LP Nl. destruct (j_data J) as [|d data] eqn:Ej; [contradiction|]. rewrite <- Ej in *. destruct (joint_tree cf pow53 root pow23 J K d data Ej F I) as (_ & _ & _ & _ & EV & _). destruct (network_power cf pow53 root pow23 J K I) as (EP & EPu & ET).
  assert (NH : 0 < Power.n_hyd (q_power K)) by (unfold Power.n_hyd; rewrite EP; destruct (Power.w_plants (j_power J)); [contradiction|cbn; lia]). assert (LV : i < vectors K) by (rewrite EV; unfold vectors_of; rewrite EJ; exact Li). assert (PN : Power.n_pump (q_power K) = List.length (Power.w_pumps (j_power J))) by (unfold Power.n_pump; now rewrite EPu).
  rewrite (input_shifted cf pow53 root pow23 J K E Y inputs v s I EJ EK WS AN NH h i node (S p) Lh LV Ni); auto; try (rewrite PN; auto; fail). unfold plant_factor, pump_factor. rewrite Nu, Nl. apply Qmult_comp; [reflexivity|]. unfold over_time. apply sumf_ext. intros t _. unfold pump_power. replace (h * (Power.n_pump (q_power K) + 1) + S p) with (h * (Power.n_pump (q_power K) + 1) + p + 1) by lia. reflexivity.
Qed.
Print Assumptions C192_shifted.
(** So the pumped water counts as supplied by the tree. *)
Theorem C192_pump_refuted : exists J K E Y inputs v s u l, start J = Ok K /\ j_water J = Some E /\ q_water K = Some Y /\ HydroSpec.well_set E /\ answer J K inputs v s /\ Hydro.e_in E = [1] /\ Hydro.e_pump_to E = [1] /\ nth_error (Hydro.e_units E) 0 = Some u /\ nth_error (j_lifts J) 0 = Some l /\
  ~ (s (JOut (q_first K) 0) == per_flow (Hydro.u_head u) (Hydro.u_eff u) * over_time K (fun t => HydroSpec.water_in Y (fun x => s (JWater x)) 0 t 0 - pump_power K s 0 0 t / per_flow (fst l) (snd l)))%Q.
Proof. exists round_, (model_of round_), (rivers_of round_), (water_of_model round_), [[0]; [3]]%Q, (states_of [[(0, 0); (0, 0)]]%Q), round_answer. eexists. eexists. destruct round_checked as (A & B). split; [exact A|]. split; [reflexivity|]. split; [vm_compute; reflexivity|]. split; [exact round_set|]. split; [exact B|]. sp; try reflexivity. vm_compute. discriminate. Qed.
Print Assumptions C192_pump_refuted.

(* ------------------------------------------------------------------ *)
(** ** C193 *)

(** A pump lifts more water than its power can: the power of the lifted water is the power of the pump divided by its
    efficiency instead of multiplied with it. *)
Theorem C193_power : forall cf pow53 root pow23 J K E Y inputs v s h t i p node l, j_data J <> [] -> Forall level_named (j_data J) -> initialise cf pow53 root pow23 J = Ok K -> j_water J = Some E -> q_water K = Some Y -> HydroSpec.well_set E -> answer J K inputs v s -> Power.w_plants (j_power J) <> [] ->
  h < q_number K -> t < Power.w_time (j_power J) -> List.length (Hydro.e_in E) <= i -> nth_error (Hydro.y_in Y) i = Some node ->
  nth_error (Hydro.e_pump_to E) p = Some node -> p < List.length (Power.w_pumps (j_power J)) -> (forall q, p < q < List.length (Power.w_pumps (j_power J)) -> nth_error (Hydro.e_pump_to E) q <> Some node) -> nth_error (j_lifts J) p = Some l ->
  (0 < fst l)%Q -> (0 < snd l < 1)%Q -> (0 < pump_power K s h p t)%Q -> (pump_power K s h p t < per_flow (fst l) 1 * HydroSpec.water_in Y (fun x => s (JWater x)) h t i)%Q.
Proof.
  intros cf pow53 root pow23 J K E Y inputs v s h t i p node l NE F I EJ EK WS AN NP Lh Lt Li Ni Np Lp LP Nl HP EP PP. rewrite (C191_pumped_partial cf pow53 root pow23 J K E Y inputs v s h t i p node l); auto. revert PP. generalize (pump_power K s h p t). intros q Pq. unfold per_flow.
  assert (Z : (fst l * 1 * (981 # 100) / 1000 * (q / (fst l * snd l * (981 # 100) / 1000)) == q / snd l)%Q) by (field; split; lra). rewrite Z. apply Qlt_shift_div_l; [lra|]. setoid_replace q with (q * 1)%Q at 2 by ring. apply Qmult_lt_l; lra.
Qed.
Print Assumptions C193_power.
Theorem C193_power_refuted : exists J K E Y inputs v s l, start J = Ok K /\ j_water J = Some E /\ q_water K = Some Y /\ HydroSpec.well_set E /\ answer J K inputs v s /\ Hydro.y_in Y = [1; 3] /\ Hydro.e_pump_to E = [3] /\ nth_error (j_lifts J) 0 = Some l /\ (snd l == 1 # 2)%Q /\
  (pump_power K s 0 0 0 == 1)%Q /\ (per_flow (fst l) 1 * HydroSpec.water_in Y (fun x => s (JWater x)) 0 0 1 == 2)%Q.
Proof. exists lifted, (model_of lifted), (rivers_of lifted), (water_of_model lifted), [[0]; [2]]%Q, (states_of [[(0, 0); (0, 0)]]%Q), lifted_answer. eexists. destruct lifted_watered as (A & B & C & D & X). split; [exact A|]. split; [exact B|]. split; [exact C|]. split; [exact D|]. split; [exact X|]. sp; try reflexivity; vm_compute; reflexivity. Qed.
Print Assumptions C193_power_refuted.

(* ------------------------------------------------------------------ *)
(** ** C194 *)

(** A plant at a node that rivers leave uses no more water than flows into them. *)
Theorem C194_river_partial : forall cf pow53 root pow23 J K E Y inputs v s h t g u rs ramp, initialise cf pow53 root pow23 J = Ok K -> j_water J = Some E -> q_water K = Some Y -> HydroSpec.well_set E -> answer J K inputs v s ->
  h < q_number K -> t < Power.w_time (j_power J) -> g < List.length (Power.w_plants (j_power J)) -> nth_error (Hydro.e_units E) g = Some u -> 1 <= Hydro.u_node u <= Hydro.y_nodes Y ->
  Hydro.build_parts (Hydro.e_parts E) (Hydro.e_ramps E) (Hydro.e_rivers E) = Ok (rs, Hydro.y_nodes Y, ramp) -> HydroSpec.rivers_at Hydro.ri_from rs (Hydro.u_node u) <> [] ->
  (plant_power K s h g t / per_flow (Hydro.u_head u) (Hydro.u_eff u) <= qsum (map (HydroSpec.up Y (fun x => s (JWater x)) h t) (HydroSpec.rivers_at Hydro.ri_from rs (Hydro.u_node u))))%Q.
Proof.
  intros cf pow53 root pow23 J K E Y inputs v s h t g u rs ramp I EJ EK WS AN Lh Lt Lg Nu UN P NR. destruct (network_power cf pow53 root pow23 J K I) as (EP & EPu & ET). assert (NH : 0 < Power.n_hyd (q_power K)) by (unfold Power.n_hyd; rewrite EP; lia).
  pose proof (river_water cf pow53 root pow23 J K E Y inputs v s I EJ EK WS AN NH h g u t Lh ltac:(unfold Power.n_hyd; now rewrite EP) Nu UN ltac:(now rewrite ET) rs ramp P NR) as X. unfold plant_factor in X. now rewrite Nu in X.
Qed.
Print Assumptions C194_river_partial.
(** Each plant on its own: two at one node use the water twice. *)
Theorem C194_shared_refuted : exists J K E Y inputs v s, start J = Ok K /\ j_water J = Some E /\ q_water K = Some Y /\ HydroSpec.well_set E /\ answer J K inputs v s /\ map Hydro.u_node (Hydro.e_units E) = [1; 1; 2] /\ map (fun r => (Hydro.ri_from r, Hydro.ri_to r)) (Hydro.e_rivers E) = [(1, 2)] /\
  Forall (fun u => (per_flow (Hydro.u_head u) (Hydro.u_eff u) == 1)%Q) (Hydro.e_units E) /\ (HydroSpec.up Y (fun x => s (JWater x)) 0 0 0 == 2)%Q /\ (plant_power K s 0 0 0 + plant_power K s 0 1 0 == 4)%Q.
Proof. exists cascade, (model_of cascade), (rivers_of cascade), (water_of_model cascade), [[0]; [2]]%Q, (states_of [[(0, 0); (0, 0)]]%Q), cascade_answer. destruct cascade_checked as (A & B). split; [exact A|]. split; [reflexivity|]. split; [vm_compute; reflexivity|]. split; [exact cascade_set|]. split; [exact B|]. sp; try reflexivity; try (vm_compute; reflexivity). repeat constructor; reflexivity. Qed.
Print Assumptions C194_shared_refuted.

Lemma delta_watered : watered delta [[0]; [8]]%Q [[(0, 0); (0, 0)]]%Q delta_answer.
Proof. destruct delta_checked as (A & B). split; [exact A|]. split; [reflexivity|]. split; [vm_compute; reflexivity|]. split; [exact delta_set|exact B]. Qed.
Example C194_witness : watered delta [[0]; [8]]%Q [[(0, 0); (0, 0)]]%Q delta_answer /\ nth_error (Hydro.e_units (rivers_of delta)) 0 = Some (unit_at 1 1) /\ exists rs ramp, Hydro.build_parts (Hydro.e_parts (rivers_of delta)) (Hydro.e_ramps (rivers_of delta)) (Hydro.e_rivers (rivers_of delta)) = Ok (rs, Hydro.y_nodes (water_of_model delta), ramp) /\
  HydroSpec.rivers_at Hydro.ri_from rs 1 = [0; 1] /\ (plant_power (model_of delta) delta_answer 0 0 1 == 2)%Q /\ (qsum (map (HydroSpec.up (water_of_model delta) (fun x => delta_answer (JWater x)) 0 1) [0%nat; 1%nat]) == 4)%Q.
Proof. split; [exact delta_watered|]. split; [reflexivity|]. eexists. eexists. split; [vm_compute; reflexivity|]. sp; vm_compute; reflexivity. Qed.

(* ------------------------------------------------------------------ *)
(** ** C195 *)

(** The last plant and the last pump at an output from which no river leaves use no more water than leaves there, if no
    plant is above a river or the output is not the last one. *)
Theorem C195_output_partial : forall cf pow53 root pow23 J K E Y inputs v s h t n node rs ramp a b, initialise cf pow53 root pow23 J = Ok K -> j_water J = Some E -> q_water K = Some Y -> HydroSpec.well_set E -> answer J K inputs v s -> Power.w_plants (j_power J) <> [] ->
  h < q_number K -> t < Power.w_time (j_power J) -> nth_error (Hydro.y_out Y) n = Some node -> Hydro.build_parts (Hydro.e_parts E) (Hydro.e_ramps E) (Hydro.e_rivers E) = Ok (rs, Hydro.y_nodes Y, ramp) -> HydroSpec.rivers_at Hydro.ri_from rs node = [] ->
  List.length (Hydro.e_units E) = List.length (Power.w_plants (j_power J)) -> Forall (fun u => 1 <= Hydro.u_node u <= Hydro.y_nodes Y) (Hydro.e_units E) -> Forall (fun x => 1 <= x <= Hydro.y_nodes Y) (Hydro.e_pump_from E) ->
  (Forall (fun u => HydroSpec.rivers_at Hydro.ri_from rs (Hydro.u_node u) = []) (Hydro.e_units E) \/ S n < List.length (Hydro.y_out Y)) ->
  takes (map Hydro.u_node (Hydro.e_units E)) (List.length (Power.w_plants (j_power J))) node (fun g => plant_power K s h g t / per_flow (nth g (map Hydro.u_head (Hydro.e_units E)) 0) (nth g (map Hydro.u_eff (Hydro.e_units E)) 0))%Q a ->
  takes (Hydro.e_pump_from E) (List.length (Power.w_pumps (j_power J))) node (fun p => pump_power K s h p t / per_flow (nth p (map fst (j_lifts J)) 0) (nth p (map snd (j_lifts J)) 0))%Q b ->
  List.length (j_lifts J) = List.length (Power.w_pumps (j_power J)) ->
  (a + b <= HydroSpec.water_out Y (fun x => s (JWater x)) h t n)%Q.
Proof.
  intros cf pow53 root pow23 J K E Y inputs v s h t n node rs ramp a b I EJ EK WS AN NP Lh Lt No P NR LU FU FP LA TA TB LL. destruct (network_power cf pow53 root pow23 J K I) as (EP & EPu & ET).
  assert (NH : 0 < Power.n_hyd (q_power K)) by (unfold Power.n_hyd; rewrite EP; destruct (Power.w_plants (j_power J)); [contradiction|cbn; lia]). assert (HN : Power.n_hyd (q_power K) = List.length (Power.w_plants (j_power J))) by (unfold Power.n_hyd; now rewrite EP). assert (PN : Power.n_pump (q_power K) = List.length (Power.w_pumps (j_power J))) by (unfold Power.n_pump; now rewrite EPu).
  assert (LA' : q_down K = [] \/ S n < List.length (Hydro.y_out Y)).
  { destruct LA as [LA|LA]; [left|now right]. destruct (water_model cf pow53 root pow23 J K E Y I EJ EK WS) as (E' & rs' & ramp' & _ & _ & _ & TD & P' & _ & T2 & _). assert (rs' = rs) by congruence. subst rs'. destruct (plants_above_spec E' Y rs TD _ _ _ T2) as (B & C). destruct (q_down K) as [|g l] eqn:Q; [reflexivity|exfalso]. specialize (B g (or_introl eq_refl)).
    destruct (nth_error (Hydro.e_units E) g) as [u|] eqn:Nu; [|apply nth_error_None in Nu; lia]. rewrite Forall_forall in LA, FU. pose proof (nth_error_In _ _ Nu) as Iu. apply (C g u B Nu (FU u Iu)) in LA; auto. now left. }
  destruct (output_water cf pow53 root pow23 J K E Y inputs v s I EJ EK WS AN NH h n node t rs ramp Lh ltac:(now rewrite ET) No P NR LA') as (x & y & Lx & Ly & X).
  - intros g u _ Nu. rewrite Forall_forall in FU. apply FU. eapply nth_error_In; eauto.
  - intros p z _ Nz. rewrite Forall_forall in FP. apply FP. eapply nth_error_In; eauto.
  - rewrite HN in Lx. rewrite PN in Ly. assert (ONE : forall l m i j, i < m -> nth_error l i = Some node -> (forall y, i < y < m -> nth_error l y <> Some node) -> j < m -> nth_error l j = Some node -> (forall y, j < y < m -> nth_error l y <> Some node) -> i = j).
    { intros l m i j Li Ni Hi Lj Nj Hj. destruct (Nat.lt_trichotomy i j) as [L|[L|L]]; auto; exfalso; [apply (Hi j)|apply (Hj i)]; auto. }
    assert (A : (a == match fst x with O => 0 | S _ => plant_power K s h (snd x) t / plant_factor E (snd x) end)%Q).
    { destruct TA as [(g & Lg & Ng & Hg & ->)|[Ha ->]]; destruct Lx as [(i & Li & Ni & Hi & ->)|[Hi ->]]; cbn [fst snd].
      - assert (g = i) by (eapply ONE; eauto). subst i. unfold plant_factor. rewrite nth_error_map in Ng. destruct (nth_error (Hydro.e_units E) g) as [u|] eqn:Nu; [|discriminate]. rewrite (nth_error_nth _ _ _ (map_nth_error Hydro.u_head _ _ Nu)), (nth_error_nth _ _ _ (map_nth_error Hydro.u_eff _ _ Nu)). reflexivity.
      - exfalso. exact (Hi g Lg Ng).
      - exfalso. exact (Ha i Li Ni).
      - reflexivity. }
    assert (B : (b == match fst y with O => 0 | S _ => pump_power K s h (snd y) t / pump_factor J (snd y) end)%Q).
    { destruct TB as [(g & Lg & Ng & Hg & ->)|[Ha ->]]; destruct Ly as [(i & Li & Ni & Hi & ->)|[Hi ->]]; cbn [fst snd].
      - assert (g = i) by (eapply ONE; eauto). subst i. unfold pump_factor. destruct (nth_error (j_lifts J) g) as [u|] eqn:Nu; [|apply nth_error_None in Nu; lia]. rewrite (nth_error_nth _ _ _ (map_nth_error fst _ _ Nu)), (nth_error_nth _ _ _ (map_nth_error snd _ _ Nu)). reflexivity.
      - exfalso. exact (Hi g Lg Ng).
      - exfalso. exact (Ha i Li Ni).
      - reflexivity. }
    rewrite A, B. exact X.
Qed.
Print Assumptions C195_output_partial.
(** A plant above a river takes the limit of the last output away. *)
Theorem C195_last_refuted : exists J K E Y inputs v s, start J = Ok K /\ j_water J = Some E /\ q_water K = Some Y /\ HydroSpec.well_set E /\ answer J K inputs v s /\ map Hydro.u_node (Hydro.e_units E) = [1; 1; 2] /\ Hydro.y_out Y = [2] /\
  Forall (fun u => (per_flow (Hydro.u_head u) (Hydro.u_eff u) == 1)%Q) (Hydro.e_units E) /\ (plant_power K s 0 2 0 == 5)%Q /\ (HydroSpec.water_out Y (fun x => s (JWater x)) 0 0 0 == 2)%Q.
Proof. exists cascade, (model_of cascade), (rivers_of cascade), (water_of_model cascade), [[0]; [2]]%Q, (states_of [[(0, 0); (0, 0)]]%Q), cascade_answer. destruct cascade_checked as (A & B). split; [exact A|]. split; [reflexivity|]. split; [vm_compute; reflexivity|]. split; [exact cascade_set|]. split; [exact B|]. sp; try reflexivity; try (vm_compute; reflexivity). repeat constructor; reflexivity. Qed.
Print Assumptions C195_last_refuted.
(** And with more plants at the ends of rivers than ends there is no model. *)
Theorem C195_crowded_refuted : exists J E, j_water J = Some E /\ HydroSpec.well_set E /\ Hydro.e_out E = [2] /\ map Hydro.u_node (Hydro.e_units E) = [2; 2] /\ start J = Err IndexError.
Proof. exists crowded, (rivers_of crowded). split; [reflexivity|]. split; [exact crowded_set|]. split; [reflexivity|]. split; [reflexivity|]. vm_compute. reflexivity. Qed.
Print Assumptions C195_crowded_refuted.

Example C195_witness : watered delta [[0]; [8]]%Q [[(0, 0); (0, 0)]]%Q delta_answer /\ Hydro.y_out (water_of_model delta) = [2; 3] /\ map Hydro.u_node (Hydro.e_units (rivers_of delta)) = [1; 2] /\ Hydro.e_pump_from (rivers_of delta) = [2] /\
  (plant_power (model_of delta) delta_answer 0 1 0 == 1)%Q /\ (pump_power (model_of delta) delta_answer 0 0 0 == 1)%Q /\ (HydroSpec.water_out (water_of_model delta) (fun x => delta_answer (JWater x)) 0 0 0 == 2)%Q.
Proof. split; [exact delta_watered|]. sp; vm_compute; reflexivity. Qed.

(* ------------------------------------------------------------------ *)
(** ** C196 *)

(** When all steps of time have the same weight, as much water leaves as enters. *)
Theorem C196_water_partial : forall cf pow53 root pow23 J K E Y inputs v s h, initialise cf pow53 root pow23 J = Ok K -> j_water J = Some E -> q_water K = Some Y -> HydroSpec.well_set E -> answer J K inputs v s -> h < q_number K ->
  ~ (Hydro.e_seconds E == 0)%Q -> ~ (Hydro.e_m E == 0)%Q -> (0 < step_weight K 0)%Q -> (forall t, t < Power.w_time (j_power J) -> (step_weight K t == step_weight K 0)%Q) ->
  (over_time K (fun t => HydroSpec.below (List.length (Hydro.y_in Y)) (HydroSpec.water_in Y (fun x => s (JWater x)) h t)) ==
   over_time K (fun t => HydroSpec.below (List.length (Hydro.y_out Y)) (HydroSpec.water_out Y (fun x => s (JWater x)) h t)))%Q.
Proof.
  intros cf pow53 root pow23 J K E Y inputs v s h I EJ EK WS AN Lh N1 N2 W0 WE. destruct (network_power cf pow53 root pow23 J K I) as (_ & _ & ET). rewrite <- ET in WE. unfold over_time.
  assert (X : forall f, (sumf (fun t => step_weight K t * f t) (Power.w_time (q_power K)) == step_weight K 0 * HydroSpec.below (Power.w_time (q_power K)) f)%Q). { intros f. transitivity (sumf (fun t => step_weight K 0 * f t)%Q (Power.w_time (q_power K))); [apply sumf_ext; intros t Lt; now rewrite WE|]. apply sumf_scale. }
  rewrite !X. apply Qmult_comp; [reflexivity|]. apply (water_cycle cf pow53 root pow23 J K E Y inputs v s); auto. intros Z. rewrite Z in W0. discriminate.
Qed.
Print Assumptions C196_water_partial.
(** And one plant at the only output of rivers with one input does not generate more than is supplied. *)
Theorem C196_energy_partial : forall cf pow53 root pow23 J K E Y inputs v s u a b rs ramp, j_data J <> [] -> Forall level_named (j_data J) -> Forall (fun l => Forall (fun w => (0 <= w)%Q) (lv_weights l)) (j_data J) -> uncertain_nodes (j_data J) <> 1 ->
  initialise cf pow53 root pow23 J = Ok K -> j_water J = Some E -> q_water K = Some Y -> HydroSpec.well_set E -> answer J K inputs v s ->
  List.length (Power.w_plants (j_power J)) = 1 -> Power.w_pumps (j_power J) = [] -> j_lifts J = [] -> Hydro.e_pump_to E = [] -> Hydro.e_pump_from E = [] -> Hydro.e_in E = [a] -> Hydro.y_in Y = [a] -> Hydro.y_out Y = [b] -> Hydro.e_units E = [u] -> Hydro.u_node u = b -> (0 < Hydro.u_head u)%Q -> (0 < Hydro.u_eff u)%Q ->
  Hydro.build_parts (Hydro.e_parts E) (Hydro.e_ramps E) (Hydro.e_rivers E) = Ok (rs, Hydro.y_nodes Y, ramp) -> 1 <= b <= Hydro.y_nodes Y -> HydroSpec.rivers_at Hydro.ri_from rs b = [] ->
  ~ (Hydro.e_seconds E == 0)%Q -> ~ (Hydro.e_m E == 0)%Q -> (0 < step_weight K 0)%Q -> (forall t, t < Power.w_time (j_power J) -> (step_weight K t == step_weight K 0)%Q) ->
  (sumf (fun h => chance (j_data J) (List.length (j_data J)) h * over_time K (plant_power K s h 0))%Q (q_number K) <= supply (j_data J) inputs 0)%Q.
Proof.
  intros cf pow53 root pow23 J K E Y inputs v s u a b rs ramp NE F FW U I EJ EK WS AN L1 NPu NL PT PF EI YI YO EU UN UH UE P Nb NR N1 N2 W0 WE. destruct (network_power cf pow53 root pow23 J K I) as (EP & _ & ET).
  assert (NPl : Power.w_plants (j_power J) <> []) by (intros Z; rewrite Z in L1; discriminate).
  destruct (C190_input_partial cf pow53 root pow23 J K E Y inputs v s 0 u NE F FW U I EJ EK WS AN NPl) as (A & B); [rewrite EI; cbn; lia|now rewrite EU|intros node p _; rewrite PT; destruct p; discriminate|]. eapply Qle_trans; [|exact B]. apply sumf_le. intros h Lh. rewrite !(Qmult_comm (chance _ _ h)). apply Qmult_le_compat_r; [|now apply chance_nonneg].
  pose proof (C196_water_partial cf pow53 root pow23 J K E Y inputs v s h I EJ EK WS AN Lh N1 N2 W0 WE) as C. rewrite YI, YO in C. cbn [List.length] in C. assert (Z : forall f g, (forall t, f t == g t)%Q -> (over_time K f == over_time K g)%Q) by (intros f g H; apply sumf_ext; intros t _; now rewrite H).
  assert (FP : (0 < per_flow (Hydro.u_head u) (Hydro.u_eff u))%Q). { unfold per_flow, Qdiv. repeat apply Qmult_lt_0_compat; auto; reflexivity. }
  assert (C' : (over_time K (fun t => HydroSpec.water_in Y (fun x => s (JWater x)) h t 0) == over_time K (fun t => HydroSpec.water_out Y (fun x => s (JWater x)) h t 0))%Q) by (etransitivity; [|etransitivity; [exact C|]]; apply Z; intros t; cbn; ring). rewrite C'.
  assert (LE : forall f g, (forall t, t < Power.w_time (q_power K) -> (f t <= g t)%Q) -> (over_time K f <= over_time K g)%Q). { intros f g H. apply sumf_le. intros t Lt. rewrite !(Qmult_comm (step_weight K t)). apply Qmult_le_compat_r; [now apply H|]. rewrite WE by (rewrite <- ET; exact Lt). now apply Qlt_le_weak. }
  unfold over_time. rewrite <- (sumf_scale (per_flow _ _)). apply sumf_le. intros t Lt.
  assert (X : (plant_power K s h 0 t / per_flow (Hydro.u_head u) (Hydro.u_eff u) + 0 <= HydroSpec.water_out Y (fun x => s (JWater x)) h t 0)%Q).
  { apply (C195_output_partial cf pow53 root pow23 J K E Y inputs v s h t 0 b rs ramp _ _ I EJ EK WS AN NPl Lh ltac:(now rewrite <- ET) ltac:(now rewrite YO) P NR).
    - now rewrite EU, L1.
    - rewrite EU. constructor; [now rewrite UN|constructor].
    - rewrite PF. constructor.
    - left. rewrite EU. constructor; [now rewrite UN|constructor].
    - left. exists 0. rewrite EU, L1. cbn [map nth nth_error]. rewrite UN. sp; [lia|reflexivity|intros y Hy; lia|reflexivity].
    - right. rewrite NPu. cbn [List.length]. split; [intros y Hy; lia|reflexivity].
    - now rewrite NL, NPu. }
  assert (SW : (0 < step_weight K t)%Q) by (rewrite WE by (rewrite <- ET; exact Lt); exact W0). rewrite Qplus_0_r in X. rewrite Qmult_comm, (Qmult_comm _ (step_weight K t * _)), <- Qmult_assoc, (Qmult_comm (step_weight K t)). apply Qmult_le_compat_r; [|now apply Qlt_le_weak].
  apply (Qmult_le_r _ _ (/ per_flow (Hydro.u_head u) (Hydro.u_eff u))); [now apply Qinv_lt_0_compat|]. rewrite <- Qmult_assoc, Qmult_inv_r, Qmult_1_r; [exact X|]. intros Z0. rewrite Z0 in FP. discriminate.
Qed.
Print Assumptions C196_energy_partial.
(** With steps of different weight, water that enters in a light step leaves in a heavy one. *)
Theorem C196_steps_refuted : exists J K E Y inputs v s, start J = Ok K /\ j_water J = Some E /\ q_water K = Some Y /\ HydroSpec.well_set E /\ answer J K inputs v s /\ q_number K = 1 /\ Hydro.y_in Y = [1] /\ Hydro.y_out Y = [2] /\ Hydro.e_units E = [unit_at 2 1] /\ Power.m_weights (q_model K) = [1; 3]%Q /\
  (over_time K (fun t => HydroSpec.water_in Y (fun x => s (JWater x)) 0 t 0) < over_time K (fun t => HydroSpec.water_out Y (fun x => s (JWater x)) 0 t 0))%Q /\ (supply (j_data J) inputs 0 + 2 == over_time K (plant_power K s 0 0))%Q.
Proof. exists uneven, (model_of uneven), (rivers_of uneven), (water_of_model uneven), [[0]; [1516 # 153]]%Q, (states_of [[(0, 0); (0, 0)]]%Q), uneven_answer. destruct uneven_checked as (A & B). split; [exact A|]. split; [reflexivity|]. split; [vm_compute; reflexivity|]. split; [exact uneven_set|]. split; [exact B|]. sp; vm_compute; reflexivity. Qed.
Print Assumptions C196_steps_refuted.

Example C196_witness : watered stream [[0]; [4]]%Q [[(0, 0); (0, 0)]]%Q stream_answer /\ uncertain_nodes (j_data stream) = 0 /\ Hydro.y_in (water_of_model stream) = [1] /\ Hydro.y_out (water_of_model stream) = [2] /\ Hydro.e_units (rivers_of stream) = [unit_at 2 1] /\
  (exists rs ramp, Hydro.build_parts (Hydro.e_parts (rivers_of stream)) (Hydro.e_ramps (rivers_of stream)) (Hydro.e_rivers (rivers_of stream)) = Ok (rs, Hydro.y_nodes (water_of_model stream), ramp) /\ HydroSpec.rivers_at Hydro.ri_from rs 2 = []) /\
  (supply (j_data stream) [[0]; [4]] 0 == 4)%Q /\ (over_time (model_of stream) (plant_power (model_of stream) stream_answer 0 0) == 2)%Q /\ Power.m_weights (q_model (model_of stream)) = [1; 1]%Q.
Proof. destruct stream_checked as (A & B). split; [split; [exact A|]; split; [reflexivity|]; split; [vm_compute; reflexivity|]; split; [exact stream_set|exact B]|]. split; [reflexivity|]. split; [vm_compute; reflexivity|]. split; [vm_compute; reflexivity|]. split; [reflexivity|]. split; [eexists; eexists; split; vm_compute; reflexivity|]. sp; vm_compute; reflexivity. Qed.

(* ------------------------------------------------------------------ *)
(** ** C197 *)

(** In every scenario a river holds as much water at the end as at the beginning. *)
Theorem C197_rivers : forall cf pow53 root pow23 J K E Y inputs v s h r, initialise cf pow53 root pow23 J = Ok K -> j_water J = Some E -> q_water K = Some Y -> HydroSpec.well_set E -> answer J K inputs v s -> h < q_number K -> r < Hydro.y_rivers Y ->
  (HydroSpec.content Y (fun x => s (JWater x)) h 0 r == HydroSpec.content Y (fun x => s (JWater x)) h (Power.w_time (j_power J)) r)%Q.
Proof.
  intros cf pow53 root pow23 J K E Y inputs v s h r I EJ EK WS AN Lh Lr. destruct (network_power cf pow53 root pow23 J K I) as (_ & _ & ET). rewrite <- ET. exact (river_cycle cf pow53 root pow23 J K E Y inputs v s I EJ EK WS AN h r Lh Lr).
Qed.
Print Assumptions C197_rivers.

Example C197_witness : watered uneven [[0]; [1516 # 153]]%Q [[(0, 0); (0, 0)]]%Q uneven_answer /\ Hydro.y_rivers (water_of_model uneven) = 1 /\ Power.w_time (j_power uneven) = 2 /\
  (HydroSpec.content (water_of_model uneven) (fun x => uneven_answer (JWater x)) 0 0 0 == 4725 # 34)%Q /\ (HydroSpec.content (water_of_model uneven) (fun x => uneven_answer (JWater x)) 0 1 0 == 5065 # 34)%Q.
Proof. destruct uneven_checked as (A & B). split; [split; [exact A|]; split; [reflexivity|]; split; [vm_compute; reflexivity|]; split; [exact uneven_set|exact B]|]. sp; vm_compute; reflexivity. Qed.
