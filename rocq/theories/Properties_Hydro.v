(** Properties C144-C161: rivers and reservoirs. *)
From Coq Require Import List Bool Arith ZArith QArith Qabs Qround Lia Lqa.
From Verif Require Import Base GraphData GraphDataProofs Cases CasesProofs Network InputOutput InputOutputProofs ConverterOpen.
From Verif Require Import Hydro HydroSpec HydroNet HydroParts HydroTables HydroModel HydroFlow HydroLimits HydroBuilt HydroExamples.
Import ListNotations.
Open Scope nat_scope.
Open Scope list_scope.

Local Ltac sp := cbv zeta; repeat match goal with |- _ /\ _ => split end.

(* ------------------------------------------------------------------ *)
(** ** C144 *)

(** The two lists of a node hold the rivers that leave it and those that arrive, each once and in order. *)
Theorem C144_rivers_of_node : forall rs nodes, rs <> [] -> nodes_ok nodes rs -> no_parallel rs -> exists a, build_network rs nodes = Ok a /\ forall n, n < nodes ->
  exists o i, nth_error (a_out a) n = Some o /\ nth_error (a_in a) n = Some i /\
  mapM (nth_river (a_list a) o) (seq 0 (fst o)) = Ok (rivers_at ri_from rs (S n)) /\ mapM (nth_river (a_list a) i) (seq 0 (fst i)) = Ok (rivers_at ri_to rs (S n)).
Proof.
  intros rs nodes NE NO NP. destruct (build_network_ok rs nodes NE NO) as (B & _). destruct (B (proj2 (edges_parallel rs) NP)) as (a & E & H). exists a. split; auto. intros n Ln. destruct (H n Ln) as (o & i & H1 & H2 & _ & _ & H3 & H4). exists o, i. auto.
Qed.
Print Assumptions C144_rivers_of_node.

Example C144_witness : let rs := [bed 1 2 1 1; bed 3 2 1 1; bed 2 4 1 1; bed 2 5 1 1; bed 4 1 1 1] in
  nodes_ok 5 rs /\ no_parallel rs /\ rivers_at ri_from rs 2 = [2; 3] /\ rivers_at ri_to rs 2 = [0; 1] /\
  match build_network rs 5 with Ok a => nth_error (a_out a) 1 = Some (2, 1) /\ nth_error (a_in a) 1 = Some (2, 6) /\ a_list a = [0; 2; 3; 1; 4; 4; 0; 1; 2; 3] | Err _ => False end.
Proof. cbv zeta. sp; try (vm_compute; auto; fail); [repeat constructor|]. apply ends_nodup. vm_compute. repeat constructor; cbn; intuition discriminate. Qed.

(* ------------------------------------------------------------------ *)
(** ** C145 *)

(** Two rivers between the same two nodes, also in opposite directions, stop the model. *)
Theorem C145_parallel_partial : forall rs nodes, rs <> [] -> nodes_ok nodes rs -> (exists a, build_network rs nodes = Ok a) /\ no_parallel rs \/ build_network rs nodes = Err IndexError /\ ~ no_parallel rs.
Proof.
  intros rs nodes NE NO. destruct (build_network_ok rs nodes NE NO) as (B1 & B2). destruct (Nat.le_gt_cases (List.length rs) (graph_edges rs)) as [L|L].
  - left. destruct (B1 L) as (a & E & _). split; [eauto|]. now apply edges_parallel.
  - right. split; auto. intros NP. apply edges_parallel in NP. lia.
Qed.
Print Assumptions C145_parallel_partial.
Theorem C145_parallel_refuted : exists rs nodes, rs <> [] /\ nodes_ok nodes rs /\ Forall (fun r => ri_from r <> ri_to r) rs /\ build_network rs nodes = Err IndexError.
Proof. exists [bed 1 2 1 1; bed 2 3 1 1; bed 2 3 1 5], 3. sp; [discriminate|repeat constructor|repeat constructor; discriminate|reflexivity]. Qed.
Print Assumptions C145_parallel_refuted.

Example C145_witness : let rs := [bed 1 2 1 1; bed 2 3 1 1; bed 2 1 1 1] in rs <> [] /\ nodes_ok 3 rs /\ ~ no_parallel rs /\ build_network rs 3 = Err IndexError.
Proof.
  cbv zeta. sp; [discriminate|repeat constructor| |reflexivity]. intros NP. destruct (NP 0 2 (bed 1 2 1 1) (bed 2 1 1 1) eq_refl eq_refl ltac:(discriminate)) as (_ & H). apply H. auto.
Qed.

(* ------------------------------------------------------------------ *)
(** ** C146 *)

(** Every river becomes the number of pieces set for it; the pieces lead from its source to its mouth, and the nodes
    between them are new, one number after the other. *)
Theorem C146_divided : forall E, well_set E -> exists parts pieces n, parts_set (e_parts E) (List.length (e_rivers E)) parts /\
  build_parts (e_parts E) (e_ramps E) (e_rivers E) = Ok (List.concat pieces, n, repeat 1 (list_sum parts)) /\ List.length parts = List.length (e_rivers E) /\
  Forall2 (fun rk ps => pieces_of (fst rk) (snd rk) ps) (combine (e_rivers E) parts) pieces /\
  List.concat (map inner pieces) = seq (S (max_end (e_rivers E))) (n - max_end (e_rivers E)) /\ n = max_end (e_rivers E) + list_sum parts - List.length (e_rivers E).
Proof.
  intros E W. destruct (set_divided E W) as (parts & pieces & PS & BP & (F & LP & _ & _ & CI) & _). exists parts, pieces, (all_nodes_count E parts). sp; auto. now rewrite list_sum_nsum.
Qed.
Print Assumptions C146_divided.
(** The nodes of the pieces are the nodes of the model, and dividing joins no two nodes twice. *)
Theorem C146_network : forall E rs n ramp, well_set E -> build_parts (e_parts E) (e_ramps E) (e_rivers E) = Ok (rs, n, ramp) -> nodes_ok n rs /\
  (no_parallel (e_rivers E) -> Forall (fun r => ri_from r <> ri_to r) (e_rivers E) -> no_parallel rs).
Proof.
  intros E rs n ramp W B. destruct (set_divided E W) as (parts & pieces & PS & BP & D & NO & LN & NE). rewrite BP in B. injection B as <- <- <-. split; auto. intros NP FS. apply (divided_parallel _ _ _ _ _ D); auto.
  destruct W as (? & _ & _ & W). cbv zeta in W. destruct W as (NE0 & _). destruct (last_node_ok _ NE0) as (m & Em & _ & FM). rewrite max_end_last in Em by auto. injection Em as <-. rewrite Forall_forall in *. intros r I. specialize (FM r I). specialize (FS r I). cbn beta in *. tauto.
Qed.
Print Assumptions C146_network.

Lemma fork_set : well_set fork.
Proof.
  exists [2; 1; 1]. split; [right; right; cbn; auto|]. split; [repeat constructor|]. cbv zeta. change (all_nodes_count fork [2; 1; 1]) with 5. cbn [fork e_rivers e_ramps e_in e_out e_pump_from e_pump_to e_storage e_units e_time]. change (with_storage _ _) with [(mkUnit 2 1 10, 5%Q)]. sp; try discriminate; try (repeat constructor; cbn; try lia; intuition discriminate).
Qed.
Example C146_witness : well_set fork /\ no_parallel (e_rivers fork) /\ Forall (fun r => ri_from r <> ri_to r) (e_rivers fork) /\
  exists rs, build_parts (e_parts fork) (e_ramps fork) (e_rivers fork) = Ok (rs, 5, [1; 1; 1; 1]) /\ map (fun r => (ri_from r, ri_to r)) rs = [(1, 5); (5, 2); (2, 3); (2, 4)] /\ map (fun r => Qred (ri_length r)) rs = [50; 50; 100; 100]%Q.
Proof.
  split; [exact fork_set|]. split; [apply ends_nodup; vm_compute; repeat constructor; cbn; intuition discriminate|]. split; [repeat constructor; discriminate|]. eexists. split; [vm_compute; reflexivity|]. split; reflexivity.
Qed.

(* ------------------------------------------------------------------ *)
(** ** C147 *)

(** The ramps given never change the model. *)
Definition with_ramps (E : settings) (ramps : list Q) : settings :=
  mkSettings (e_rivers E) (e_parts E) ramps (e_in E) (e_out E) (e_pump_from E) (e_pump_to E) (e_units E) (e_storage E) (e_links_from E) (e_links_to E) (e_scen E) (e_time E) (e_feas E)
    (e_seconds E) (e_m E) (e_penalty E) (e_fixed E) (e_incn E) (e_incs E) (e_series1 E) (e_series E).
Theorem C147_ramps_ignored : forall pow53 root pow23 E ramps Y Y', initialise pow53 root pow23 E = Ok Y -> initialise pow53 root pow23 (with_ramps E ramps) = Ok Y' -> Y' = Y.
Proof.
  intros pow53 root pow23 E ramps Y Y' H H'. assert (X : forall given r1 r2 rs o o', build_parts given r1 rs = Ok o -> build_parts given r2 rs = Ok o' -> o' = o).
  { clear. intros given r1 r2 rs o o'. unfold build_parts. destruct (last_node rs); [|discriminate]. cbn [rbind]. cbv zeta. intros H1 H2. apply bind_inv in H1 as (x1 & E1 & H1). apply bind_inv in H2 as (x2 & E2 & H2). apply ramp_ones in E1, E2. subst. rewrite H1 in H2. now injection H2. }
  unfold initialise in H, H'. apply bind_inv in H as (o & Eo & H). apply bind_inv in H' as (o' & Eo' & H'). rewrite (X _ _ _ _ _ _ Eo Eo') in H'. cbn [with_ramps e_rivers e_parts e_in e_out e_pump_from e_pump_to e_units e_storage e_links_from e_links_to e_scen e_time e_feas e_seconds e_m e_penalty e_fixed e_incn e_incs e_series1 e_series] in H'. rewrite H in H'. now injection H'.
Qed.
Print Assumptions C147_ramps_ignored.
(** The flow of a river may change by more than the ramp given for it allows. *)
Theorem C147_ramps_refuted : exists E Y s r x q, initialise p53 rt p23 E = Ok Y /\ answer Y s /\ nth_error (e_rivers E) r = Some x /\ nth_error (e_ramps E) r = Some q /\ e_parts E = [] /\
  (s HPenalty == 0)%Q /\ (q * (q_max p53 rt x - q_min p53 rt x) < up Y s 0 1 r - up Y s 0 0 r)%Q.
Proof.
  set (E := one_river true 2 1 [1 # 2]%Q [1] [] [] [] [] []). set (Y := model_of E).
  set (a := (leaving_pair rt p23 10 (bed 1 2 1 1))). set (c0 := 100%Q). set (q := fun t => nth t [1; 32]%Q 0%Q). set (d := fun t => nth t [1; fst a * 32 + (1 - fst a) * 1]%Q 0%Q). set (c := fun t => nth t [c0; c0; c0 + 10 * (32 - (fst a * 32 + (1 - fst a) * 1))]%Q 0%Q).
  exists E, Y, (river_answer q d c (fun _ t => q t) (fun _ _ => 0%Q) 0 0), 0, (bed 1 2 1 1), (1 # 2)%Q. sp; [vm_compute; reflexivity| |reflexivity|reflexivity|reflexivity|reflexivity|vm_compute; reflexivity].
  apply check_answer; [|vm_compute; reflexivity]. intros [i t|i t|r t|r t|r t|i t|i t|]; (destruct t as [|[|[|t]]]; vm_compute; try discriminate; destruct t; discriminate) || (vm_compute; discriminate).
Qed.
Print Assumptions C147_ramps_refuted.
Theorem C147_one_value_refuted : exists ramp rs, List.length ramp = 1 /\ rs <> [] /\ nodes_ok 3 rs /\ no_parallel rs /\ build_parts [] ramp rs = Err ValueError.
Proof. exists [1 # 2]%Q, [bed 1 2 1 1; bed 2 3 1 1]. sp; [reflexivity|discriminate|repeat constructor| |reflexivity]. apply ends_nodup. vm_compute. repeat constructor; cbn; intuition discriminate. Qed.
Print Assumptions C147_one_value_refuted.

Example C147_witness : build_parts [2; 1] [1 # 2; 1 # 3]%Q [bed 1 2 1 1; bed 2 3 1 1] = Ok ([bucket (bed 1 2 1 1) 1 4 1 (100 / 2); bucket (bed 1 2 1 1) 4 2 1 (100 / 2); bucket (bed 2 3 1 1) 2 3 1 (100 / 1)]%Q, 4, [1; 1; 1]).
Proof. vm_compute. reflexivity. Qed.

(* ------------------------------------------------------------------ *)
(** ** C148 *)

(** The input nodes of the model are the given ones and after them, each once, the nodes that pumps deliver to; the
    output nodes those given and the nodes that pumps draw from. *)
Theorem C148_pump_nodes : forall pow53 root pow23 E Y, well_set E -> initialise pow53 root pow23 E = Ok Y -> e_pump_from E <> [] -> extends (e_in E) (e_pump_to E) (y_in Y) /\ extends (e_out E) (e_pump_from E) (y_out Y).
Proof.
  intros pow53 root pow23 E Y W H NP. destruct (initialise_made _ _ _ E Y H) as (rs & n & ramp & M). pose proof (md_io _ _ _ _ _ _ _ _ M) as IO. destruct (made_tidy _ _ _ _ _ _ _ _ W M) as (_ & parts & pieces & PS & _ & D & _ & LN & _).
  destruct W as (parts2 & PS2 & FP & W). rewrite (parts_set_unique _ _ _ _ PS2 PS) in *. cbv zeta in W. destruct W as (NE0 & FB & NR & NDi & Fi & NDo & Fo & FPu & _).
  assert (EN : all_nodes_count E parts = y_nodes Y). { destruct D as (_ & LP & FP2 & LL & _). pose proof (nsum_ge _ FP2). unfold all_nodes_count. rewrite list_sum_nsum. lia. } rewrite EN in *.
  unfold water_nodes in IO. destruct (e_pump_from E) as [|p ps] eqn:EP; [contradiction|]. rewrite LN, bind_ok in IO. apply Forall_app in FPu as (F1 & F2). destruct (add_pump_ok _ (e_out E) (p :: ps) NDo Fo F1) as (o & Eo & Xo & _). destruct (add_pump_ok _ (e_in E) (e_pump_to E) NDi Fi F2) as (i & Ei & Xi & _).
  rewrite Eo, bind_ok, Ei, bind_ok in IO. injection IO as <- <-. auto.
Qed.
Print Assumptions C148_pump_nodes.

Example C148_witness : well_set fork /\ e_pump_from fork = [2; 4] /\ e_out fork = [3; 4] /\ initialise p53 rt p23 fork = Ok (model_of fork) /\ y_out (model_of fork) = [3; 4; 2] /\ y_in (model_of fork) = [1].
Proof. split; [exact fork_set|]. sp; vm_compute; reflexivity. Qed.

(* ------------------------------------------------------------------ *)
(** ** C149 *)

(** At every node, time and scenario: the water put in and arriving is the water leaving, taken out and added to the
    storage there. *)
Theorem C149_balance : forall pow53 root pow23 E Y s rs nodes ramp n t h, well_set E -> initialise pow53 root pow23 E = Ok Y -> answer Y s -> build_parts (e_parts E) (e_ramps E) (e_rivers E) = Ok (rs, nodes, ramp) ->
  n < nodes -> t < e_time E -> h < e_scen E ->
  (at_node (y_in Y) (S n) (water_in Y s h t) + at_node (map ri_to rs) (S n) (down Y s h t) ==
   at_node (map ri_from rs) (S n) (up Y s h t) + at_node (y_out Y) (S n) (water_out Y s h t) + (at_node (storage_nodes E) (S n) (stored Y s h t) - at_node (storage_nodes E) (S n) (stored Y s h (before (e_time E) t))))%Q.
Proof.
  intros pow53 root pow23 E Y s rs nodes ramp n t h W H AN BP Ln Lt Lh. destruct (initialise_made _ _ _ E Y H) as (rs2 & n2 & ramp2 & M). pose proof (md_parts _ _ _ _ _ _ _ _ M) as BP2. rewrite BP in BP2. injection BP2 as <- <- <-. destruct (made_tidy _ _ _ _ _ _ _ _ W M) as (TD & _).
  pose proof (md_nodes _ _ _ _ _ _ _ _ M) as MN. pose proof (md_time _ _ _ _ _ _ _ _ M) as MT. pose proof (md_scen _ _ _ _ _ _ _ _ M) as MS. pose proof (node_balance_eq E Y rs s n t h TD (answer_rules Y s AN) MT ltac:(lia) ltac:(lia) ltac:(lia)) as B. rewrite B. ring.
Qed.
Print Assumptions C149_balance.
(** With a node listed twice as an input, water of the first entry is lost. *)
Theorem C149_listed_twice_refuted : exists E Y s rs nodes ramp, initialise p53 rt p23 E = Ok Y /\ answer Y s /\ build_parts (e_parts E) (e_ramps E) (e_rivers E) = Ok (rs, nodes, ramp) /\ e_in E = [1; 1] /\ storage_nodes E = [] /\ e_feas E = true /\ (s HPenalty == 0)%Q /\
  (at_node (map ri_from rs) 1 (up Y s 0 0) + at_node (y_out Y) 1 (water_out Y s 0 0) < at_node (y_in Y) 1 (water_in Y s 0 0) + at_node (map ri_to rs) 1 (down Y s 0 0))%Q.
Proof.
  set (E := one_river true 1 1 [] [1; 1] [] [] [] [] []). set (Y := model_of E). set (q := fun _ : nat => 1%Q).
  exists E, Y, (river_answer q q (fun _ => 100%Q) (fun i _ => if i =? 0 then 7 else 1)%Q (fun _ _ => 0%Q) 0 0). eexists. eexists. eexists. sp; [vm_compute; reflexivity| |vm_compute; reflexivity|reflexivity|reflexivity|reflexivity|reflexivity|vm_compute; reflexivity].
  apply check_answer; [|vm_compute; reflexivity]. intros [[|i] t|i t|r t|r t|r t|i t|i t|]; cbn; discriminate.
Qed.
Print Assumptions C149_listed_twice_refuted.

Example C149_witness : well_set fork /\ initialise p53 rt p23 fork = Ok (model_of fork) /\ answer (model_of fork) fork_answer /\ e_time fork = 3 /\ e_scen fork = 2 /\ storage_nodes fork = [2] /\
  let Y := model_of fork in (at_node [5; 2; 3; 4]%nat 2%nat (down Y fork_answer 1%nat 1%nat) == 8)%Q /\ (at_node [1; 5; 2; 2]%nat 2%nat (up Y fork_answer 1%nat 1%nat) == 8)%Q.
Proof. split; [exact fork_set|]. destruct fork_checked as (A & B). sp; auto; vm_compute; reflexivity. Qed.

(* ------------------------------------------------------------------ *)
(** ** C150 *)

(** Over the whole time, the water put in and the water in the rivers at first is the water taken out and the water in
    the rivers at last: none is made, none is lost, and storage gives back what it takes. *)
Theorem C150_conserved : forall pow53 root pow23 E Y s h, well_set E -> initialise pow53 root pow23 E = Ok Y -> answer Y s -> h < e_scen E ->
  let dt := (e_seconds E / e_m E)%Q in
  (dt * below (e_time E) (fun t => below (List.length (y_in Y)) (water_in Y s h t)) + below (y_rivers Y) (content Y s h 0) ==
   dt * below (e_time E) (fun t => below (List.length (y_out Y)) (water_out Y s h t)) + below (y_rivers Y) (content Y s h (e_time E)))%Q.
Proof.
  intros pow53 root pow23 E Y s h W H AN Lh. cbv zeta. destruct (initialise_made _ _ _ E Y H) as (rs & n & ramp & M). destruct (made_tidy _ _ _ _ _ _ _ _ W M) as (TD & _). pose proof (md_time _ _ _ _ _ _ _ _ M) as MT. pose proof (md_scen _ _ _ _ _ _ _ _ M) as MS. pose proof (md_rivers _ _ _ _ _ _ _ _ M) as MR.
  pose proof (system_steps E Y rs s h TD (answer_rules Y s AN) MR MT ltac:(lia) (e_time E) ltac:(lia)) as ST. rewrite (md_dt _ _ _ _ _ _ _ _ M) in ST. assert (TP : 1 <= e_time E) by (destruct W as (? & _ & _ & W); cbv zeta in W; tauto).
  destruct (Nat.eqb_spec (e_time E) 0); [lia|]. change (before (e_time E) 0) with (e_time E - 1) in ST. lra.
Qed.
Print Assumptions C150_conserved.
(** When the end of a scenario is linked to its beginning, as much water leaves as enters. *)
Theorem C150_cycle : forall pow53 root pow23 E Y s h i, well_set E -> initialise pow53 root pow23 E = Ok Y -> answer Y s -> h < e_scen E -> ~ (e_seconds E / e_m E == 0)%Q ->
  nth_error (e_links_from E) i = Some (h, 0) -> nth_error (e_links_to E) i = Some (h, 1) ->
  (below (e_time E) (fun t => below (List.length (y_in Y)) (water_in Y s h t)) == below (e_time E) (fun t => below (List.length (y_out Y)) (water_out Y s h t)))%Q.
Proof.
  intros pow53 root pow23 E Y s h i W H AN Lh ND L1 L2. pose proof (C150_conserved pow53 root pow23 E Y s h W H AN Lh) as C. cbv zeta in C. destruct (initialise_made _ _ _ E Y H) as (rs & n & ramp & M). pose proof (md_soc _ _ _ _ _ _ _ _ M) as SO. pose proof (md_rivers _ _ _ _ _ _ _ _ M) as MR.
  assert (I : In (y_rivers Y * h, 0, (y_rivers Y * h, e_time E)) (y_soc Y)).
  { unfold soc_links in SO. destruct (e_links_from E) as [|f lf] eqn:EF; [destruct i; discriminate|]. rewrite <- EF in *. assert (Li : i < List.length (e_links_from E)) by (apply nth_error_Some; congruence). destruct (mapM_in _ _ _ i SO) as (x & Ex & Ix); [apply in_seq; lia|]. cbv beta in Ex. rewrite (proj2 (at_nth _ _ _) L1), bind_ok, (proj2 (at_nth _ _ _) L2), bind_ok in Ex. cbn [fst snd] in Ex. rewrite (proj2 (Nat.ltb_lt _ _) Lh) in Ex. cbn [rbind at_ nth_error] in Ex. injection Ex as <-. rewrite MR. exact Ix. }
  assert (EQ : (below (y_rivers Y) (content Y s h 0) == below (y_rivers Y) (content Y s h (e_time E)))%Q). { apply below_ext. intros r Lr. pose proof (soc_equal Y s _ r (answer_rules Y s AN) I Lr) as Q1. cbn [fst snd] in Q1. unfold content. rewrite (Nat.mul_comm h). exact Q1. }
  rewrite EQ in C. apply (Qmult_inj_l _ _ (e_seconds E / e_m E)); auto. lra.
Qed.
Print Assumptions C150_cycle.

Example C150_witness : well_set fork /\ initialise p53 rt p23 fork = Ok (model_of fork) /\ answer (model_of fork) fork_answer /\ ~ (e_seconds fork / e_m fork == 0)%Q /\ nth_error (e_links_from fork) 1 = Some (1, 0) /\ nth_error (e_links_to fork) 1 = Some (1, 1) /\
  (below 3 (fun t => below 1 (water_in (model_of fork) fork_answer 1 t)) == 24)%Q.
Proof. split; [exact fork_set|]. destruct fork_checked as (A & B). sp; auto; try (vm_compute; reflexivity). discriminate. Qed.

(* ------------------------------------------------------------------ *)
(** ** C151 *)

(** The flows into rivers that leave the same node are in the proportion of their shares. *)
Theorem C151_shares : forall pow53 root pow23 E Y s rs nodes ramp b1 b2 r1 r2 t h, well_set E -> initialise pow53 root pow23 E = Ok Y -> answer Y s -> build_parts (e_parts E) (e_ramps E) (e_rivers E) = Ok (rs, nodes, ramp) ->
  nth_error rs b1 = Some r1 -> nth_error rs b2 = Some r2 -> ri_from r1 = ri_from r2 -> t < e_time E -> h < e_scen E ->
  (ri_share r2 * up Y s h t b1 == ri_share r1 * up Y s h t b2)%Q.
Proof.
  intros pow53 root pow23 E Y s rs nodes ramp b1 b2 r1 r2 t h W H AN BP R1 R2 EF Lt Lh. destruct (initialise_made _ _ _ E Y H) as (rs2 & n2 & ramp2 & M). pose proof (md_parts _ _ _ _ _ _ _ _ M) as BP2. rewrite BP in BP2. injection BP2 as <- <- <-. destruct (made_tidy _ _ _ _ _ _ _ _ W M) as (TD & _).
  pose proof (md_nodes _ _ _ _ _ _ _ _ M) as MN. pose proof (md_time _ _ _ _ _ _ _ _ M) as MT. pose proof (md_scen _ _ _ _ _ _ _ _ M) as MS. pose proof (td_nodes _ _ _ TD) as NO. unfold nodes_ok in NO. rewrite Forall_forall in NO. pose proof (NO r1 (nth_error_In _ _ R1)) as (B1 & _).
  destruct (ri_from r1) as [|k] eqn:E1; [lia|]. set (l := rivers_at ri_from rs (S k)).
  assert (I1 : In b1 l) by (apply rivers_at_in; eauto). assert (I2 : In b2 l) by (apply rivers_at_in; eauto). apply In_nth_error in I1 as (i & Ei). apply In_nth_error in I2 as (j & Ej).
  assert (HS : forall i c1 c2 x1 x2, nth_error l i = Some c1 -> nth_error l (S i) = Some c2 -> nth_error rs c1 = Some x1 -> nth_error rs c2 = Some x2 -> ~ (ri_share x1 == 0)%Q /\ (ri_share x2 / ri_share x1 * up Y s h t c1 == up Y s h t c2)%Q).
  { intros i0 c1 c2 x1 x2 N1 N2 X1 X2. destruct (share_in rs nodes (y_adj Y) (y_share Y)) with (n := k) (i := i0) (b1 := c1) (b2 := c2) (r1 := x1) (r2 := x2) as (NZ & IS); auto.
    - intros m Lm. destruct (td_adj _ _ _ TD m ltac:(lia)) as (o & ai & Eo & _ & Mo & _). exists o. sp; auto. pose proof (Forall2_length _ _ _ (proj1 (mapM_Ok _ _ _) Mo)) as LO. now rewrite seq_length in LO.
    - exact (md_share _ _ _ _ _ _ _ _ M).
    - lia.
    - split; auto. apply weights_eq; auto; [now apply answer_rules|lia|lia]. }
  assert (HR : forall b, In b l -> exists r, nth_error rs b = Some r) by (intros b I; apply rivers_at_in in I as (r & Er & _); eauto).
  destruct (Nat.le_ge_cases i j) as [L|L].
  - exact (share_chain rs l (up Y s h t) HR HS i j b1 b2 r1 r2 L Ei Ej R1 R2).
  - symmetry. exact (share_chain rs l (up Y s h t) HR HS j i b2 b1 r2 r1 L Ej Ei R2 R1).
Qed.
Print Assumptions C151_shares.

Example C151_witness : well_set fork /\ initialise p53 rt p23 fork = Ok (model_of fork) /\ answer (model_of fork) fork_answer /\
  exists rs r1 r2, build_parts (e_parts fork) (e_ramps fork) (e_rivers fork) = Ok (rs, 5, [1; 1; 1; 1]) /\ nth_error rs 2 = Some r1 /\ nth_error rs 3 = Some r2 /\ ri_from r1 = 2 /\ ri_from r2 = 2 /\ (ri_share r2 == 3 * ri_share r1)%Q /\ (up (model_of fork) fork_answer 1 1 3 == 6)%Q.
Proof. split; [exact fork_set|]. destruct fork_checked as (A & B). sp; auto. eexists. eexists. eexists. split; [vm_compute; reflexivity|]. sp; vm_compute; reflexivity. Qed.

(* ------------------------------------------------------------------ *)
(** ** C152 *)

(** Flows are within the limits of the river, widened by a slack that is not negative; the penalty is 1000 times the
    weighted sum of all slacks, so that without a penalty the limits hold. *)
Theorem C152_limits : forall pow53 root pow23 E Y s rs nodes ramp r x t h, initialise pow53 root pow23 E = Ok Y -> answer Y s -> build_parts (e_parts E) (e_ramps E) (e_rivers E) = Ok (rs, nodes, ramp) ->
  nth_error rs r = Some x -> t < e_time E -> h < e_scen E ->
  exists e, (0 <= e)%Q /\ (q_min pow53 root x - e <= up Y s h t r <= q_max pow53 root x + e)%Q /\ (q_min pow53 root x - e <= down Y s h t r <= q_max pow53 root x + e)%Q /\
    ((0 < e_penalty E)%Q -> (s HPenalty == 0)%Q -> (e == 0)%Q) /\ (e_feas E = true -> e = s (HFeas (h * List.length rs + r) t)).
Proof.
  intros pow53 root pow23 E Y s rs nodes ramp r x t h H AN BP R1 Lt Lh. destruct (initialise_made _ _ _ E Y H) as (rs2 & n2 & ramp2 & M). pose proof (md_parts _ _ _ _ _ _ _ _ M) as BP2. rewrite BP in BP2. injection BP2 as <- <- <-. pose proof (md_time _ _ _ _ _ _ _ _ M) as MT. pose proof (md_scen _ _ _ _ _ _ _ _ M) as MS. pose proof (md_rivers _ _ _ _ _ _ _ _ M) as MR. pose proof (md_feas _ _ _ _ _ _ _ _ M) as MF.
  assert (Lr : r < y_rivers Y) by (rewrite MR; apply nth_error_Some; congruence). exists (s (HFeas (feas_row Y r h) (feas_time Y t))). destruct (limits_eq _ _ _ E Y rs nodes ramp s x r t h M (answer_rules Y s AN) Lr ltac:(lia) ltac:(lia) R1) as (DC & U & D). sp; try tauto.
  - apply (proj1 AN). exact DC.
  - intros P Z. apply no_slack; auto; try lia. now rewrite (md_penalty _ _ _ _ _ _ _ _ M).
  - intros F. unfold feas_row, feas_time. now rewrite MF, F, MR.
Qed.
Print Assumptions C152_limits.
(** The limits are the flows of Manning's formula at the smallest and the largest depth. *)
Theorem C152_manning : forall pow53 root pow23 E Y s rs nodes ramp r x t h, initialise pow53 root pow23 E = Ok Y -> answer Y s -> build_parts (e_parts E) (e_ramps E) (e_rivers E) = Ok (rs, nodes, ramp) ->
  nth_error rs r = Some x -> t < e_time E -> h < e_scen E -> (0 < e_penalty E)%Q -> (s HPenalty == 0)%Q ->
  let q d := (ri_width x * pow53 d * root (ri_slope x) / ri_manning x)%Q in (q (ri_dmin x) <= up Y s h t r <= q (ri_dmax x))%Q /\ (q (ri_dmin x) <= down Y s h t r <= q (ri_dmax x))%Q.
Proof.
  intros pow53 root pow23 E Y s rs nodes ramp r x t h H AN BP R1 Lt Lh PP PZ q. destruct (C152_limits _ _ _ _ _ _ _ _ _ _ _ _ _ H AN BP R1 Lt Lh) as (e & Pe & U & D & Z & _). specialize (Z PP PZ). change (q (ri_dmin x)) with (q_min pow53 root x). change (q (ri_dmax x)) with (q_max pow53 root x). rewrite Z in U, D. lra.
Qed.
Print Assumptions C152_manning.
(** Without feasibility constraints the limits can still be exceeded: one slack serves all rivers and times. *)
Theorem C152_hard_limits_refuted : exists E Y s rs nodes ramp x, e_feas E = false /\ initialise p53 rt p23 E = Ok Y /\ answer Y s /\ build_parts (e_parts E) (e_ramps E) (e_rivers E) = Ok (rs, nodes, ramp) /\ nth_error rs 0 = Some x /\ (q_max p53 rt x < up Y s 0 0 0)%Q.
Proof.
  set (E := one_river false 2 1 [] [1] [] [] [] [] []). set (Y := model_of E). set (a := fst (leaving_pair rt p23 10 (bed 1 2 1 1))). set (q := fun _ : nat => 40%Q). set (c := fun _ : nat => full Y 0 (40 + 8 / (1 - a))%Q).
  exists E, Y, (river_answer q q c (fun _ t => q t) (fun _ _ => 0%Q) 8 16000). eexists. eexists. eexists. eexists. sp; [reflexivity|vm_compute; reflexivity| |vm_compute; reflexivity|reflexivity|vm_compute; reflexivity].
  apply check_answer; [|vm_compute; reflexivity]. intros [i t|i t|r t|r t|r t|i t|i t|]; vm_compute; discriminate.
Qed.
Print Assumptions C152_hard_limits_refuted.

Example C152_witness : initialise p53 rt p23 fork = Ok (model_of fork) /\ answer (model_of fork) fork_answer /\ (0 < e_penalty fork)%Q /\ (fork_answer HPenalty == 0)%Q /\ (q_min p53 rt (bed 1 2 1 1) == 1)%Q /\ (q_max p53 rt (bed 1 2 1 1) == 32)%Q.
Proof. destruct fork_checked as (A & B). sp; auto; vm_compute; reflexivity. Qed.

(* ------------------------------------------------------------------ *)
(** ** C153 *)

(** Without feasibility constraints the flow into a river differs from that at the first time by the range of the last
    river at most, whichever river it is. *)
Theorem C153_ramp_partial : forall pow53 root pow23 E Y s rs nodes ramp r x t h, well_set E -> e_feas E = false -> initialise pow53 root pow23 E = Ok Y -> answer Y s -> build_parts (e_parts E) (e_ramps E) (e_rivers E) = Ok (rs, nodes, ramp) ->
  r < List.length rs -> nth_error rs (List.length rs - 1) = Some x -> t < e_time E -> h < e_scen E ->
  (Qabs (up Y s h t r - up Y s h 0 r) <= Qabs (q_max pow53 root x - q_min pow53 root x))%Q.
Proof.
  intros pow53 root pow23 E Y s rs nodes ramp r x t h W NF H AN BP Lr X Lt Lh. destruct (initialise_made _ _ _ E Y H) as (rs2 & n2 & ramp2 & M). pose proof (md_parts _ _ _ _ _ _ _ _ M) as BP2. rewrite BP in BP2. injection BP2 as <- <- <-. destruct (made_tidy _ _ _ _ _ _ _ _ W M) as (TD & parts & pieces & _ & _ & _ & NE & _ & ER).
  pose proof (md_time _ _ _ _ _ _ _ _ M) as MT. pose proof (md_scen _ _ _ _ _ _ _ _ M) as MS. pose proof (md_rivers _ _ _ _ _ _ _ _ M) as MR. pose proof (md_feas _ _ _ _ _ _ _ _ M) as MF. pose proof (answer_rules Y s AN) as RU. assert (T0 : forall u, feas_time Y u = 0) by (intros u; unfold feas_time; now rewrite MF, NF).
  assert (RQ : exists q, y_ramp Y = RampAll q /\ (q == q_max pow53 root x - q_min pow53 root x)%Q).
  { pose proof (md_ramp _ _ _ _ _ _ _ _ M) as RL. unfold ramp_limit in RL. destruct (exists_last NE) as (l & last & El). rewrite El in X, RL. rewrite app_length in X, RL. cbn [List.length] in X, RL. replace (List.length l + 1 - 1) with (List.length l) in X by lia. rewrite nth_error_app2, Nat.sub_diag in X by lia. injection X as <-.
    rewrite seq_app in RL. cbn [seq Nat.add] in RL. assert (C : forall (a : list nat) (b : list river) (c : nat) (d : river), List.length a = List.length b -> combine (a ++ [c]) (b ++ [d]) = combine a b ++ [(c, d)]). { induction a as [|y a IH]; intros [|z b] c d Le; cbn in *; try discriminate; auto. f_equal. apply IH. lia. } rewrite C in RL by apply seq_length. rewrite foldM_app in RL. apply bind_inv in RL as (rp & _ & RL). cbn [foldM fst snd] in RL. apply bind_inv in RL as (rp2 & RL2 & RL). apply bind_inv in RL2 as (k & Ek & RL2). injection RL2 as <-. injection RL as RL. rewrite <- RL. eexists. split; [reflexivity|].
    apply at_nth in Ek. apply nth_error_In in Ek. rewrite ER in Ek. apply repeat_spec in Ek. subst k. cbn [Z.of_nat Pos.of_succ_nat]. change (inject_Z 1) with 1%Q. ring. }
  destruct RQ as (q & RQ & EQ). destruct (ru_ramp_down Y s RU r t h ltac:(lia) ltac:(lia) ltac:(lia)) as (c1 & B1 & S1). destruct (ru_ramp_up Y s RU r t h ltac:(lia) ltac:(lia) ltac:(lia)) as (c2 & B2 & S2). unfold ramp_down in B1. unfold ramp_up in B2. rewrite T0, RQ in B1. rewrite T0, RQ in B2.
  apply bind_inv in B1 as (v1 & V1 & B1). apply bind_inv in B1 as (v2 & V2 & B1). injection B1 as <-. apply bind_inv in B2 as (v3 & V3 & B2). apply bind_inv in B2 as (v4 & V4 & B2). injection B2 as <-. apply get_inv in V1 as (-> & _). apply get_inv in V2 as (-> & _). apply get_inv in V3 as (-> & _). apply get_inv in V4 as (-> & _). cbn [sat eval] in S1, S2. unfold con_river in S1, S2. rewrite (Nat.mul_comm _ h) in S1. rewrite (Nat.mul_comm _ h) in S2. unfold up.
  eapply Qle_trans; [|apply Qle_Qabs]. apply Qabs_Qle_condition. rewrite <- EQ. split; auto.
Qed.
Print Assumptions C153_ramp_partial.
(** With feasibility constraints the flow of a river may change by more than its range from one time to the next. *)
Theorem C153_feasibility_refuted : exists E Y s rs nodes ramp x, well_set E /\ e_feas E = true /\ initialise p53 rt p23 E = Ok Y /\ answer Y s /\ build_parts (e_parts E) (e_ramps E) (e_rivers E) = Ok (rs, nodes, ramp) /\ nth_error rs 0 = Some x /\ e_time E = 2 /\
  (q_max p53 rt x - q_min p53 rt x < up Y s 0 1 0 - up Y s 0 0 0)%Q.
Proof.
  set (E := one_river true 2 1 [] [1] [] [] [] [] []). set (Y := model_of E).
  set (a := fst (leaving_pair rt p23 10 (bed 1 2 1 1))). set (c0 := full Y 0 (1 + 8 / (1 - a))%Q). set (q := fun t => nth t [1; 40]%Q 0%Q). set (d := fun t => nth t [1; a * 40 + (1 - a) * 1]%Q 0%Q). set (c := fun t => nth t [c0; c0; c0 + 10 * (40 - (a * 40 + (1 - a) * 1))]%Q 0%Q).
  exists E, Y, (river_answer q d c (fun _ t => q t) (fun _ _ => 0%Q) 8 16000). eexists. eexists. eexists. eexists. sp; [|reflexivity|vm_compute; reflexivity| |vm_compute; reflexivity|reflexivity|reflexivity|vm_compute; reflexivity].
  - exists [1]. split; [left; auto|]. split; [repeat constructor|]. cbv zeta. change (all_nodes_count E [1]) with 2. cbn. sp; try discriminate; try (repeat constructor; cbn; try lia; intuition discriminate).
  - apply check_answer; [|vm_compute; reflexivity]. intros [i t|i t|r t|r t|r t|i t|i t|]; (destruct t as [|[|[|t]]]; vm_compute; try discriminate; destruct t; discriminate) || (vm_compute; discriminate).
Qed.
Print Assumptions C153_feasibility_refuted.

Example C153_witness : exists E Y s, well_set E /\ e_feas E = false /\ initialise p53 rt p23 E = Ok Y /\ answer Y s /\ e_time E = 2 /\ (up Y s 0 1 0 - up Y s 0 0 0 == 31)%Q.
Proof.
  set (E := one_river false 2 1 [] [1] [] [] [] [] []). set (Y := model_of E).
  set (a := (leaving_pair rt p23 10 (bed 1 2 1 1))). set (c0 := 100%Q). set (q := fun t => nth t [1; 32]%Q 0%Q). set (d := fun t => nth t [1; fst a * 32 + (1 - fst a) * 1]%Q 0%Q). set (c := fun t => nth t [c0; c0; c0 + 10 * (32 - (fst a * 32 + (1 - fst a) * 1))]%Q 0%Q).
  exists E, Y, (river_answer q d c (fun _ t => q t) (fun _ _ => 0%Q) 0 0). sp; [|reflexivity|vm_compute; reflexivity| |reflexivity|vm_compute; reflexivity].
  - exists [1]. split; [left; auto|]. split; [repeat constructor|]. cbv zeta. change (all_nodes_count E [1]) with 2. cbn. sp; try discriminate; try (repeat constructor; cbn; try lia; intuition discriminate).
  - apply check_answer; [|vm_compute; reflexivity]. intros [i t|i t|r t|r t|r t|i t|i t|]; (destruct t as [|[|[|t]]]; vm_compute; try discriminate; destruct t; discriminate) || (vm_compute; discriminate).
Qed.

(* ------------------------------------------------------------------ *)
(** ** C154 *)

(** Every unit with storage has its own level, at most its capacity rounded towards zero; the level at the end is that
    at the beginning, so that nothing is stored or released in the first time step. *)
Theorem C154_storage : forall pow53 root pow23 E Y s k uq t h, well_set E -> initialise pow53 root pow23 E = Ok Y -> answer Y s -> nth_error (with_storage (e_units E) (e_storage E)) k = Some uq -> t < e_time E -> h < e_scen E ->
  (0 <= stored Y s h t k <= inject_Z (truncate (snd uq * 1000 / (981 # 100) / u_eff (fst uq) / u_head (fst uq))))%Q /\ (stored Y s h 0 k == stored Y s h (before (e_time E) 0) k)%Q.
Proof.
  intros pow53 root pow23 E Y s k uq t h W H AN N Lt Lh. destruct (initialise_made _ _ _ E Y H) as (rs & n2 & ramp2 & M). destruct (made_tidy _ _ _ _ _ _ _ _ W M) as (TD & _). pose proof (md_time _ _ _ _ _ _ _ _ M) as MT. pose proof (md_scen _ _ _ _ _ _ _ _ M) as MS. destruct (td_stor _ _ _ TD) as (_ & _ & _ & SN & CP & _). cbv zeta in *.
  assert (Lk : k < s_no (y_stor Y)) by (rewrite SN; apply nth_error_Some; congruence). pose proof (answer_rules Y s AN) as RU. sp.
  - unfold stored. apply (proj1 AN). apply dec_stor; lia.
  - destruct (ru_stor_max Y s RU k t h Lk ltac:(lia) ltac:(lia)) as (c & B & S1). unfold stor_max in B. apply bind_inv in B as (v & V & B). apply bind_inv in B as (cap & C & B). injection B as <-. apply get_inv in V as (-> & _). apply at_nth in C. rewrite Nat.add_1_r, (CP k uq N) in C. injection C as <-. exact S1.
  - destruct (ru_stor_link Y s RU (h * s_no (y_stor Y) + k)) as (c & B & S1); [nia|]. unfold stor_link in B. apply bind_inv in B as (v & V & B). apply bind_inv in B as (v2 & V2 & B). injection B as <-. apply get_inv in V as (-> & _). apply get_inv in V2 as (-> & _). cbn [sat eval] in S1. rewrite MT in S1. exact S1.
Qed.
Print Assumptions C154_storage.
(** Capacities that are not negative are rounded down. *)
Theorem C154_capacity : forall pow53 root pow23 E Y s k u q t h, well_set E -> initialise pow53 root pow23 E = Ok Y -> answer Y s -> nth_error (with_storage (e_units E) (e_storage E)) k = Some (u, q) -> t < e_time E -> h < e_scen E -> (0 <= q)%Q -> (0 < u_eff u)%Q -> (0 < u_head u)%Q ->
  (stored Y s h t k <= inject_Z (Qfloor (q * 1000 / (981 # 100) / u_eff u / u_head u)))%Q /\ (stored Y s h t k <= q * 1000 / (981 # 100) / u_eff u / u_head u)%Q.
Proof.
  intros pow53 root pow23 E Y s k u q t h W H AN N Lt Lh Pq Pe Ph. destruct (C154_storage _ _ _ _ _ _ _ _ _ _ W H AN N Lt Lh) as ((_ & B) & _). cbn [fst snd] in B. set (c := (q * 1000 / (981 # 100) / u_eff u / u_head u)%Q) in *.
  assert (P : (0 <= c)%Q). { unfold c. repeat (apply Qle_shift_div_l; [first [assumption|reflexivity]|rewrite Qmult_0_l]). apply Qmult_le_0_compat; [exact Pq|discriminate]. }
  assert (T : truncate c = Qfloor c). { unfold truncate. destruct c as [n d]. cbn. apply Z.quot_div_nonneg; [unfold Qle in P; cbn in P; lia|lia]. }
  rewrite T in B. split; [exact B|]. eapply Qle_trans; [exact B|]. apply Qfloor_le.
Qed.
Print Assumptions C154_capacity.
(** Of two reservoirs at a node the first is in no balance: its level may change without any water. *)
Theorem C154_same_node_refuted : exists E Y s rs nodes ramp, initialise p53 rt p23 E = Ok Y /\ answer Y s /\ build_parts (e_parts E) (e_ramps E) (e_rivers E) = Ok (rs, nodes, ramp) /\ storage_nodes E = [2; 2] /\ (s HPenalty == 0)%Q /\
  (at_node (storage_nodes E) 2 (stored Y s 0 0) < at_node (storage_nodes E) 2 (stored Y s 0 1))%Q /\
  (at_node (y_in Y) 2 (water_in Y s 0 1) + at_node (map ri_to rs) 2 (down Y s 0 1) == at_node (map ri_from rs) 2 (up Y s 0 1) + at_node (y_out Y) 2 (water_out Y s 0 1))%Q.
Proof.
  set (E := one_river true 3 1 [] [1] [mkUnit 2 1 10; mkUnit 2 1 10] [5; 5]%Q [] [] []). set (Y := model_of E). set (q := fun _ : nat => 1%Q).
  exists E, Y, (river_answer q q (fun _ => 100%Q) (fun _ _ => 1)%Q (fun i t => if (i =? 0) && (t =? 1) then 4 else 0)%Q 0 0). eexists. eexists. eexists. sp; [vm_compute; reflexivity| |vm_compute; reflexivity|reflexivity|reflexivity|vm_compute; reflexivity|vm_compute; reflexivity].
  apply check_answer; [|vm_compute; reflexivity]. intros [i t|i t|r t|r t|r t|[|i] [|[|t]]|i t|]; cbn; discriminate.
Qed.
Print Assumptions C154_same_node_refuted.

Example C154_witness : well_set fork /\ initialise p53 rt p23 fork = Ok (model_of fork) /\ answer (model_of fork) fork_answer /\ nth_error (with_storage (e_units fork) (e_storage fork)) 0 = Some (mkUnit 2 1 10, 5%Q) /\ truncate (5 * 1000 / (981 # 100) / 1 / 10) = 50%Z /\ (stored (model_of fork) fork_answer 1 2 0 == 5)%Q.
Proof. split; [exact fork_set|]. destruct fork_checked as (A & B). sp; auto; vm_compute; reflexivity. Qed.

(* ------------------------------------------------------------------ *)
(** ** C155 *)

(** A link makes the content of every river the same at the two ends it names; settings without links give no model. *)
Theorem C155_links : forall pow53 root pow23 E Y s i h k g l r, initialise pow53 root pow23 E = Ok Y -> answer Y s -> nth_error (e_links_from E) i = Some (h, k) -> nth_error (e_links_to E) i = Some (g, l) -> r < y_rivers Y ->
  h < e_scen E /\ g < e_scen E /\ k <= 1 /\ l <= 1 /\ (content Y s h (k * e_time E) r == content Y s g (l * e_time E) r)%Q.
Proof.
  intros pow53 root pow23 E Y s i h k g l r H AN L1 L2 Lr. destruct (initialise_made _ _ _ E Y H) as (rs & n & ramp & M). pose proof (md_soc _ _ _ _ _ _ _ _ M) as SO. pose proof (md_rivers _ _ _ _ _ _ _ _ M) as MR.
  unfold soc_links in SO. destruct (e_links_from E) as [|f lf] eqn:EF; [destruct i; discriminate|]. rewrite <- EF in *. assert (Li : i < List.length (e_links_from E)) by (apply nth_error_Some; congruence). destruct (mapM_in _ _ _ i SO) as (x & Ex & Ix); [apply in_seq; lia|]. cbv beta in Ex. rewrite (proj2 (at_nth _ _ _) L1), bind_ok, (proj2 (at_nth _ _ _) L2), bind_ok in Ex. cbn [fst snd] in Ex.
  apply bind_inv in Ex as (a & A & Ex). apply bind_inv in Ex as (b & B & Ex). apply bind_inv in Ex as (c & C & Ex). apply bind_inv in Ex as (d & D & Ex). injection Ex as <-. destruct (Nat.ltb_spec h (e_scen E)) as [Lh|]; [|discriminate]. destruct (Nat.ltb_spec g (e_scen E)) as [Lg|]; [|discriminate]. injection A as <-. injection C as <-.
  assert (TT : forall k b, at_ [0; e_time E] k = Ok b -> k <= 1 /\ b = k * e_time E). { intros [|[|j]] v V; apply at_nth in V; cbn in V; [injection V as <-; lia|injection V as <-; lia|destruct j; discriminate]. } destruct (TT k b B) as (Lk & ->). destruct (TT l d D) as (Ll & ->).
  sp; auto. pose proof (soc_equal Y s _ r (answer_rules Y s AN) Ix Lr) as Q1. cbn [fst snd] in Q1. rewrite <- MR in Q1. unfold content. rewrite (Nat.mul_comm h), (Nat.mul_comm g). exact Q1.
Qed.
Print Assumptions C155_links.
Theorem C155_no_links_refuted : exists E, well_set E /\ e_links_from E = [] /\ initialise p53 rt p23 E = Err UnboundLocalError.
Proof.
  set (E := mkSettings [bed 1 2 1 1] [] [] [1] [2] [] [] [] [] [] [] 1 3 true 10 1 1 [] [] [] [] []). exists E. sp; [|reflexivity|vm_compute; reflexivity].
  exists [1]. split; [left; auto|]. split; [repeat constructor|]. cbv zeta. change (all_nodes_count E [1]) with 2. cbn. sp; try discriminate; try (repeat constructor; cbn; try lia; intuition discriminate).
Qed.
Print Assumptions C155_no_links_refuted.

Example C155_witness : initialise p53 rt p23 fork = Ok (model_of fork) /\ answer (model_of fork) fork_answer /\ nth_error (e_links_from fork) 1 = Some (1, 0) /\ nth_error (e_links_to fork) 1 = Some (1, 1) /\ y_rivers (model_of fork) = 4 /\ (0 < content (model_of fork) fork_answer 1 3 2)%Q.
Proof. destruct fork_checked as (A & B). sp; auto; vm_compute; reflexivity. Qed.

(* ------------------------------------------------------------------ *)
(** ** C156 *)

(** From an output node that no river leaves at least the smallest flow of the first river that ends there is taken
    out, less the slack. *)
Theorem C156_outlets : forall pow53 root pow23 E Y s rs nodes ramp o x t h, initialise pow53 root pow23 E = Ok Y -> answer Y s -> build_parts (e_parts E) (e_ramps E) (e_rivers E) = Ok (rs, nodes, ramp) ->
  nth_error (y_out Y) o = Some x -> ~ In x (map ri_from rs) -> t < e_time E -> h < e_scen E ->
  exists r p e, nth_error rs r = Some p /\ ri_to p = x /\ (forall j q, nth_error rs j = Some q -> j < r -> ri_to q <> x) /\ (0 <= e)%Q /\ (q_min pow53 root p - e <= water_out Y s h t o)%Q /\ ((0 < e_penalty E)%Q -> (s HPenalty == 0)%Q -> (e == 0)%Q).
Proof.
  intros pow53 root pow23 E Y s rs nodes ramp o x t h H AN BP No NI Lt Lh. destruct (initialise_made _ _ _ E Y H) as (rs2 & n2 & ramp2 & M). pose proof (md_parts _ _ _ _ _ _ _ _ M) as BP2. rewrite BP in BP2. injection BP2 as <- <- <-. pose proof (md_time _ _ _ _ _ _ _ _ M) as MT. pose proof (md_scen _ _ _ _ _ _ _ _ M) as MS. pose proof (md_rivers _ _ _ _ _ _ _ _ M) as MR.
  pose proof (md_out _ _ _ _ _ _ _ _ M) as MO. destruct (out_inv _ _ _ MO x (nth_error_In _ _ No)) as [|I]; [contradiction|]. destruct (first_to_ok rs x 0 I) as (r & p & _ & Np & Ep & U). pose proof (proj2 (outlets_of _ _ _ MO o r)) as IN. assert (J : In (o, r) (y_minout Y)) by (apply IN; exists x, p; auto).
  assert (Lr : r < y_rivers Y) by (rewrite MR; apply nth_error_Some; congruence). destruct (ru_min_out Y s (answer_rules Y s AN) _ t h J ltac:(lia) ltac:(lia)) as (c & B & S1). unfold min_out, slack in B. cbn [fst snd] in B. apply bind_inv in B as (v & V & B). apply bind_inv in B as (q & Eq & B). apply bind_inv in B as (e & Ee & B). injection B as <-. apply get_inv in V as (-> & _). apply get_inv in Ee as (-> & DC).
  rewrite (md_qmin _ _ _ _ _ _ _ _ M) in Eq. apply at_nth in Eq. rewrite nth_error_map, Np in Eq. injection Eq as <-. cbn [sat eval] in S1. unfold con_out in S1. rewrite (Nat.mul_comm _ h) in S1. exists r, p, (s (HFeas (feas_row Y r h) (feas_time Y t))). sp; auto.
  - apply (proj1 AN). exact DC.
  - intros P Z. apply no_slack; auto; try lia. now rewrite (md_penalty _ _ _ _ _ _ _ _ M).
Qed.
Print Assumptions C156_outlets.
(** An output node without any river stops the model. *)
Theorem C156_no_river_refuted : exists E, NoDup (e_out E) /\ Forall (fun x => 1 <= x <= max_end (e_rivers E)) (e_out E) /\ initialise p53 rt p23 E = Err IndexError.
Proof. exists (mkSettings [bed 1 2 1 1; bed 2 4 1 1] [] [] [1] [4; 3] [] [] [] [] [(0, 0)] [(0, 1)] 1 3 true 10 1 1 [] [] [] [] []). sp; [repeat constructor; cbn; intuition discriminate|cbn; repeat constructor|vm_compute; reflexivity]. Qed.
Print Assumptions C156_no_river_refuted.

Example C156_witness : initialise p53 rt p23 fork = Ok (model_of fork) /\ answer (model_of fork) fork_answer /\ nth_error (y_out (model_of fork)) 1 = Some 4 /\ y_minout (model_of fork) = [(0, 2); (1, 3)] /\ (water_out (model_of fork) fork_answer 1 0 1 == 6)%Q.
Proof. destruct fork_checked as (A & B). sp; auto; vm_compute; reflexivity. Qed.

(* ------------------------------------------------------------------ *)
(** ** C157 *)

(** Complete settings give a model, and no constraint asks for a variable or parameter that is not there. *)
Theorem C157_model : forall pow53 root pow23 E, complete E -> exists Y, initialise pow53 root pow23 E = Ok Y /\ (inputs_ok E (List.length (y_in Y)) -> exists cs, constraints Y = Ok cs).
Proof.
  intros pow53 root pow23 E C. destruct (initialise_total pow53 root pow23 E C) as (Y & H). exists Y. split; auto. intros IO. destruct (initialise_made _ _ _ E Y H) as (rs & n & ramp & M). apply (constraints_total pow53 root pow23 E Y rs n ramp (proj1 C) M IO).
Qed.
Print Assumptions C157_model.

Example C157_witness : complete fork /\ inputs_ok fork (List.length (y_in (model_of fork))) /\ match constraints (model_of fork) with Ok cs => List.length cs = 258 | Err _ => False end.
Proof.
  split; [|split; [|vm_compute; reflexivity]].
  - split; [exact fork_set|]. sp; [apply ends_nodup; vm_compute; repeat constructor; cbn; intuition discriminate|repeat constructor; discriminate| |discriminate|cbn; lia|repeat constructor; cbn; lia|repeat constructor; cbn; lia|cbn; lia].
    intros x B. change (max_end (e_rivers fork)) with 4 in B. destruct x as [|[|[|[|[|x]]]]]; try lia; [exists (bed 1 2 1 1)|exists (bed 1 2 1 1)|exists (bed 2 3 1 1)|exists (bed 2 4 3 1)]; cbn; auto.
  - replace (List.length (y_in (model_of fork))) with 1 by (vm_compute; reflexivity). unfold inputs_ok. sp; [repeat constructor; cbn; lia| |]; cbn; lia.
Qed.

(* ------------------------------------------------------------------ *)
(** ** C158 *)

(** The shares of the water that leave a river within a time step are between 0 and 1, the larger for the larger
    speed. *)
Theorem C158_leaving : forall root pow23 seconds r, (0 < seconds)%Q -> (0 < ri_length r)%Q -> (0 < speed root pow23 r (ri_dmax r))%Q -> (0 <= speed root pow23 r (ri_dmin r) <= speed root pow23 r (ri_dmax r))%Q ->
  (0 <= snd (leaving_pair root pow23 seconds r) <= fst (leaving_pair root pow23 seconds r))%Q /\ (fst (leaving_pair root pow23 seconds r) <= 1)%Q.
Proof. intros root pow23 seconds r P1 P2 P3 P4. exact (leaving_pair_bounds root pow23 seconds r P1 P2 P3 P4). Qed.
Print Assumptions C158_leaving.

Example C158_witness : let r := bed 1 2 1 1 in (speed rt p23 r (ri_dmax r) == 4)%Q /\ (speed rt p23 r (ri_dmin r) == 1)%Q /\ (fst (leaving_pair rt p23 10 r) == 3 # 20)%Q /\ (snd (leaving_pair rt p23 10 r) == 0)%Q /\ (fst (leaving_pair rt p23 60 r) == 11 # 16)%Q /\ (snd (leaving_pair rt p23 60 r) == 1 # 12)%Q.
Proof. cbv zeta. sp; vm_compute; reflexivity. Qed.

(* ------------------------------------------------------------------ *)
(** ** C159 *)

(** The flow downstream is a mixture of the flow upstream and the flow that belongs to the content of the river, less
    the slack; the content at the smallest depth belongs to the smallest flow. *)
Theorem C159_mixture : forall pow53 root pow23 E Y s rs nodes ramp r x t h, initialise pow53 root pow23 E = Ok Y -> answer Y s -> build_parts (e_parts E) (e_ramps E) (e_rivers E) = Ok (rs, nodes, ramp) ->
  nth_error rs r = Some x -> t < e_time E -> h < e_scen E -> ~ (q_max pow53 root x == q_min pow53 root x)%Q ->
  let a := fst (leaving_pair root pow23 (e_seconds E) x) in
  exists k c e, (0 <= e)%Q /\ (down Y s h t r == a * up Y s h t r + (1 - a) * (k * content Y s h t r + c) - e)%Q /\ (k * (ri_length x * ri_dmin x * ri_width x / e_m E) + c == q_min pow53 root x)%Q /\
    ((0 < e_penalty E)%Q -> (s HPenalty == 0)%Q -> (e == 0)%Q).
Proof.
  intros pow53 root pow23 E Y s rs nodes ramp r x t h H AN BP R1 Lt Lh NQ. cbv zeta. destruct (initialise_made _ _ _ E Y H) as (rs2 & n2 & ramp2 & M). pose proof (md_parts _ _ _ _ _ _ _ _ M) as BP2. rewrite BP in BP2. injection BP2 as <- <- <-. pose proof (md_time _ _ _ _ _ _ _ _ M) as MT. pose proof (md_scen _ _ _ _ _ _ _ _ M) as MS. pose proof (md_rivers _ _ _ _ _ _ _ _ M) as MR.
  assert (Lr : r < y_rivers Y) by (rewrite MR; apply nth_error_Some; congruence). pose proof (down_eq pow53 root pow23 E Y rs nodes ramp s x r t h M (answer_rules Y s AN) Lr ltac:(lia) ltac:(lia) R1 NQ) as D. pose proof (q_linear_empty pow53 root pow23 (e_seconds E) (e_m E) x) as QE. cbv zeta in D. destruct (q_linear pow53 root pow23 (e_seconds E) (e_m E) x) as (k, c).
  exists k, c, (s (HFeas (feas_row Y r h) (feas_time Y t))). sp; auto.
  - apply (proj1 AN). apply slack_declared; lia.
  - intros P Z. apply no_slack; auto; try lia. now rewrite (md_penalty _ _ _ _ _ _ _ _ M).
Qed.
Print Assumptions C159_mixture.

Example C159_witness : initialise p53 rt p23 fork = Ok (model_of fork) /\ answer (model_of fork) fork_answer /\ ~ (q_max p53 rt (bed 2 3 1 1) == q_min p53 rt (bed 2 3 1 1))%Q /\ (fst (leaving_pair rt p23 10 (bed 2 3 1 1)) == 3 # 20)%Q /\ (down (model_of fork) fork_answer 0 0 2 == 2)%Q.
Proof. destruct fork_checked as (A & B). sp; auto; try (vm_compute; reflexivity). discriminate. Qed.

(* ------------------------------------------------------------------ *)
(** ** C160 *)

(** The table of the nodes that pumps draw from has them, the last pump for each node. *)
Theorem C160_pump_table_partial : forall nodes pf pt a b, Forall (fun x => 1 <= x <= nodes) pf -> List.length pf <= List.length pt -> pump_tables nodes pf pt = Ok (a, b) -> table nodes pf a.
Proof.
  intros nodes pf pt a b F L H. unfold pump_tables in H.
  assert (X : forall l2 l1 st, pf = l1 ++ l2 -> table nodes l1 (fst st) -> forall r, foldM (fun (st : list (nat * nat) * list (nat * nat)) x => do f <- at_ pf x; do i <- row nodes f; let a := set_nth i (1, x) (fst st) in do t <- at_ pt x; if 0 <? t then Ok (a, set_nth i (1, x) (snd st)) else Ok (a, snd st)) (seq (List.length l1) (List.length l2)) st = Ok r -> table nodes pf (fst r)).
  { induction l2 as [|x l2 IH]; intros l1 st E T r; cbn [List.length seq foldM]; [intros [= <-]; rewrite List.app_nil_r in E; now subst|]. intros H2. apply bind_inv in H2 as (st2 & E2 & H2). assert (Ax : at_ pf (List.length l1) = Ok x) by (apply at_nth; rewrite E, nth_error_app2, Nat.sub_diag by lia; reflexivity). rewrite Ax, bind_ok in E2.
    assert (B : 1 <= x <= nodes). { rewrite Forall_forall in F. apply F. rewrite E, in_app_iff. right. now left. } destruct x as [|i]; [lia|]. rewrite row_node, bind_ok in E2 by lia. cbv zeta in E2. apply bind_inv in E2 as (t & _ & E2). apply (IH (l1 ++ [S i]) st2); [now rewrite <- app_assoc| |rewrite app_length, Nat.add_1_r; exact H2].
    destruct (0 <? t); injection E2 as <-; apply table_snoc; auto; lia. }
  exact (X pf [] (repeat (0, 0) nodes, repeat (0, 0) nodes) eq_refl (table_start nodes) _ H).
Qed.
Print Assumptions C160_pump_table_partial.
(** The table of the nodes that pumps deliver to is filled at the nodes they draw from. *)
Theorem C160_delivery_refuted : exists nodes pf pt a b, Forall (fun x => 1 <= x <= nodes) (pf ++ pt) /\ List.length pf = List.length pt /\ pump_tables nodes pf pt = Ok (a, b) /\ ~ table nodes pt b.
Proof.
  exists 3, [1], [3]. eexists. eexists. sp; [repeat constructor|reflexivity|reflexivity|]. intros (_ & T). destruct (T 2 ltac:(lia)) as [(p & _ & _ & X)|(N & _)]; [discriminate|]. apply N. now left.
Qed.
Print Assumptions C160_delivery_refuted.

Example C160_witness : Forall (fun x => 1 <= x <= 4) [4; 2] /\ pump_tables 4 [4; 2] [1; 0] = Ok ([(0, 0); (1, 1); (0, 0); (1, 0)], [(0, 0); (0, 0); (0, 0); (1, 0)]).
Proof. split; [repeat constructor|reflexivity]. Qed.

(* ------------------------------------------------------------------ *)
(** ** C161 *)

(** Given inputs: the fixed ones, and with several series every series at its node and scenario. *)
Theorem C161_inputs : forall pow53 root pow23 E Y s, initialise pow53 root pow23 E = Ok Y -> answer Y s ->
  (forall i t q, In (i, t, q) (e_fixed E) -> (s (HIn i t) == q)%Q) /\
  (forall x n h l t q, 1 < List.length (e_incn E) -> nth_error (e_incn E) x = Some n -> nth_error (e_incs E) x = Some h -> nth_error (e_series E) x = Some l -> nth_error l t = Some q -> t < e_time E -> (water_in Y s h t n == q)%Q).
Proof.
  intros pow53 root pow23 E Y s H AN. destruct (initialise_made _ _ _ E Y H) as (rs & n2 & ramp2 & M). pose proof (answer_rules Y s AN) as RU. pose proof (md_incn _ _ _ _ _ _ _ _ M) as MI. pose proof (md_time _ _ _ _ _ _ _ _ M) as MT. split.
  - intros i t q I. destruct (ru_fixed Y s RU (i, t, q)) as (c & B & S1); [now rewrite (md_fixed _ _ _ _ _ _ _ _ M)|]. unfold fixed_input in B. apply bind_inv in B as (v & V & B). injection B as <-. apply get_inv in V as (-> & _). exact S1.
  - intros x n h l t q L Nx Nh Nl Nq Lt. assert (Lx : x < List.length (e_incn E)) by (apply nth_error_Some; congruence). destruct (ru_matrix Y s RU) with (t := t) (x := x) as (c & B & S1); rewrite ?MI; auto; [lia|]. unfold fixed_matrix in B. rewrite (md_incs _ _ _ _ _ _ _ _ M), MI, (md_series _ _ _ _ _ _ _ _ M) in B.
    rewrite (proj2 (at_nth _ _ _) Nh), bind_ok in B. apply bind_inv in B as (c0 & C & B). destruct (h <? y_scen Y); [|discriminate]. injection C as <-. rewrite (proj2 (at_nth _ _ _) Nx), bind_ok in B. apply bind_inv in B as (v & V & B). rewrite (proj2 (at_nth _ _ _) Nl), bind_ok, (proj2 (at_nth _ _ _) Nq), bind_ok in B. injection B as <-. apply get_inv in V as (-> & _). cbn [sat eval] in S1. unfold con_in in S1. rewrite (Nat.mul_comm _ h) in S1. exact S1.
Qed.
Print Assumptions C161_inputs.
(** A single series is not put into its scenario. *)
Theorem C161_single_refuted : exists E Y s n h q, initialise p53 rt p23 E = Ok Y /\ answer Y s /\ e_incn E = [n] /\ e_incs E = [h] /\ nth_error (e_series1 E) 0 = Some q /\ (s HPenalty == 0)%Q /\ ~ (water_in Y s h 0 n == q)%Q.
Proof.
  set (E := one_river true 1 2 [] [1] [] [] [0] [1] [2]%Q). set (Y := model_of E). set (q := fun r => if r =? 0 then 2%Q else 1%Q).
  exists E, Y, (fun v => match v with HIn i _ => q i | HOut i _ => q i | HUp r _ => q r | HDown r _ => q r | HSoC r _ => Qabs (full Y 0 (q r)) | _ => 0 end)%Q, 0, 1, 2%Q. sp; [vm_compute; reflexivity| |reflexivity|reflexivity|reflexivity|reflexivity|vm_compute; discriminate].
  apply check_answer; [|vm_compute; reflexivity]. intros [[|i] t|[|i] t|[|r] t|[|r] t|r t|i t|i t|]; try apply Qabs_nonneg; unfold q; cbn; discriminate.
Qed.
Print Assumptions C161_single_refuted.

Example C161_witness : exists E Y s, initialise p53 rt p23 E = Ok Y /\ answer Y s /\ In (1, 0, 1%Q) (e_fixed E) /\ e_incn E = [0; 0] /\ e_incs E = [0; 1] /\ e_series E = [[2]; [1]]%Q /\ e_time E = 1 /\ (water_in Y s 0 0 0 == 2)%Q /\ (water_in Y s 1 0 0 == 1)%Q.
Proof.
  set (E := mkSettings [bed 1 2 1 1] [] [] [1] [2] [] [] [] [] [(0, 0)] [(0, 0)] 2 1 true 10 1 1 [(1, 0, 1%Q)] [0; 0] [0; 1] [] [[2]; [1]]%Q). set (Y := model_of E). set (q := fun r => if r =? 0 then 2%Q else 1%Q).
  exists E, Y, (fun v => match v with HIn i _ => q i | HOut i _ => q i | HUp r _ => q r | HDown r _ => q r | HSoC r _ => Qabs (full Y 0 (q r)) | _ => 0 end)%Q. sp; [vm_compute; reflexivity| |now left|reflexivity|reflexivity|reflexivity|reflexivity|vm_compute; reflexivity|vm_compute; reflexivity].
  apply check_answer; [|vm_compute; reflexivity]. intros [[|i] t|[|i] t|[|r] t|[|r] t|r t|i t|i t|]; try apply Qabs_nonneg; unfold q; cbn; discriminate.
Qed.
