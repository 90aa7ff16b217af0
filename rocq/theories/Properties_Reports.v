(** Properties C198-C213: the reports and the setters of the joint model. *)
From Coq Require Import List Bool Arith ZArith QArith Qround Qabs Lia Lqa.
From Verif Require Import Base GraphData GraphDataProofs Cases CasesProofs Network InputOutput InputOutputProofs ConverterOpen HydroSpec HydroTables ScreeningProofs Linear LinearProofs Devices EnergyTree
  Joint JointSpec JointExamples Reports ReportsSpec ReportsSetters ReportsProofs ReportsTotals ReportsCost ReportsExamples.
From Verif Require Power PowerSpec PowerExamples PowerUnits Hydro HydroExamples JointTree JointEnergy EnergyTreeSoC.
Import ListNotations.
Open Scope nat_scope.
Open Scope list_scope.

Local Ltac sp := repeat match goal with |- _ /\ _ => split end.
Local Notation network K := (q_power K) (only parsing).
Local Notation net s := (fun x => s (JNet x)) (only parsing).
(** What can be asked of [isle]. *)
Definition first_half : options := mkOptions (Some [1]) false (Some [0]).
Lemma isle_all : askable isle_model halves everything. Proof. vm_compute. sp; repeat constructor. Qed.
Lemma isle_some : askable isle_model halves first_half. Proof. vm_compute. sp; repeat constructor. Qed.

(* ------------------------------------------------------------------ *)
(** ** C198 *)

(** The reports about one unit are the energy of its power in the answer: over the scenarios and steps that are asked for,
    with their weights, or without weights in a snapshot. *)
Theorem C198_generation : forall cf pow53 root pow23 J K s f o g, ready cf pow53 root pow23 J K -> askable K f o -> g < Power.n_gen (network K) ->
  exists r, get_generation K f s g o = Ok r /\ (r == energy K f o (fun h t => PowerSpec.output (network K) (net s) h t g))%Q.
Proof. intros cf pow53 root pow23 J K s f o g R OK. exact (generation_ok cf pow53 root pow23 J K s R f o OK g). Qed.
Print Assumptions C198_generation.
Theorem C198_pumps : forall cf pow53 root pow23 J K s f o p, ready cf pow53 root pow23 J K -> askable K f o -> p < Power.n_pump (network K) ->
  exists r, get_pump K f s (p + 1) o = Ok r /\ (r == energy K f o (fun h t => PowerSpec.pump_power (network K) (net s) h t p))%Q.
Proof. intros cf pow53 root pow23 J K s f o p R OK. exact (pump_report cf pow53 root pow23 J K s R f o OK p). Qed.
Print Assumptions C198_pumps.
Theorem C198_demand : forall cf pow53 root pow23 J K inputs v s f o n, ready cf pow53 root pow23 J K -> answer J K inputs v s -> askable K f o -> n < Power.n_bus (network K) -> Power.w_nodem (network K) <> 0 ->
  exists r q, get_demand K f (n + 1) o = Ok r /\ each K o (fun h t => PowerSpec.load_at (network K) n t h (q h t)) /\ (r == energy K f o q)%Q.
Proof. intros cf pow53 root pow23 J K inputs v s f o n R A OK. exact (demand_ok cf pow53 root pow23 J K inputs v s R A f o OK n). Qed.
Print Assumptions C198_demand.
Theorem C198_curtailment : forall cf pow53 root pow23 J K s f o n, ready cf pow53 root pow23 J K -> askable K f o -> n < Power.n_bus (network K) -> Power.w_feas (network K) = true ->
  exists r, get_curtailment K f s n o = Ok r /\ (r == energy K f o (fun h t => PowerSpec.curtailed (network K) (net s) h t n))%Q.
Proof. intros cf pow53 root pow23 J K s f o n R OK. exact (curtailment_ok cf pow53 root pow23 J K s R f o OK n). Qed.
Print Assumptions C198_curtailment.

Example C198_witness : ready PowerExamples.no_cf HydroExamples.p53 HydroExamples.rt HydroExamples.p23 isle isle_model /\ answer isle isle_model isle_in (states_of isle_states) isle_answer /\ askable isle_model halves everything /\ askable isle_model halves first_half /\
  says (get_generation isle_model halves isle_answer 0 everything) 60 /\ says (get_generation isle_model halves isle_answer 0 first_half) 15 /\ says (get_pump isle_model halves isle_answer 1 everything) 5 /\
  says (get_demand isle_model halves 2 everything) 110 /\ says (get_curtailment isle_model halves isle_answer 1 everything) 15.
Proof.
  split; [exact isle_ready|]. split; [exact isle_checked|]. split; [exact isle_all|]. split; [exact isle_some|]. sp; vm_compute; reflexivity.
Qed.

(* ------------------------------------------------------------------ *)
(** ** C199 *)

(** The reports balance.  With a network: generation and curtailment are demand, with the factor for losses, pumping and the
    losses of the lines.  Partial: no SecurityFlag, at most one pump per bus, curtailment allowed, and valid types of loads. *)
Theorem C199_network_partial : forall cf pow53 root pow23 J K inputs v s f o, ready cf pow53 root pow23 J K -> answer J K inputs v s -> askable K f o ->
  Power.w_flag (network K) = true -> Power.w_secflag (network K) = false -> Power.w_feas (network K) = true -> Power.w_nodem (network K) <> 0 -> typed (Power.n_bus (network K)) (j_types J) -> apart (network K) ->
  exists g d p c, all_generation K f s AllUnits o = Ok g /\ all_demand J K f None o = Ok d /\ all_pumps K f s o = Ok p /\ all_curtailment J K f s None o = Ok c /\
  (g + fst c == PowerSpec.load_factor (network K) * fst d + p + energy K f o (fun h t => below (Power.n_bra (network K)) (PowerSpec.branch_loss (network K) (net s) h t 0)))%Q.
Proof. intros cf pow53 root pow23 J K inputs v s f o R A OK. exact (network_reports cf pow53 root pow23 J K inputs v s R A f o OK). Qed.
Print Assumptions C199_network_partial.
(** Without network.  Partial: only one bus has a load. *)
Theorem C199_single_partial : forall cf pow53 root pow23 J K inputs v s f o, ready cf pow53 root pow23 J K -> answer J K inputs v s -> askable K f o ->
  Power.w_flag (network K) = false -> Power.w_feas (network K) = true -> PowerSpec.count (PowerSpec.loaded (network K)) = 1 -> Power.w_nodem (network K) <> 0 -> typed (Power.n_bus (network K)) (j_types J) ->
  exists g d p c, all_generation K f s AllUnits o = Ok g /\ all_demand J K f None o = Ok d /\ all_pumps K f s o = Ok p /\ all_curtailment J K f s None o = Ok c /\
  (g + fst c == PowerSpec.load_factor (network K) * fst d + p)%Q.
Proof. intros cf pow53 root pow23 J K inputs v s f o R A OK. exact (single_reports cf pow53 root pow23 J K inputs v s R A f o OK). Qed.
Print Assumptions C199_single_partial.
(** Without network and with two loads, the curtailment of another scenario is reported. *)
Theorem C199_scattered_refuted : exists cf pow53 root pow23 J K inputs v s f o g d p c, ready cf pow53 root pow23 J K /\ answer J K inputs v s /\ askable K f o /\
  Power.w_flag (network K) = false /\ Power.w_feas (network K) = true /\ Power.w_nodem (network K) <> 0 /\ typed (Power.n_bus (network K)) (j_types J) /\ PowerSpec.load_factor (network K) = 1%Q /\
  all_generation K f s AllUnits o = Ok g /\ all_demand J K f None o = Ok d /\ all_pumps K f s o = Ok p /\ all_curtailment J K f s None o = Ok c /\
  (g == 0 /\ p == 0 /\ fst c == 0 /\ 0 < fst d)%Q.
Proof.
  exists PowerExamples.no_cf, HydroExamples.p53, HydroExamples.rt, HydroExamples.p23, spread, (model_of spread), spread_in, (states_of spread_states), spread_answer, halves, (mkOptions None false (Some [1])). do 4 eexists.
  split; [apply ready_start; exact (proj1 spread_checked)|]. split; [exact (proj2 spread_checked)|]. split; [vm_compute; sp; repeat constructor|]. split; [vm_compute; reflexivity|]. split; [vm_compute; reflexivity|]. split; [vm_compute; discriminate|]. split; [vm_compute; sp; [discriminate|repeat constructor|constructor]|].
  split; [vm_compute; reflexivity|]. split; [vm_compute; reflexivity|]. split; [vm_compute; reflexivity|]. split; [vm_compute; reflexivity|]. split; [vm_compute; reflexivity|]. sp; vm_compute; reflexivity.
Qed.
Print Assumptions C199_scattered_refuted.
(** With settings['Feasibility'] off, the network is still allowed to curtail, and it is not reported. *)
Theorem C199_hidden_refuted : exists cf pow53 root pow23 J K inputs v s f o g d p c, ready cf pow53 root pow23 J K /\ answer J K inputs v s /\ askable K f o /\
  Power.w_flag (network K) = true /\ Power.w_secflag (network K) = false /\ Power.w_nodem (network K) <> 0 /\ typed (Power.n_bus (network K)) (j_types J) /\ apart (network K) /\ PowerSpec.load_factor (network K) = 1%Q /\
  all_generation K f s AllUnits o = Ok g /\ all_demand J K f None o = Ok d /\ all_pumps K f s o = Ok p /\ all_curtailment J K f s None o = Ok c /\
  (g == 0 /\ p == 0 /\ fst c == 0 /\ 0 < fst d)%Q.
Proof.
  exists PowerExamples.no_cf, HydroExamples.p53, HydroExamples.rt, HydroExamples.p23, strict, (model_of strict), [[0]; [0]]%Q, (states_of [[(0, 0); (0, 0)]]%Q), strict_answer, [1%Q], everything. do 4 eexists.
  split; [apply ready_start; exact (proj1 strict_checked)|]. split; [exact (proj2 strict_checked)|]. split; [vm_compute; sp; repeat constructor|]. split; [vm_compute; reflexivity|]. split; [vm_compute; reflexivity|]. split; [vm_compute; discriminate|]. split; [vm_compute; sp; [discriminate|repeat constructor|constructor]|].
  split; [intros p q n L; change (Power.n_pump (network (model_of strict))) with 0 in L; lia|]. split; [vm_compute; reflexivity|]. split; [vm_compute; reflexivity|]. split; [vm_compute; reflexivity|]. split; [vm_compute; reflexivity|]. split; [vm_compute; reflexivity|]. sp; vm_compute; reflexivity.
Qed.
Print Assumptions C199_hidden_refuted.

Lemma isle_apart : apart (network isle_model).
Proof. intros p q n L. assert (X : Power.n_pump (network isle_model) = 1) by (vm_compute; reflexivity). rewrite X in L. lia. Qed.
Lemma isle_typed : typed (Power.n_bus (network isle_model)) (j_types isle).
Proof. vm_compute. sp; [discriminate|repeat constructor|repeat constructor]. Qed.
Definition pair_says (r : res (Q * (Q * Q))) (a b c : Q) : Prop := match r with Ok x => (fst x == a /\ fst (snd x) == b /\ snd (snd x) == c)%Q | Err _ => False end.
Example C199_witness : typed (Power.n_bus (network isle_model)) (j_types isle) /\ apart (network isle_model) /\ Power.w_flag (network isle_model) = true /\ Power.w_secflag (network isle_model) = false /\ Power.w_feas (network isle_model) = true /\
  says (all_generation isle_model halves isle_answer AllUnits everything) 155 /\ pair_says (all_demand isle isle_model halves None everything) 165 55 110 /\ says (all_pumps isle_model halves isle_answer everything) 5 /\ pair_says (all_curtailment isle isle_model halves isle_answer None everything) 15 0 15 /\
  start seasons = Ok (model_of seasons) /\ PowerSpec.count (PowerSpec.loaded (network (model_of seasons))) = 1 /\ Power.w_flag (network (model_of seasons)) = false.
Proof. split; [exact isle_typed|]. split; [exact isle_apart|]. sp; vm_compute; sp; reflexivity. Qed.

(* ------------------------------------------------------------------ *)
(** ** C200 *)

(** A report over several scenarios, or over several steps, is the sum of the reports over parts of them. *)
Theorem C200_scenarios : forall K f s k o l1 l2 r, ask K f s k (with_scens o (l1 ++ l2)) = Ok r ->
  exists a b, ask K f s k (with_scens o l1) = Ok a /\ ask K f s k (with_scens o l2) = Ok b /\ (r == a + b)%Q.
Proof. exact ask_scens. Qed.
Print Assumptions C200_scenarios.
Theorem C200_steps : forall K f s k o l1 l2 r, ask K f s k (with_times o (l1 ++ l2)) = Ok r ->
  exists a b, ask K f s k (with_times o l1) = Ok a /\ ask K f s k (with_times o l2) = Ok b /\ (r == a + b)%Q.
Proof. exact ask_times. Qed.
Print Assumptions C200_steps.
(** All scenarios and steps are those that are not named. *)
Theorem C200_all : forall K f s k o, o_scens o = None -> o_times o = None ->
  ask K f s k (with_scens (with_times o (seq 0 (Power.w_time (network K)))) (seq 0 (q_number K))) = ask K f s k o.
Proof. intros K f s k [ts b ss] A B. cbn in A, B. subst. now destruct k. Qed.
Print Assumptions C200_all.

Example C200_witness : says (ask isle_model halves isle_answer (RGeneration 0) (with_scens everything ([0] ++ [1]))) 60 /\ says (ask isle_model halves isle_answer (RGeneration 0) (with_scens everything [0])) 30 /\ says (ask isle_model halves isle_answer (RGeneration 0) (with_scens everything [1])) 30 /\
  says (ask isle_model halves isle_answer (RDemand 2) (with_times everything ([0] ++ [1]))) 110 /\ says (ask isle_model halves isle_answer (RDemand 2) (with_times everything [0])) 20 /\ says (ask isle_model halves isle_answer (RDemand 2) (with_times everything [1])) 90.
Proof. sp; vm_compute; reflexivity. Qed.

(* ------------------------------------------------------------------ *)
(** ** C201 *)

(** The report about spilled renewable generation: what the farms generate and what is spilled make what is available; it is
    not negative. *)
Theorem C201_spilled : forall cf pow53 root pow23 J K inputs v s f o, ready cf pow53 root pow23 J K -> answer J K inputs v s -> askable K f o ->
  exists x g q, all_res K f s o = Ok x /\ all_generation K f s Farms o = Ok g /\ (forall r, r < Power.n_ren (network K) -> each K o (fun h t => PowerSpec.farm_profile (network K) r t h (q r h t))) /\
  (g + x == energy K f o (fun h t => below (Power.n_ren (network K)) (fun r => q r h t * nth r (map fa_max (Power.w_farms (network K))) 0)))%Q /\
  ((0 <= Power.w_base (network K))%Q -> each K o (fun h t => (0 <= scen_share f o h)%Q /\ (0 <= step_share K o t)%Q) -> (0 <= x)%Q).
Proof. intros cf pow53 root pow23 J K inputs v s f o R A OK. exact (farms_ok cf pow53 root pow23 J K inputs v s R A f o OK). Qed.
Print Assumptions C201_spilled.

Example C201_witness : says (all_res isle_model halves isle_answer everything) 55 /\ says (all_generation isle_model halves isle_answer Farms everything) 95 /\ (0 <= Power.w_base (network isle_model))%Q /\ each isle_model everything (fun h t => (0 <= scen_share halves everything h)%Q /\ (0 <= step_share isle_model everything t)%Q).
Proof.
  split; [vm_compute; reflexivity|]. split; [vm_compute; reflexivity|]. split; [vm_compute; discriminate|]. intros h t Ih It. change (In h [0; 1]) in Ih. change (In t [0; 1]) in It.
  destruct Ih as [<-|[<-|[]]], It as [<-|[<-|[]]]; split; vm_compute; discriminate.
Qed.

(* ------------------------------------------------------------------ *)
(** ** C202 *)

(** All components of the objective (get_OFparts) and the penalty of the rivers make the objective.  Partial: every step has
    weight 1. *)
Theorem C202_parts_partial : forall cf pow53 root pow23 J K s f, ready cf pow53 root pow23 J K -> askable K f everything -> (forall t, t < Power.w_time (network K) -> (step_weight K t == 1)%Q) ->
  exists r, of_parts J K f s all_flags everything = Ok r /\ (objective J K f s == r + s (JWater Hydro.HPenalty))%Q.
Proof. exact objective_parts. Qed.
Print Assumptions C202_parts_partial.
(** The components are not weighted with the steps, as the objective is. *)
Theorem C202_weights_refuted : exists cf pow53 root pow23 J K inputs v s f r, ready cf pow53 root pow23 J K /\ answer J K inputs v s /\ askable K f everything /\
  of_parts J K f s all_flags everything = Ok r /\ (r + s (JWater Hydro.HPenalty) == 2)%Q /\ (objective J K f s == 4)%Q.
Proof.
  exists PowerExamples.no_cf, HydroExamples.p53, HydroExamples.rt, HydroExamples.p23, heavy, (model_of heavy), [[0]; [2]]%Q, (states_of [[(0, 0); (0, 0)]]%Q), heavy_answer, [1%Q]. eexists.
  split; [apply ready_start; exact (proj1 heavy_checked)|]. split; [exact (proj2 heavy_checked)|]. split; [vm_compute; sp; repeat constructor|]. split; [vm_compute; reflexivity|]. split; vm_compute; reflexivity.
Qed.
Print Assumptions C202_weights_refuted.

Definition season_weights : list Q := [1 # 2; 1 # 2; 1; 1]%Q.
Example C202_witness : start seasons = Ok (model_of seasons) /\ askable (model_of seasons) season_weights everything /\ (forall t, t < Power.w_time (network (model_of seasons)) -> (step_weight (model_of seasons) t == 1)%Q) /\
  says (of_parts seasons (model_of seasons) season_weights seasons_answer all_flags everything) 3 /\ (objective seasons (model_of seasons) season_weights seasons_answer == 3)%Q.
Proof.
  split; [exact (proj1 seasons_checked)|]. split; [vm_compute; sp; repeat constructor|]. split; [|split; vm_compute; reflexivity]. intros t Lt. assert (X : Power.w_time (network (model_of seasons)) = 1) by (vm_compute; reflexivity). rewrite X in Lt. replace t with 0 by lia. vm_compute. reflexivity.
Qed.

(* ------------------------------------------------------------------ *)
(** ** C203 *)

(** The net demand is never reported when it includes the demand. *)
Theorem C203_net_demand : forall J K f s F o r, f_0 F = true -> net_demand J K f s F o <> Ok r.
Proof. intros J K f s F o r H. unfold net_demand. rewrite H. destruct (all_demand J K f None o); discriminate. Qed.
Print Assumptions C203_net_demand.
(** Without the demand it is the sum of the reports that are asked for. *)
Theorem C203_parts : forall J K f s F o a b c d, f_0 F = false -> all_pumps K f s o = Ok a -> all_loss K f s o = Ok b -> all_curtailment J K f s None o = Ok c -> all_res K f s o = Ok d ->
  exists r, net_demand J K f s F o = Ok r /\ (r == (if f_1 F then a else 0) + (if f_2 F then b else 0) + (if f_3 F then fst c else 0) + (if f_4 F then d else 0))%Q.
Proof.
  intros J K f s [x0 x1 x2 x3 x4] o a b c d H A B C D. cbn [f_0 f_1 f_2 f_3 f_4] in *. subst x0. unfold net_demand. cbn [f_0 f_1 f_2 f_3 f_4]. rewrite A, B, C, D. destruct x1, x2, x3, x4; cbn; eexists; (split; [reflexivity|]); ring.
Qed.
Print Assumptions C203_parts.
(** The report about the losses of a line stops the program; that about all losses works only without losses or lines. *)
Theorem C203_losses : forall K f s o, (forall b r, get_loss K f s b o <> Ok r) /\ ((exists r, all_loss K f s o = Ok r) <-> Power.w_losses (network K) = false \/ Power.n_bra (network K) = 0) /\
  (Power.w_losses (network K) = false -> all_loss K f s o = Ok 0%Q).
Proof.
  intros K f s o. assert (G : forall b r, get_loss K f s b o <> Ok r). { intros b r. unfold get_loss. destruct (_ && _); [|discriminate]. destruct (total _ _ _ _); discriminate. }
  sp; [exact G| |intros L; unfold all_loss; now rewrite L]. unfold all_loss. destruct (Power.w_losses (network K)); [|split; eauto]. destruct (Power.n_bra (network K)) as [|n]; [cbn; split; eauto|]. split; [|intros [X|X]; discriminate]. intros (r & E). exfalso. unfold add_all in E. cbn [seq foldM] in E. apply bind_inv in E as (x & E & _). apply bind_inv in E as (y & E & _). exact (G _ _ E).
Qed.
Print Assumptions C203_losses.
Theorem C203_net_demand_refuted : exists cf pow53 root pow23 J K inputs v s f o e, ready cf pow53 root pow23 J K /\ answer J K inputs v s /\ askable K f o /\ typed (Power.n_bus (network K)) (j_types J) /\
  net_demand J K f s (mkFlags true false false false false) o = Err e /\ get_loss K f s 0 o = Err SystemExit.
Proof.
  exists PowerExamples.no_cf, HydroExamples.p53, HydroExamples.rt, HydroExamples.p23, isle, isle_model, isle_in, (states_of isle_states), isle_answer, halves, everything, TypeError.
  split; [exact isle_ready|]. split; [exact isle_checked|]. split; [exact isle_all|]. split; [exact isle_typed|]. split; vm_compute; reflexivity.
Qed.
Print Assumptions C203_net_demand_refuted.

Example C203_witness : f_0 all_flags = true /\ Power.w_losses (network isle_model) = false /\ Power.n_bra (network isle_model) = 1 /\ says (net_demand isle isle_model halves isle_answer (mkFlags false true true true true) everything) 75.
Proof. sp; vm_compute; reflexivity. Qed.

(* ------------------------------------------------------------------ *)
(** ** C204 *)

(** Urban and rural demand, and curtailment: together they are the total; the rural one is that of the rural buses. *)
Theorem C204_types : forall cf pow53 root pow23 J K inputs v s f o, ready cf pow53 root pow23 J K -> answer J K inputs v s -> askable K f o -> Power.w_nodem (network K) <> 0 -> typed (Power.n_bus (network K)) (j_types J) ->
  exists d q, all_demand J K f None o = Ok d /\ (fst d == fst (snd d) + snd (snd d))%Q /\ (forall n, n < Power.n_bus (network K) -> each K o (fun h t => PowerSpec.load_at (network K) n t h (q n h t))) /\
    (snd (snd d) == below (Power.n_bus (network K)) (fun n => if is_rural (j_types J) n then energy K f o (q n) else 0))%Q /\
  (Power.w_feas (network K) = true -> exists c, all_curtailment J K f s None o = Ok c /\ (fst c == fst (snd c) + snd (snd c))%Q /\
    (snd (snd c) == below (Power.n_bus (network K)) (fun n => if is_rural (j_types J) n then energy K f o (fun h t => PowerSpec.curtailed (network K) (net s) h t n) else 0))%Q).
Proof.
  intros cf pow53 root pow23 J K inputs v s f o R A OK ND T. destruct (demand_all cf pow53 root pow23 J K inputs v s R A f o OK ND T) as (d & q & E & L & S1 & S2 & S3).
  assert (X : forall g, (of_type (j_types J) true g (seq 0 (Power.n_bus (network K))) == below (Power.n_bus (network K)) (fun n => if is_rural (j_types J) n then g n else 0))%Q). { intros g. unfold of_type, below. apply qsum_ext. intros n _. destruct (is_rural (j_types J) n); reflexivity. }
  exists d, q. sp; [exact E| |exact L|now rewrite S3, X|].
  - rewrite S1, S2, S3, types_sum. symmetry. apply energy_below.
  - intros FE. destruct (curtailment_all cf pow53 root pow23 J K s R f o OK FE T) as (c & Ec & C1 & C2 & C3). exists c. sp; [exact Ec|exact C2|]. now rewrite C3, X.
Qed.
Print Assumptions C204_types.
(** With one type for all loads: rural loads cannot be reported. *)
Theorem C204_rural_refuted : exists cf pow53 root pow23 J K inputs v s f o, ready cf pow53 root pow23 J K /\ answer J K inputs v s /\ askable K f o /\ j_types J = [1] /\ all_demand J K f None o = Err TypeError /\ all_curtailment J K f s None o = Err TypeError.
Proof.
  exists PowerExamples.no_cf, HydroExamples.p53, HydroExamples.rt, HydroExamples.p23, (mkSettings (j_data isle) (j_power isle) None [] [1] 1000%Q), isle_model, isle_in, (states_of isle_states), isle_answer, halves, everything.
  split; [apply (ready_res _ _ _ _ _ [] [] isle_start isle_model 1 [30; 40]%Q); [apply ready_start; vm_compute; reflexivity|vm_compute; reflexivity]|]. split; [apply check_answer; vm_compute; reflexivity|]. split; [exact isle_all|]. sp; vm_compute; reflexivity.
Qed.
Print Assumptions C204_rural_refuted.

Example C204_witness : is_rural (j_types isle) 0 = false /\ is_rural (j_types isle) 1 = true /\ pair_says (all_demand isle isle_model halves None everything) 165 55 110.
Proof. sp; vm_compute; sp; reflexivity. Qed.

(* ------------------------------------------------------------------ *)
(** ** C205 *)

(** A profile that is set has one value per step.  A profile of the right length is kept. *)
Theorem C205_length : forall time value p, check_profile time value = Ok p -> List.length p = time.
Proof. exact check_length. Qed.
Print Assumptions C205_length.
Theorem C205_kept : forall value, check_profile (List.length value) value = Ok value.
Proof. intros value. unfold check_profile. now rewrite Nat.eqb_refl. Qed.
Print Assumptions C205_kept.
(** For a single step the mean is used. *)
Theorem C205_mean : forall value, value <> [] -> exists m, check_profile 1 value = Ok [m] /\ (m * inject_Z (Z.of_nat (List.length value)) == qsum value)%Q.
Proof.
  intros value NE. unfold check_profile. destruct (Nat.eqb_spec (List.length value) 1) as [E|E].
  - destruct value as [|m [|? ?]]; try discriminate. exists m. split; [reflexivity|]. cbn. ring.
  - eexists. split; [reflexivity|]. unfold mean. field. intros Z. unfold Qeq, inject_Z in Z. cbn in Z. destruct value; [contradiction|]. cbn [List.length] in Z. lia.
Qed.
Print Assumptions C205_mean.
(** For two steps a day of 24 hours is split in 19 and 5 hours, and no energy is lost. *)
Theorem C205_day_partial : forall value, List.length value = 24 -> exists a b, check_profile 2 value = Ok [a; b] /\ (19 * a + 5 * b == qsum value)%Q.
Proof.
  intros value L. unfold check_profile. rewrite L. cbn [Nat.eqb]. do 2 eexists. split; [reflexivity|]. do 24 (destruct value as [|? value]; [discriminate|]). destruct value; [|discriminate].
  unfold mean, part_of. cbn [Nat.sub skipn firstn List.length]. unfold qsum. cbn [fold_right]. change (inject_Z (Z.of_nat 5)) with 5%Q. field.
Qed.
Print Assumptions C205_day_partial.
(** Other profiles for two steps lose energy: of two days only the first counts, and a constant half day is not constant. *)
Theorem C205_hours_refuted : exists value value' p, List.length value = 48 /\ List.length value' = 48 /\ ~ (qsum value == qsum value')%Q /\ check_profile 2 value = Ok p /\ check_profile 2 value' = Ok p.
Proof. exists (repeat 1%Q 48), (repeat 1%Q 24 ++ repeat 5%Q 24). eexists. sp; try reflexivity. vm_compute. discriminate. Qed.
Print Assumptions C205_hours_refuted.
Theorem C205_constant_refuted : exists a b, check_profile 2 (repeat 1%Q 12) = Ok [a; b] /\ ~ (a == 1)%Q /\ ~ (b == 1)%Q.
Proof. do 2 eexists. split; [reflexivity|]. split; vm_compute; discriminate. Qed.
Print Assumptions C205_constant_refuted.
(** Everything else fails. *)
Theorem C205_fails : forall time value, List.length value <> time -> time <> 1 -> time <> 2 -> check_profile time value = Err RuntimeError.
Proof. intros time value A B C. unfold check_profile. destruct (Nat.eqb_spec (List.length value) time); [contradiction|]. destruct (Nat.eqb_spec time 1); [contradiction|]. destruct (Nat.eqb_spec time 2); [contradiction|reflexivity]. Qed.
Print Assumptions C205_fails.

Example C205_witness : check_profile 3 [1; 2; 3]%Q = Ok [1; 2; 3]%Q /\ (exists m, check_profile 1 [1; 2; 6]%Q = Ok [m] /\ m == 3)%Q /\ check_profile 3 [1; 2]%Q = Err RuntimeError /\ List.length (repeat 1%Q 24) = 24.
Proof. sp; try reflexivity. eexists. split; reflexivity. Qed.

(* ------------------------------------------------------------------ *)
(** ** C206 *)

(** set_Demand replaces one profile and changes nothing else. *)
Theorem C206_set_demand : forall cf pow53 root pow23 J K i value p, ready cf pow53 root pow23 J K -> S i <= Power.w_nodem (network K) -> check_profile (Power.w_time (network K)) value = Ok p ->
  exists K', set_demand K (S i) value = Ok K' /\ same_rest K K' /\ q_model K' = q_model K /\ same_network (network K) (network K') /\ Power.w_branches (network K') = Power.w_branches (network K) /\ Power.w_profile (network K') = Power.w_profile (network K) /\
    List.length (Power.w_demand (network K')) = List.length (Power.w_demand (network K)) /\
    forall j t, t < Power.w_time (network K) -> profile_value (Power.w_demand (network K')) (Power.w_time (network K)) j t = if j =? i then nth_error p t else profile_value (Power.w_demand (network K)) (Power.w_time (network K)) j t.
Proof.
  intros cf pow53 root pow23 J K i value p R L C. destruct (demand_set cf pow53 root pow23 J K i value p R L C) as (K' & d & E & -> & Ld & N). eexists. split; [exact E|]. split; [now sp|]. split; [reflexivity|]. split; [now sp|]. split; [reflexivity|]. split; [reflexivity|]. split; [exact Ld|exact N].
Qed.
Print Assumptions C206_set_demand.
(** A profile that does not exist is ignored. *)
Theorem C206_ignored : forall K i value, Power.w_nodem (network K) < i -> set_demand K i value = Ok K.
Proof. intros K i value L. unfold set_demand. cbv zeta. destruct (Nat.leb_spec i (Power.w_nodem (network K))); [lia|reflexivity]. Qed.
Print Assumptions C206_ignored.
(** Profile 0 does not exist either, and is not ignored. *)
Theorem C206_zero_refuted : exists cf pow53 root pow23 J K value p, ready cf pow53 root pow23 J K /\ check_profile (Power.w_time (network K)) value = Ok p /\ set_demand K 0 value = Err ValueError.
Proof.
  exists PowerExamples.no_cf, HydroExamples.p53, HydroExamples.rt, HydroExamples.p23, isle, isle_model, [1; 2]%Q, [1; 2]%Q. split; [exact isle_ready|]. split; vm_compute; reflexivity.
Qed.
Print Assumptions C206_zero_refuted.

Definition demand_of (r : res joint) : option (list Q) := match r with Ok K => Some (Power.w_demand (network K)) | Err _ => None end.
Example C206_witness : 2 <= Power.w_nodem (network isle_model) /\ Power.w_demand (network isle_model) = [1; 1; 1; 2]%Q /\ demand_of (set_demand isle_model 2 [5; 6]%Q) = Some [1; 1; 5; 6]%Q.
Proof. split; [vm_compute; repeat constructor|]. split; vm_compute; reflexivity. Qed.

(* ------------------------------------------------------------------ *)
(** ** C207 *)

(** set_RES replaces one profile, on the base, and changes nothing else. *)
Theorem C207_set_res : forall cf pow53 root pow23 J rows series K i value p, ready cf pow53 root pow23 J K -> 0 < Power.n_ren (network K) -> S i <= Power.w_nores (network K) -> ~ In (S i) (map fst rows) -> check_profile (Power.w_time (network K)) value = Ok p ->
  exists K', set_res rows series K (S i) value = Ok K' /\ same_rest K K' /\ q_model K' = q_model K /\ same_network (network K) (network K') /\ Power.w_branches (network K') = Power.w_branches (network K) /\ Power.w_demand (network K') = Power.w_demand (network K) /\
    List.length (Power.w_profile (network K')) = List.length (Power.w_profile (network K)) /\
    forall j t, t < Power.w_time (network K) -> profile_value (Power.w_profile (network K')) (Power.w_time (network K)) j t =
      if j =? i then option_map (fun q => q / Power.w_base (network K))%Q (nth_error p t) else profile_value (Power.w_profile (network K)) (Power.w_time (network K)) j t.
Proof.
  intros cf pow53 root pow23 J rows series K i value p R NR L NI C. destruct (res_set cf pow53 root pow23 J rows series K i value p R NR L) as (K' & d & E & -> & Ld & N).
  - unfold overwritten. destruct (find (fun r => fst r =? S i) rows) as [r|] eqn:F; [|rewrite bind_ok; exact C]. apply find_some in F as (I & X). apply Nat.eqb_eq in X. exfalso. apply NI. rewrite <- X. now apply in_map.
  - eexists. split; [exact E|]. split; [now sp|]. split; [reflexivity|]. split; [now sp|]. split; [reflexivity|]. split; [reflexivity|]. split; [exact Ld|exact N].
Qed.
Print Assumptions C207_set_res.
(** A profile that Overwrite names is taken from its table, whatever is set. *)
Theorem C207_overwritten : forall cf pow53 root pow23 J a b k series K i value x p, ready cf pow53 root pow23 J K -> 0 < Power.n_ren (network K) -> S i <= Power.w_nores (network K) -> ~ In (S i) (map fst a) -> nth_error series k = Some x -> check_profile (Power.w_time (network K)) x = Ok p ->
  exists K', set_res (a ++ (S i, k) :: b) series K (S i) value = Ok K' /\
    forall j t, t < Power.w_time (network K) -> profile_value (Power.w_profile (network K')) (Power.w_time (network K)) j t =
      if j =? i then option_map (fun q => q / Power.w_base (network K))%Q (nth_error p t) else profile_value (Power.w_profile (network K)) (Power.w_time (network K)) j t.
Proof.
  intros cf pow53 root pow23 J a b k series K i value x p R NR L NI NX C. destruct (res_set cf pow53 root pow23 J (a ++ (S i, k) :: b) series K i value p R NR L) as (K' & d & E & -> & Ld & N).
  - assert (F : find (fun r => fst r =? S i) (a ++ (S i, k) :: b) = Some (S i, k)). { induction a as [|y a IH]; cbn [find fst app]; [now rewrite Nat.eqb_refl|]. destruct (Nat.eqb_spec (fst y) (S i)) as [Y|Y]; [exfalso; apply NI; now left|]. apply IH. intros I. apply NI. now right. }
    unfold overwritten. rewrite F. cbn [snd]. rewrite (proj2 (at_nth _ _ _) NX), bind_ok. exact C.
  - eexists. split; [exact E|exact N].
Qed.
Print Assumptions C207_overwritten.
(** Profile 0 does not exist; with one step it sets the last profile. *)
Definition shore : settings := mkSettings [intervals [1%Q] false] (country [mkBus 1 0 10] [] false true 1 [] [mkFarm 1 1 0] [] [1%Q] None) None [] [] 1000%Q.
Definition profile_of (r : res joint) : option (list Q) := match r with Ok K => Some (map Qred (Power.w_profile (network K))) | Err _ => None end.
Theorem C207_zero_refuted : exists cf pow53 root pow23 J K K' value, ready cf pow53 root pow23 J K /\ set_res [] [] K 0 value = Ok K' /\ ~ Forall2 Qeq (Power.w_profile (network K')) (Power.w_profile (network K)).
Proof.
  exists PowerExamples.no_cf, HydroExamples.p53, HydroExamples.rt, HydroExamples.p23, shore, (model_of shore), (match set_res [] [] (model_of shore) 0 [7%Q] with Ok K => K | Err _ => model_of shore end), [7%Q].
  split; [apply ready_start; vm_compute; reflexivity|]. split; [vm_compute; reflexivity|]. intros F. vm_compute in F. inversion F as [|? ? ? ? X]. subst. discriminate X.
Qed.
Print Assumptions C207_zero_refuted.

Example C207_witness : ready PowerExamples.no_cf HydroExamples.p53 HydroExamples.rt HydroExamples.p23 isle isle_start /\ 0 < Power.n_ren (network isle_start) /\ 1 <= Power.w_nores (network isle_start) /\
  profile_of (set_res [] [] isle_start 1 [30; 40]%Q) = Some [3; 4]%Q /\ profile_of (set_res [(2, 1); (1, 0)] [[10; 20]%Q; []] isle_start 1 [30; 40]%Q) = Some [1; 2]%Q.
Proof. split; [apply ready_start; exact (proj1 isle_started)|]. split; [vm_compute; repeat constructor|]. split; [vm_compute; repeat constructor|]. split; vm_compute; reflexivity. Qed.

(* ------------------------------------------------------------------ *)
(** ** C208 *)

(** set_GenCoFlag: a unit that is switched off generates nothing, and one with another capacity keeps to it. *)
Theorem C208_off_partial : forall cf pow53 root pow23 J K K' g inputs v s, ready cf pow53 root pow23 J K -> set_capacity K (S g) (CFlag false) = Ok K' -> answer J K' inputs v s -> g < Power.n_conv (network K) + Power.n_hyd (network K) -> Power.w_cool (network K) = None ->
  forall h t, h < q_number K -> t < Power.w_time (network K) -> (PowerSpec.output (network K) (net s) h t g == 0)%Q.
Proof.
  intros cf pow53 root pow23 J K K' g inputs v s R E A Lg NC h t Lh Lt. destruct (capacity_limit cf pow53 root pow23 J K K' g _ inputs v s R E A Lg NC) as (u & Eu & B).
  destruct (capacity_max cf pow53 root pow23 J K K' g _ R ltac:(unfold Power.n_gen; lia) E) as (_ & _ & _ & u0 & _ & Eu' & _). rewrite Eu' in Eu. injection Eu as <-. cbn [un_max with_max] in B. specialize (B ltac:(intros; apply Qle_refl) h t Lh Lt). lra.
Qed.
Print Assumptions C208_off_partial.
Theorem C208_capacity_partial : forall cf pow53 root pow23 J K K' g q inputs v s, ready cf pow53 root pow23 J K -> set_capacity K (S g) (CNumber q) = Ok K' -> answer J K' inputs v s -> g < Power.n_conv (network K) + Power.n_hyd (network K) -> Power.w_cool (network K) = None ->
  (0 <= q / Power.w_base (network K))%Q -> forall h t, h < q_number K -> t < Power.w_time (network K) -> (0 <= PowerSpec.output (network K) (net s) h t g <= q / Power.w_base (network K))%Q.
Proof.
  intros cf pow53 root pow23 J K K' g q inputs v s R E A Lg NC P h t Lh Lt. destruct (capacity_limit cf pow53 root pow23 J K K' g _ inputs v s R E A Lg NC) as (u & Eu & B).
  destruct (capacity_max cf pow53 root pow23 J K K' g _ R ltac:(unfold Power.n_gen; lia) E) as (_ & _ & _ & u0 & _ & Eu' & _). rewrite Eu' in Eu. injection Eu as <-. cbn [un_max with_max] in B. exact (B (fun _ => P) h t Lh Lt).
Qed.
Print Assumptions C208_capacity_partial.
(** The other units keep theirs, and nothing else changes. *)
Theorem C208_others : forall cf pow53 root pow23 J K K' g c, ready cf pow53 root pow23 J K -> g < Power.n_gen (network K) -> set_capacity K (S g) c = Ok K' ->
  q_power K' = q_power K /\ same_rest K K' /\ forall i, i <> g -> Power.unit_at (q_model K') i = Power.unit_at (q_model K) i.
Proof.
  intros cf pow53 root pow23 J K K' g c R Lg E. destruct (capacity_max cf pow53 root pow23 J K K' g c R Lg E) as (EP & _ & _ & _ & _ & _ & O). split; [exact EP|]. split; [|exact O].
  unfold set_capacity in E. cbv zeta in E. apply bind_inv in E as (i & _ & E). apply bind_inv in E as (u & _ & E). apply bind_inv in E as (q & _ & E). injection E as <-. now sp.
Qed.
Print Assumptions C208_others.
(** Switching a unit on changes its capacity, and does not undo switching it off. *)
Definition most (r : res joint) (g : nat) : option Q := match r with Ok K => match Power.unit_at (q_model K) g with Ok u => Some (Qred (un_max u)) | Err _ => None end | Err _ => None end.
Theorem C208_on_refuted : exists cf pow53 root pow23 J K g a b, ready cf pow53 root pow23 J K /\ most (Ok K) g = Some a /\ most (set_capacity K (S g) (CFlag true)) g = Some b /\ (b < a)%Q /\
  most (do K' <- set_capacity K (S g) (CFlag false); set_capacity K' (S g) (CFlag true)) g = Some 0%Q.
Proof.
  exists PowerExamples.no_cf, HydroExamples.p53, HydroExamples.rt, HydroExamples.p23, isle, isle_model, 0, 5%Q, (1 # 2)%Q. split; [exact isle_ready|]. sp; vm_compute; reflexivity.
Qed.
Print Assumptions C208_on_refuted.
(** A farm that is switched off still generates. *)
Definition isle_off (g : nat) : joint := match set_capacity isle_model g (CFlag false) with Ok K => K | Err _ => isle_model end.
Theorem C208_farms_refuted : exists cf pow53 root pow23 J K K' g inputs v s h t, ready cf pow53 root pow23 J K /\ set_capacity K (S g) (CFlag false) = Ok K' /\ answer J K' inputs v s /\ g < Power.n_gen (network K) /\ h < q_number K /\ t < Power.w_time (network K) /\
  (0 < PowerSpec.output (network K) (net s) h t g)%Q.
Proof.
  exists PowerExamples.no_cf, HydroExamples.p53, HydroExamples.rt, HydroExamples.p23, isle, isle_model, (isle_off 2), 1, isle_in, (states_of isle_states), isle_answer, 0, 0. split; [exact isle_ready|]. split; [vm_compute; reflexivity|]. split; [apply check_answer; vm_compute; reflexivity|].
  split; [vm_compute; repeat constructor|]. split; [vm_compute; repeat constructor|]. split; [vm_compute; repeat constructor|]. vm_compute. reflexivity.
Qed.
Print Assumptions C208_farms_refuted.

(** The plant of [isle] is switched off: the farm and curtailment remain. *)
Definition calm : list (Power.var * Q) :=
  [(Power.NGen 1 0, 1); (Power.NFea 0 0, 1); (Power.NFea 1 0, 1); (Power.NGen 1 1, 2); (Power.NFea 0 1, 1); (Power.NGen 3 0, 3); (Power.NFlow 1 0, -1); (Power.NVolt 2 0, -1); (Power.NGen 3 1, 4); (Power.NFea 2 1, 2)]%Q.
Example C208_witness : set_capacity isle_model 1 (CFlag false) = Ok (isle_off 1) /\ answer isle (isle_off 1) [[0]; [0]; [0]; [0]]%Q (states_of [[(0, 0); (0, 0); (0, 0); (0, 0)]]%Q) (joined [[0]; [0]; [0]; [0]]%Q calm []) /\
  0 < Power.n_conv (network isle_model) + Power.n_hyd (network isle_model) /\ Power.w_cool (network isle_model) = None /\ most (set_capacity isle_model 1 (CNumber 20)) 0 = Some 2%Q.
Proof. split; [vm_compute; reflexivity|]. split; [apply check_answer; vm_compute; reflexivity|]. split; [vm_compute; repeat constructor|]. split; vm_compute; reflexivity. Qed.

(* ------------------------------------------------------------------ *)
(** ** C209 *)

(** The lines that are named get the value, and nothing else changes. *)
Theorem C209_lines : forall K K' k index q, set_lines K k index q = Ok K' ->
  same_rest K K' /\ q_model K' = q_model K /\ same_network (network K) (network K') /\ Power.w_demand (network K') = Power.w_demand (network K) /\ Power.w_profile (network K') = Power.w_profile (network K) /\ Power.n_bra (network K') = Power.n_bra (network K) /\
  (forall b, ~ In b index -> nth_error (Power.w_branches (network K')) b = nth_error (Power.w_branches (network K)) b) /\
  (forall b, In b index -> exists r r', nth_error (Power.w_branches (network K)) b = Some r /\ nth_error (Power.w_branches (network K')) b = Some r' /\ br_from r' = br_from r /\ br_to r' = br_to r /\ br_loss r' = br_loss r /\ br_status r' = br_status r /\
     br_r r' = (match k with LRes => q | _ => br_r r end) /\ br_x r' = (match k with LReact => q | _ => br_x r end) /\ br_rate r' = (match k with LRate => q | _ => br_rate r end)).
Proof.
  intros K K' k index q E. unfold set_lines in E. cbv zeta in E. apply bind_inv in E as (w & _ & E). apply bind_inv in E as (l & El & E). injection E as <-. apply lines_ok in El as (L & _ & FB & NB). cbn [q_power q_model with_power with_data Power.w_demand Power.w_profile Power.w_branches].
  split; [now sp|]. split; [reflexivity|]. split; [now sp|]. split; [reflexivity|]. split; [reflexivity|]. split; [exact L|]. split.
  - intros b NI. rewrite NB. destruct (existsb (Nat.eqb b) index) eqn:X; [|reflexivity]. apply existsb_exists in X as (x & I & X). apply Nat.eqb_eq in X. subst. contradiction.
  - intros b I. assert (X : existsb (Nat.eqb b) index = true) by (apply existsb_exists; exists b; split; [exact I|apply Nat.eqb_refl]). rewrite Forall_forall in FB. specialize (FB b I). destruct (nth_error (Power.w_branches (network K)) b) as [r|] eqn:Nb; [|apply nth_error_None in Nb; lia].
    exists r, (set_branch k q r). rewrite NB, X. rewrite Nb. cbn [option_map]. sp; try reflexivity; now destruct k.
Qed.
Print Assumptions C209_lines.
(** A line that does not exist fails. *)
Theorem C209_fails : forall K k index b q, In b index -> Power.n_bra (network K) <= b -> exists e, set_lines K k index q = Err e.
Proof.
  intros K k index b q I L. destruct (set_lines K k index q) as [K'|e] eqn:E; [|now exists e]. exfalso. unfold set_lines in E. cbv zeta in E. apply bind_inv in E as (w & _ & E). apply bind_inv in E as (l & El & E). apply lines_ok in El as (_ & _ & FB & _). rewrite Forall_forall in FB. specialize (FB b I). unfold Power.n_bra in L. lia.
Qed.
Print Assumptions C209_fails.
(** The flow of a line keeps to the capacity that was set, in the normal state and in every contingency. *)
Theorem C209_capacity : forall cf pow53 root pow23 J K K' index q inputs v s, ready cf pow53 root pow23 J K -> set_lines K LRate index q = Ok K' -> answer J K' inputs v s -> Power.w_flag (network K) = true ->
  forall b xs h t, In b index -> xs <= List.length (Power.w_security (network K)) -> h < q_number K -> t < Power.w_time (network K) -> PowerSpec.flow_index (Power.n_bra (network K)) (Power.w_security (network K)) xs b <> None ->
    (- (q / Power.w_base (network K)) <= PowerSpec.flow (network K) (net s) h t xs b <= q / Power.w_base (network K))%Q.
Proof. intros cf pow53 root pow23 J K K' index q inputs v s R E A FL. exact (line_limit cf pow53 root pow23 J K K' index q inputs v s R E A FL). Qed.
Print Assumptions C209_capacity.
(** Setting all lines works and sets all lines. *)
Theorem C209_all : forall K k q, ~ (Power.w_base (network K) == 0)%Q -> exists K', set_all_lines K k q = Ok K' /\ set_lines K k (seq 0 (Power.n_bra (network K))) q = Ok K' /\ forall b, b < Power.n_bra (network K) <-> In b (seq 0 (Power.n_bra (network K))).
Proof.
  intros K k q NZ. assert (X : forall index l, Forall (fun b => b < List.length l) index -> exists l', foldM (fun l b => do r <- at_ l b; store l b (set_branch k q r)) index l = Ok l').
  { induction index as [|b index IH]; intros l F; cbn [foldM]; [now exists l|]. inversion F as [|? ? Fb F']. subst. destruct (nth_error l b) as [r|] eqn:N; [|apply nth_error_None in N; lia]. rewrite (proj2 (at_nth _ _ _) N), bind_ok.
    rewrite (store_ok l b (set_branch k q r) Fb). rewrite bind_ok. apply IH. now rewrite set_nth_length. }
  destruct (X (seq 0 (Power.n_bra (network K))) (Power.w_branches (network K))) as (l & El). { apply Forall_forall. intros b I. apply in_seq in I. unfold Power.n_bra in I. lia. }
  assert (Z : Qeq_bool (base K) 0 = false) by (apply not_true_iff_false; intros Z; apply Qeq_bool_iff in Z; contradiction).
  eexists. split; [|split].
  - unfold set_all_lines, set_lines. cbv zeta. rewrite Z, El. destruct k; reflexivity.
  - unfold set_lines. cbv zeta. rewrite Z, El. destruct k; reflexivity.
  - intros b. rewrite in_seq. lia.
Qed.
Print Assumptions C209_all.

Definition isle_tight : joint := match set_lines isle_model LRate [0] 15%Q with Ok K => K | Err _ => isle_model end.
Example C209_witness : set_lines isle_model LRate [0] 15%Q = Ok isle_tight /\ answer isle isle_tight isle_in (states_of isle_states) isle_answer /\ Power.w_flag (network isle_model) = true /\ PowerSpec.flow_index (Power.n_bra (network isle_model)) (Power.w_security (network isle_model)) 0 0 <> None /\
  ~ (Power.w_base (network isle_model) == 0)%Q.
Proof. split; [vm_compute; reflexivity|]. split; [apply check_answer; vm_compute; reflexivity|]. sp; vm_compute; [reflexivity|discriminate|discriminate]. Qed.

(* ------------------------------------------------------------------ *)
(** ** C210 *)

(** set_element_status changes one mark. *)
Theorem C210_status : forall marks i status, 0 < i < List.length marks -> exists l, set_status marks (Some i) status = Ok l /\ List.length l = List.length marks /\ nth_error l i = Some status /\ forall j, j <> i -> nth_error l j = nth_error marks j.
Proof.
  intros marks [|i] status L; [lia|]. cbn [set_status]. rewrite (store_ok marks (S i) status (proj2 L)). eexists. split; [reflexivity|]. split; [apply set_nth_length|]. split.
  - rewrite nth_set_nth, Nat.eqb_refl. destruct (nth_error marks (S i)) eqn:N; [reflexivity|apply nth_error_None in N; lia].
  - intros j N. rewrite nth_set_nth. destruct (Nat.eqb_spec (S i) j); [congruence|reflexivity].
Qed.
Print Assumptions C210_status.
Theorem C210_fails : forall marks i status, List.length marks <= i -> exists e, set_status marks (Some i) status = Err e.
Proof.
  intros marks [|i] status L; [now exists ValueError|]. cbn [set_status]. destruct (store marks (S i) status) as [l|e] eqn:E; [|now exists e]. apply store_inv in E as (X & _). lia.
Qed.
Print Assumptions C210_fails.
(** The first element exists, and its status cannot be set. *)
Theorem C210_first_refuted : exists marks status, 0 < List.length marks /\ set_status marks (Some 0) status = Err ValueError.
Proof. exists [true; true], false. split; [repeat constructor|reflexivity]. Qed.
Print Assumptions C210_first_refuted.

Example C210_witness : set_status [true; true; true] (Some 1) false = Ok [true; false; true] /\ set_status [true; true] (Some 2) false = Err IndexError.
Proof. split; reflexivity. Qed.

(* ------------------------------------------------------------------ *)
(** ** C211 *)

Lemma truncate_near q : (Qabs (inject_Z (- truncate q) + q) < 1)%Q /\ (Qabs (inject_Z (- truncate q)) <= Qabs q)%Q /\ (inject_Z (truncate q) * q >= 0)%Q.
Proof.
  rewrite inject_Z_opp. unfold truncate. destruct (Qle_bool 0 q) eqn:B.
  - apply Qle_bool_iff in B. pose proof (Qfloor_le q) as A. pose proof (Qlt_floor q) as C. rewrite inject_Z_plus in C. change (inject_Z 1) with 1%Q in C.
    assert (P : (0 <= inject_Z (Qfloor q))%Q). { change 0%Q with (inject_Z 0). rewrite <- Zle_Qle. change 0%Z with (Qfloor 0). now apply Qfloor_resp_le. }
    split; [apply Qabs_Qlt_condition; split; lra|]. split; [rewrite Qabs_opp, !Qabs_pos; lra|]. apply Qmult_le_0_compat; lra.
  - assert (N : (q < 0)%Q) by (apply Qnot_le_lt; intros X; apply Qle_bool_iff in X; congruence). pose proof (Qle_ceiling q) as A. pose proof (Qceiling_lt q) as C. unfold Z.sub in C. rewrite inject_Z_plus, inject_Z_opp in C. change (inject_Z 1) with 1%Q in C.
    assert (P : (inject_Z (Qceiling q) <= 0)%Q). { change 0%Q with (inject_Z 0). rewrite <- Zle_Qle. change 0%Z with (Qceiling 0). apply Qceiling_resp_le. lra. }
    split; [apply Qabs_Qlt_condition; split; lra|]. split; [rewrite Qabs_opp, !Qabs_neg; lra|]. setoid_replace (inject_Z (Qceiling q) * q)%Q with ((- inject_Z (Qceiling q)) * (- q))%Q by ring. apply Qmult_le_0_compat; lra.
Qed.
(** The marginal value of water is minus its dual, rounded towards 0. *)
Theorem C211_marginal : forall K dual i, i < vectors K -> exists z, get_marginal K dual (S i) = Ok z /\
  match dual i with
  | None => z = 0%Z
  | Some q => (Qabs (inject_Z z - (- q)) < 1 /\ Qabs (inject_Z z) <= Qabs q /\ inject_Z z * (- q) >= 0)%Q
  end.
Proof.
  intros K dual i L. unfold get_marginal, dual_at. cbn [Nat.eqb orb Nat.sub]. rewrite Nat.sub_0_r. rewrite (proj2 (Nat.ltb_lt _ _) L). cbn [negb]. rewrite bind_ok. eexists. split; [reflexivity|]. destruct (dual i) as [q|]; [|reflexivity].
  destruct (truncate_near q) as (A & B & C). replace (-1 * truncate q)%Z with (- truncate q)%Z by ring. sp.
  - setoid_replace (inject_Z (- truncate q) - - q)%Q with (inject_Z (- truncate q) + q)%Q by ring. exact A.
  - exact B.
  - rewrite inject_Z_opp. setoid_replace (- inject_Z (truncate q) * - q)%Q with (inject_Z (truncate q) * q)%Q by ring. exact C.
Qed.
Print Assumptions C211_marginal.
(** Sites outside the model fail. *)
Theorem C211_fails : forall K dual i, i = 0 \/ vectors K < i -> get_marginal K dual i = Err KeyError.
Proof.
  intros K dual i [->|L]; [reflexivity|]. unfold get_marginal, dual_at. destruct (Nat.eqb_spec i 0); [lia|]. destruct (Nat.ltb_spec (i - 1) (vectors K)); [lia|reflexivity].
Qed.
Print Assumptions C211_fails.
(** A value below 1 is lost. *)
Theorem C211_exact_refuted : exists K dual i q, i < vectors K /\ dual i = Some q /\ ~ (q == 0)%Q /\ get_marginal K dual (S i) = Ok 0%Z.
Proof. exists isle_model, (fun _ => Some (-1 # 2)%Q), 0, (-1 # 2)%Q. split; [vm_compute; repeat constructor|]. sp; [reflexivity|discriminate|vm_compute; reflexivity]. Qed.
Print Assumptions C211_exact_refuted.
(** The flag says whether the marginal value exceeds the penalty on the base. *)
Theorem C211_flag : forall J K dual i, i < vectors K -> ~ (Power.w_base (network K) == 0)%Q -> exists b, get_hydro_flag J K dual (S i) = Ok b /\ forall z q, get_marginal K dual (S i) = Ok z -> dual i = Some q -> (b = true <-> j_penalty J / Power.w_base (network K) < inject_Z z)%Q.
Proof.
  intros J K dual i L NZ. unfold get_hydro_flag, get_marginal, dual_at. cbn [Nat.eqb orb Nat.sub]. rewrite Nat.sub_0_r. rewrite (proj2 (Nat.ltb_lt _ _) L). cbn [negb]. rewrite !bind_ok.
  assert (Z : Qeq_bool (base K) 0 = false) by (apply not_true_iff_false; intros Z; apply Qeq_bool_iff in Z; contradiction). destruct (dual i) as [q|].
  - rewrite Z. eexists. split; [reflexivity|]. intros z q' E _. injection E as <-. rewrite negb_true_iff, <- not_true_iff_false, Qle_bool_iff. split; [apply Qnot_le_lt|apply Qlt_not_le].
  - exists false. split; [reflexivity|]. intros z q' _ E. discriminate.
Qed.
Print Assumptions C211_flag.
(** The mean is over the sites; without sites there is none. *)
Theorem C211_mean : forall K dual z, 0 < vectors K -> (forall i, i < vectors K -> get_marginal K dual (S i) = Ok (z i)) -> exists r, mean_marginal K dual = Ok r /\ (r * inject_Z (Z.of_nat (vectors K)) == below (vectors K) (fun i => inject_Z (z i)))%Q.
Proof.
  intros K dual z P G. unfold mean_marginal. destruct (add_all_ok (fun x => do z <- get_marginal K dual (x + 1); Ok (inject_Z z)) (fun i => inject_Z (z i)) (seq 0 (vectors K))) as (r & E & S).
  - intros x I. apply in_seq in I. rewrite Nat.add_1_r, (G x) by lia. rewrite bind_ok. eexists. split; reflexivity.
  - rewrite E, bind_ok. destruct (Nat.eqb_spec (vectors K) 0); [lia|]. eexists. split; [reflexivity|]. unfold below. rewrite <- S. field. intros Z. unfold Qeq, inject_Z in Z. cbn in Z. lia.
Qed.
Print Assumptions C211_mean.
Theorem C211_empty : forall K dual, vectors K = 0 -> mean_marginal K dual = Err ZeroDivisionError.
Proof. intros K dual E. unfold mean_marginal. rewrite E. reflexivity. Qed.
Print Assumptions C211_empty.

Example C211_witness : vectors isle_model = 1 /\ get_marginal isle_model (fun _ => Some (-7 # 2)%Q) 1 = Ok 3%Z /\ get_hydro_flag isle isle_model (fun _ => Some (-7 # 2)%Q) 1 = Ok false /\ get_hydro_flag isle isle_model (fun _ => Some (-101)%Q) 1 = Ok true /\ says (mean_marginal isle_model (fun _ => Some (-7 # 2)%Q)) 3.
Proof. sp; vm_compute; reflexivity. Qed.

(* ------------------------------------------------------------------ *)
(** ** C212 *)

(** After any number of changes to demand, renewable generation and lines the tables of the network are those of the changed
    data: initialising it again gives the same tables. *)
Theorem C212_consistent : forall cf pow53 root pow23 J K, ready cf pow53 root pow23 J K -> Power.initialise cf (q_power K) = Ok (q_model K) /\ Power.w_noh (q_power K) = q_number K.
Proof. intros cf pow53 root pow23 J K R. exact (ready_facts cf pow53 root pow23 J K R). Qed.
Print Assumptions C212_consistent.
(** A change of capacity is lost when the network is initialised again. *)
Theorem C212_capacity_refuted : exists cf pow53 root pow23 J K K' g c M, ready cf pow53 root pow23 J K /\ set_capacity K g c = Ok K' /\ Power.initialise cf (q_power K') = Ok M /\ most (Ok K') 0 = Some 0%Q /\ most (Ok (with_power K' (q_power K') M)) 0 = Some 5%Q.
Proof.
  exists PowerExamples.no_cf, HydroExamples.p53, HydroExamples.rt, HydroExamples.p23, isle, isle_model, (isle_off 1), 1, (CFlag false), (q_model isle_model). split; [exact isle_ready|]. split; [vm_compute; reflexivity|]. split; [vm_compute; reflexivity|]. split; vm_compute; reflexivity.
Qed.
Print Assumptions C212_capacity_refuted.

Example C212_witness : ready PowerExamples.no_cf HydroExamples.p53 HydroExamples.rt HydroExamples.p23 isle isle_tight.
Proof. apply (ready_lines _ _ _ _ _ isle_model isle_tight LRate [0] 15%Q); [exact isle_ready|vm_compute; reflexivity]. Qed.

(* ------------------------------------------------------------------ *)
(** ** C213 *)

Lemma ready_origin cf pow53 root pow23 J K : ready cf pow53 root pow23 J K ->
  exists K0, initialise cf pow53 root pow23 J = Ok K0 /\ q_energy K = q_energy K0 /\ q_first K = q_first K0 /\ q_number K = q_number K0 /\ q_water K = q_water K0 /\ Power.w_plants (network K) = Power.w_plants (network K0).
Proof.
  induction 1 as [K I|K K' index value R (K0 & I & H1 & H2 & H3 & H4 & H5) E|rows series K K' index value R (K0 & I & H1 & H2 & H3 & H4 & H5) E|K K' k index value R (K0 & I & H1 & H2 & H3 & H4 & H5) E]; [exists K; sp; auto| | |]; exists K0; split; [exact I| |exact I| |exact I|].
  - unfold set_demand in E. cbv zeta in E. destruct (index <=? _); [|injection E as <-; sp; auto]. apply bind_inv in E as (w & _ & E). apply bind_inv in E as (d & _ & E). injection E as <-. cbn [q_power q_energy q_first q_number q_water with_power with_data Power.w_plants]. sp; auto.
  - unfold set_res in E. cbv zeta in E. apply bind_inv in E as (w & _ & E). destruct (index <=? _); [|injection E as <-; sp; auto]. apply bind_inv in E as (d & _ & E). apply bind_inv in E as (r & _ & E). apply bind_inv in E as (r' & _ & E). injection E as <-. cbn [q_power q_energy q_first q_number q_water with_power with_data Power.w_plants]. sp; auto.
  - unfold set_lines in E. cbv zeta in E. apply bind_inv in E as (w & _ & E). apply bind_inv in E as (l & El & E). injection E as <-. cbn [q_power q_energy q_first q_number q_water with_power with_data Power.w_plants]. sp; auto.
Qed.
(** get_Hydro and get_AllHydro report what the plants generate.  Partial: no rivers, and the tree has one level; then they
    report the first of its nodes. *)
Theorem C213_surplus_partial : forall cf pow53 root pow23 J K inputs v s l, ready cf pow53 root pow23 J K -> answer J K inputs v s -> j_water J = None -> j_data J = [l] -> JointTree.level_named l ->
  (forall x, x < Power.n_hyd (network K) -> exists r, get_hydro K s (S x) = Ok r /\ (r == over_time K (plant_power K s 0 x))%Q) /\
  (exists r, all_hydro K s = Ok r /\ (r == below (Power.n_hyd (network K)) (fun x => over_time K (plant_power K s 0 x)))%Q).
Proof.
  intros cf pow53 root pow23 J K inputs v s l R A NW D LN. destruct (ready_origin _ _ _ _ _ _ R) as (K0 & I & EE & EF & EN & EW & EP).
  destruct (JointEnergy.joint_tree cf pow53 root pow23 J K0 l [] D) as (_ & F1 & F2 & F3 & F4 & _); [rewrite D; constructor; [exact LN|constructor]|exact I|]. rewrite D in F1, F2, F3. cbn in F1, F2, F3.
  assert (V : vectors K = Power.n_hyd (network K)). { unfold vectors in *. rewrite EE, F4. unfold vectors_of, Power.n_hyd. rewrite NW, EP. destruct (JointEnergy.initialise_energy cf pow53 root pow23 J K0 I) as (_ & _ & NE & _). unfold network_of in NE. apply bind_inv in NE as (d & _ & NE). injection NE as <-. reflexivity. }
  assert (B : forall x, x < Power.n_hyd (network K) -> value K s (JOut 1 x) = Ok (s (JOut 1 x)) /\ (s (JOut 1 x) == over_time K (plant_power K s 0 x))%Q).
  { intros x Lx. split.
    - unfold value. cbn [declared]. assert (N : 1 <? nodes K = true). { apply Nat.ltb_lt. unfold nodes in *. rewrite EE, F3. destruct LN as (_ & P). unfold EnergyTreeProofs.nodes. cbn. lia. } rewrite N, V. rewrite (proj2 (Nat.ltb_lt _ _) Lx). reflexivity.
    - destruct A as (_ & _ & _ & _ & L). unfold links in L. rewrite NW in L. destruct (Nat.eqb_spec (Power.n_hyd (network K)) 0); [lia|]. rewrite family_iff in L. specialize (L (0, x)). cbn [fst snd] in L.
      replace 1 with (q_first K + 0) by (rewrite EF, F1; reflexivity). apply JointEnergy.energy_link_holds. apply L. apply in_prod; apply in_seq; [rewrite EN, F2; destruct LN; lia|lia]. }
  split.
  - intros x Lx. destruct (B x Lx) as (B1 & B2). exists (s (JOut 1 x)). split; [|exact B2]. unfold get_hydro. cbn [Nat.eqb Nat.sub]. now rewrite Nat.sub_0_r.
  - destruct (add_all_ok (fun x => value K s (JOut 1 x)) (fun x => over_time K (plant_power K s 0 x)) (seq 0 (vectors K))) as (r & E & S); [intros x Ix; apply in_seq in Ix; destruct (B x ltac:(lia)) as (B1 & B2); eexists; split; eassumption|].
    exists r. split; [exact E|]. rewrite S, V. reflexivity.
Qed.
Print Assumptions C213_surplus_partial.
(** In trees with more levels they report a node without network, and what is generated is not reported. *)
Theorem C213_levels_refuted : exists cf pow53 root pow23 J K inputs v s f o r g, ready cf pow53 root pow23 J K /\ answer J K inputs v s /\ askable K f o /\ j_water J = None /\ all_hydro K s = Ok r /\ all_generation K f s Plants o = Ok g /\ (r == 0 /\ 0 < g)%Q.
Proof.
  exists PowerExamples.no_cf, HydroExamples.p53, HydroExamples.rt, HydroExamples.p23, seasons, (model_of seasons), seasons_in, (states_of seasons_states), seasons_answer, season_weights, everything. do 2 eexists.
  split; [apply ready_start; exact (proj1 seasons_checked)|]. split; [exact (proj2 seasons_checked)|]. split; [vm_compute; sp; repeat constructor|]. split; [reflexivity|]. split; [vm_compute; reflexivity|]. split; [vm_compute; reflexivity|]. split; vm_compute; reflexivity.
Qed.
Print Assumptions C213_levels_refuted.

Example C213_witness : start heavy = Ok (model_of heavy) /\ answer heavy (model_of heavy) [[0]; [2]]%Q (states_of [[(0, 0); (0, 0)]]%Q) heavy_answer /\ j_water heavy = None /\ (exists l, j_data heavy = [l] /\ JointTree.level_named l) /\ 0 < Power.n_hyd (network (model_of heavy)).
Proof. split; [exact (proj1 heavy_checked)|]. split; [exact (proj2 heavy_checked)|]. split; [reflexivity|]. split; [eexists; split; [reflexivity|vm_compute; split; [reflexivity|repeat constructor]]|vm_compute; repeat constructor]. Qed.
