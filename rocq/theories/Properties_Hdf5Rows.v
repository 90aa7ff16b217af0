(** Property C343: the tables that the HDF5 writer saves for a model solved by pyomo (Hdf5Rows.v). *)
From Coq Require Import List Bool Arith ZArith QArith Lia Lqa.
From Verif Require Import Base GraphData GraphDataProofs Cases CasesProofs Network InputOutput InputOutputProofs ConverterOpen HydroSpec HydroTables Linear LinearProofs Devices
  Joint JointSpec JointExamples Reports ReportsSpec ReportsProofs ReportsTotals ReportsCost ReportsExamples Hdf5Rows.
From Verif Require Power PowerSpec PowerExamples HydroExamples Properties_Reports.
Import ListNotations.
Open Scope nat_scope.
Open Scope list_scope.

Local Notation network K := (q_power K) (only parsing).
Local Notation net s := (fun x => s (JNet x)) (only parsing).

(* ------------------------------------------------------------------ *)
(** ** C343 *)
Lemma groups_add K f s o g : all_generation K f s AllUnits o = Ok g ->
  exists a b c, all_generation K f s Machines o = Ok a /\ all_generation K f s Plants o = Ok b /\ all_generation K f s Farms o = Ok c /\ (g == a + b + c)%Q.
Proof.
  unfold all_generation, numbers_of, Power.n_gen. rewrite !seq_app. cbn [Nat.add]. intros E. apply add_all_app in E as (x & c & E & Ec & R). apply add_all_app in E as (a & b & Ea & Eb & R'). exists a, b, c. repeat (split; [assumption|]). rewrite R, R'. reflexivity.
Qed.
Lemma step_askable K f h t : h < q_number K -> t < Power.w_time (network K) -> askable K f (at_step h t).
Proof. intros Lh Lt. split; [|split; [|discriminate]]; repeat constructor; assumption. Qed.
Lemma step_energy K f h t g : (energy K f (at_step h t) g == Power.w_base (network K) * g h t)%Q.
Proof. unfold energy, expected, scen_share, step_share, scens, steps, at_step, qsum. cbn. ring. Qed.

(** Without a model of losses, with a network and an instance of it for each scenario: there is a table for each scenario with a row for each time step, and each row
    balances: thermal, hydro and renewable generation and curtailment are the demand, with the factor for losses, pumping and
    the fixed losses of the lines, of which the column of losses says nothing.  Spill is not negative. *)
Theorem C343_rows_partial : forall cf pow53 root pow23 J K inputs v s f, ready cf pow53 root pow23 J K -> answer J K inputs v s ->
  Power.w_flag (network K) = true -> Power.w_secflag (network K) = false -> Power.w_feas (network K) = true -> Power.w_nodem (network K) <> 0 -> typed (Power.n_bus (network K)) (j_types J) -> apart (network K) ->
  Power.w_losses (network K) = false -> Power.w_scen (network K) <= q_number K -> (0 <= Power.w_base (network K))%Q ->
  exists tabs, save_tables J K f s = Ok tabs /\ List.length tabs = Power.w_scen (network K) /\
    forall h, h < Power.w_scen (network K) -> exists rows, nth_error tabs h = Some rows /\ List.length rows = Power.w_time (network K) /\
      forall t, t < Power.w_time (network K) -> exists r, nth_error rows t = Some r /\ sr_time r = t /\ sr_loss r = 0%Q /\ (0 <= sr_spill r)%Q /\
        (sr_generation r + sr_hydropower r + sr_res r + sr_curtailment r ==
         PowerSpec.load_factor (network K) * sr_demand r + sr_pump r + Power.w_base (network K) * below (Power.n_bra (network K)) (PowerSpec.branch_loss (network K) (net s) h t 0))%Q.
Proof.
  intros cf pow53 root pow23 J K inputs v s f R A F S Fe N T Ap L Sc B.
  assert (G : forall h t, h < Power.w_scen (network K) -> t < Power.w_time (network K) -> exists r, save_row J K f s h t = Ok r /\ sr_time r = t /\ sr_loss r = 0%Q /\ (0 <= sr_spill r)%Q /\
        (sr_generation r + sr_hydropower r + sr_res r + sr_curtailment r ==
         PowerSpec.load_factor (network K) * sr_demand r + sr_pump r + Power.w_base (network K) * below (Power.n_bra (network K)) (PowerSpec.branch_loss (network K) (net s) h t 0))%Q).
  { intros h t Lh Lt. pose proof (step_askable K f h t (Nat.lt_le_trans _ _ _ Lh Sc) Lt) as OK.
    destruct (Properties_Reports.C199_network_partial cf pow53 root pow23 J K inputs v s f _ R A OK F S Fe N T Ap) as (g & d & p & c & Eg & Ed & Ep & Ec & Bal).
    destruct (Properties_Reports.C201_spilled cf pow53 root pow23 J K inputs v s f _ R A OK) as (x & g' & q & Ex & _ & _ & _ & Pos).
    apply groups_add in Eg as (a & b & e & Ea & Eb & Ee & Rg). rewrite step_energy in Bal.
    unfold save_row. rewrite Ea. cbn [rbind]. rewrite Eb. cbn [rbind]. rewrite Ee. cbn [rbind]. rewrite Ex. cbn [rbind]. rewrite Ed. cbn [rbind]. rewrite Ep. cbn [rbind]. unfold all_loss. rewrite L. cbn [rbind]. rewrite Ec. cbn [rbind].
    eexists. split; [reflexivity|]. cbn [sr_time sr_loss sr_spill sr_generation sr_hydropower sr_res sr_curtailment sr_demand sr_pump]. split; [reflexivity|]. split; [reflexivity|]. split.
    - apply Pos; [exact B|]. intros h' t' _ _. unfold scen_share, step_share. cbn. split; discriminate.
    - rewrite <- Rg. exact Bal. }
  assert (Q : forall h, h < Power.w_scen (network K) -> exists rows, mapM (save_row J K f s h) (seq 0 (Power.w_time (network K))) = Ok rows).
  { intros h Lh. apply mapM_total. intros t It. apply in_seq in It. destruct (G h t Lh ltac:(lia)) as (r & E & _). eauto. }
  destruct (mapM_total (fun xs => mapM (save_row J K f s xs) (seq 0 (Power.w_time (network K)))) (seq 0 (Power.w_scen (network K)))) as (tabs & E); [intros h Ih; apply in_seq in Ih; apply Q; lia|].
  exists tabs. split; [exact E|]. destruct (mapM_nth _ _ _ E) as (Lt & Nt). split; [now rewrite seq_length in Lt|]. intros h Lh.
  assert (Is : forall n i, i < n -> nth_error (seq 0 n) i = Some i). { intros n i Li. rewrite (nth_error_nth' _ 0) by (now rewrite seq_length). now rewrite seq_nth. }
  destruct (Nt h h (Is _ _ Lh)) as (rows & Nr & Er). exists rows. split; [exact Nr|]. destruct (mapM_nth _ _ _ Er) as (Lr & Nrow). split; [now rewrite seq_length in Lr|]. intros t Lt'.
  destruct (Nrow t t (Is _ _ Lt')) as (r & N1 & E1). destruct (G h t Lh Lt') as (r' & E2 & P). rewrite E1 in E2. inversion E2; subst r'. eauto.
Qed.
Print Assumptions C343_rows_partial.

(** Refuted with losses: where losses are modelled and there is a line, a scenario and a time step, no tables are saved. *)
Theorem C343_losses_refuted : forall J K f s, Power.w_losses (network K) = true -> 0 < Power.n_bra (network K) -> 0 < Power.w_scen (network K) -> 0 < Power.w_time (network K) ->
  forall tabs, save_tables J K f s <> Ok tabs.
Proof.
  intros J K f s L B N T tabs E. apply mapM_nth in E as (_ & Nt). destruct (Nt 0 0) as (rows & _ & E); [destruct (Power.w_scen (network K)); [lia|reflexivity]|]. apply mapM_nth in E as (_ & Nr). destruct (Nr 0 0) as (r & _ & E); [destruct (Power.w_time (network K)); [lia|reflexivity]|].
  unfold save_row in E. do 6 (apply bind_inv in E as (? & _ & E)). apply bind_inv in E as (l & El & _). destruct (Properties_Reports.C203_losses K f s (at_step 0 0)) as (_ & (H & _) & _). destruct H as [H|H]; [eauto|congruence|lia].
Qed.
Print Assumptions C343_losses_refuted.

Example C343_witness : ready PowerExamples.no_cf HydroExamples.p53 HydroExamples.rt HydroExamples.p23 isle isle_model /\ answer isle isle_model isle_in (states_of isle_states) isle_answer /\
  Power.w_flag (network isle_model) = true /\ Power.w_secflag (network isle_model) = false /\ Power.w_feas (network isle_model) = true /\ typed (Power.n_bus (network isle_model)) (j_types isle) /\ apart (network isle_model) /\
  Power.w_losses (network isle_model) = false /\ Power.w_nodem (network isle_model) = 2 /\ Power.w_scen (network isle_model) = 2 /\ q_number isle_model = 2 /\
  match save_tables isle isle_model [] isle_answer with
  | Ok tabs => map (map (fun r => (Qred (sr_hydropower r), Qred (sr_res r), Qred (sr_curtailment r), Qred (sr_demand r), Qred (sr_pump r)))) tabs =
      [[(30, 10, 0, 30, 10); (10, 10, 10, 30, 0)]; [(0, 30, 0, 30, 0); (20, 40, 0, 60, 0)]]%Q
  | Err _ => False
  end.
Proof.
  split; [exact isle_ready|]. split; [exact isle_checked|]. split; [vm_compute; reflexivity|]. split; [vm_compute; reflexivity|]. split; [vm_compute; reflexivity|]. split; [exact Properties_Reports.isle_typed|]. split; [exact Properties_Reports.isle_apart|]. repeat match goal with |- _ /\ _ => split end; vm_compute; reflexivity.
Qed.
