(** The objective of the joint model. *)
From Coq Require Import List Bool Arith ZArith QArith Lia Lqa.
From Verif Require Import Base GraphData GraphDataProofs Cases CasesProofs ConverterOpen HydroTables HydroLimits ScreeningProofs Linear LinearProofs EnergyTree EnergyTreeSpec EnergyTreeProofs EnergyTreeSoC Joint JointTree JointSpec JointEnergy.
From Verif Require Power PowerSpec PowerTables PowerUnits Hydro HydroSpec.
Import ListNotations.
Open Scope nat_scope.
Open Scope list_scope.

Local Ltac sp := repeat match goal with |- _ /\ _ => split end.

Section Cost.
Variable cf : list Q -> nat -> res (list Q).
Variables (pow53 root pow23 : Q -> Q).
Notation initialise := (initialise cf pow53 root pow23).

Lemma network_counts J K : initialise J = Ok K -> Power.w_noh (q_power K) = q_number K /\ Power.w_weights (q_power K) = Power.w_weights (j_power J) /\ Power.w_machines (q_power K) = Power.w_machines (j_power J) /\ Power.w_farms (q_power K) = Power.w_farms (j_power J) /\
  Power.m_weights (q_model K) = match Power.w_weights (j_power J) with Some l => l | None => repeat 1%Q (Power.w_time (q_power K)) end.
Proof.
  intros E. destruct (initialise_energy cf pow53 root pow23 J K E) as (_ & _ & N & M & _). destruct (PowerTables.initialise_inv cf _ _ M) as (gs & _ & _ & _ & _ & _ & _ & _ & _ & _ & _ & _ & _ & _ & _ & _ & EW & _). rewrite EW. unfold network_of in N. apply bind_inv in N as (dm & _ & N). injection N as N. rewrite <- N. cbn. sp; auto.
Qed.

Lemma step_weights J K t : initialise J = Ok K -> t < Power.w_time (q_power K) -> (0 < step_weight K t)%Q -> PowerSpec.weight (q_power K) t (step_weight K t).
Proof.
  intros E Lt P. destruct (network_counts J K E) as (_ & Ww & _ & _ & Wm). unfold PowerSpec.weight, step_weight in *. rewrite Ww. rewrite Wm in *. destruct (Power.w_weights (j_power J)) as [l|].
  - destruct (nth_error l t) as [q|] eqn:N; [now rewrite (nth_error_nth _ _ _ N)|]. apply nth_error_None in N. rewrite nth_overflow in P by auto. lra.
  - rewrite (nth_error_nth _ _ 0%Q (nth_repeat 1%Q _ _ Lt)). reflexivity.
Qed.

(** One scenario. *)
Lemma scenario_cost J K inputs v s h : initialise J = Ok K -> answer J K inputs v s -> Power.w_machines (j_power J) = [] -> (0 <= j_penalty J)%Q -> (forall t, t < Power.w_time (q_power K) -> (0 < step_weight K t)%Q) -> h < q_number K ->
  let W := q_power K in let M := q_model K in let w t := nth t (Power.m_weights M) 0%Q in
  (costs K s 2 h <= qsum (map (fun t => (qsum (map (fun g => s (JNet (Power.NGCost (Power.con_gen W h + g) t))) (seq 0 (Power.n_gen W)))
                            + qsum (map (fun i => s (JNet (Power.NFea (Power.con_fea M h + i) t))) (seq 0 (Power.m_nofea M))) * j_penalty J) * w t) (times K)))%Q.
Proof.
  intros E (_ & _ & A & _) NC PP PW Lh W M w. destruct (network_counts J K E) as (Wn & _ & Wc & _ & _). destruct (initialise_energy cf pow53 root pow23 J K E) as (_ & _ & _ & PI & _). unfold costs, sumf, times. fold W. apply qsum_le. intros t It. apply in_seq in It. destruct It as [_ Lt]. cbn in Lt. specialize (PW t Lt). pose proof (step_weights J K t E Lt PW) as Ww. unfold w. change (nth t (Power.m_weights M) 0%Q) with (step_weight K t). set (k := step_weight K t) in *.
  assert (N0 : Power.n_conv W = 0) by (unfold Power.n_conv, W; now rewrite Wc, NC).
  assert (Y : (k * fold_right Qplus 0 (map (fun g => nth g (unit_costs K) 0 * gen_power K s h g t) (seq 0 (Power.n_gen W))) <= qsum (map (fun g => s (JNet (Power.NGCost (Power.con_gen W h + g) t))) (seq 0 (Power.n_gen W))))%Q).
  { change (fold_right Qplus 0 (map (fun g => nth g (unit_costs K) 0 * gen_power K s h g t) (seq 0 (Power.n_gen W))))%Q with (HydroSpec.below (Power.n_gen W) (fun g => nth g (unit_costs K) 0 * gen_power K s h g t)%Q). rewrite <- (below_mul (Power.n_gen W) k). unfold HydroSpec.below. apply qsum_le. intros g Ig. apply in_seq in Ig.
    assert (Lk : g < List.length (unit_costs K)) by (unfold unit_costs; rewrite app_length, !map_length; fold W; unfold Power.n_gen, Power.n_hyd, Power.n_ren in Ig; lia). destruct (nth_error (unit_costs K) g) as [c|] eqn:Nc; [|apply nth_error_None in Nc; lia]. rewrite (nth_error_nth _ _ _ Nc).
    pose proof (PowerUnits.linear_cost cf W M (fun x => s (JNet x)) PI A t g h k c Lt ltac:(unfold W; lia) Ww PW ltac:(lia)) as X. unfold PowerSpec.power_of, PowerSpec.output, PowerSpec.cost_of in X. unfold gen_power, base. fold W. rewrite (Qmult_comm (Power.w_base W)). apply X. rewrite N0, Nat.sub_0_r. exact Nc. }
  assert (Z : (0 <= qsum (map (fun f => s (JNet (Power.NFea (Power.con_fea M h + f) t))) (seq 0 (Power.m_nofea M))))%Q). { apply qsum_nonneg. apply Forall_forall. intros q Iq. apply in_map_iff in Iq as (f & <- & If). apply in_seq in If. apply (proj2 (PowerTables.answer_rules _ _ _ A) (Power.NFea (Power.con_fea M h + f) t)). cbn [Power.declared]. apply andb_true_intro. split; apply Nat.ltb_lt; [unfold Power.con_fea; unfold M, W in *; rewrite Wn; nia|exact Lt]. }
  revert Y Z. generalize (fold_right Qplus 0 (map (fun g => nth g (unit_costs K) 0 * gen_power K s h g t) (seq 0 (Power.n_gen W))))%Q (qsum (map (fun g => s (JNet (Power.NGCost (Power.con_gen W h + g) t))) (seq 0 (Power.n_gen W)))) (qsum (map (fun f => s (JNet (Power.NFea (Power.con_fea M h + f) t))) (seq 0 (Power.m_nofea M)))).
  intros y n z Y Z. assert (EQ : (k ^ 2 * y == (k * y) * k)%Q) by ring. rewrite EQ. apply Qmult_le_compat_r; [|lra]. pose proof (Qmult_le_0_compat _ _ Z PP). lra.
Qed.

Lemma scenario_income K s h : (income K s h == qsum (map (fun ip => Power.pu_value (snd ip) * base K * qsum (map (fun t => s (JNet (Power.NPump (Power.con_pump (q_power K) h + fst ip + 1) t)) * nth t (Power.m_weights (q_model K)) 0) (times K)))
           (combine (seq 0 (Power.n_pump (q_power K))) (Power.w_pumps (q_power K)))))%Q.
Proof.
  unfold Power.n_pump. rewrite (combine_seq (Power.mkPump 0 0 0)), map_map. unfold income, sumf, Power.n_pump. cbn [fst snd].
  change (HydroSpec.below (List.length (Power.w_pumps (q_power K))) (fun p => nth p (map Power.pu_value (Power.w_pumps (q_power K))) 0 * over_time K (pump_power K s h p))%Q == HydroSpec.below (List.length (Power.w_pumps (q_power K))) (fun x => Power.pu_value (nth x (Power.w_pumps (q_power K)) (Power.mkPump 0 0 0)) * base K * qsum (map (fun t => s (JNet (Power.NPump (Power.con_pump (q_power K) h + x + 1) t)) * nth t (Power.m_weights (q_model K)) 0) (times K)))%Q)%Q.
  apply below_ext. intros p Lp. rewrite (nth_indep _ 0%Q (Power.pu_value (Power.mkPump 0 0 0))) by now rewrite map_length. rewrite map_nth, <- Qmult_assoc. apply Qmult_comp; [reflexivity|]. unfold over_time, sumf, times.
  change (HydroSpec.below (Power.w_time (q_power K)) (fun t => step_weight K t * pump_power K s h p t)%Q == base K * HydroSpec.below (Power.w_time (q_power K)) (fun t => s (JNet (Power.NPump (Power.con_pump (q_power K) h + p + 1) t)) * nth t (Power.m_weights (q_model K)) 0)%Q)%Q.
  rewrite <- below_mul. apply below_ext. intros t Lt. unfold pump_power, step_weight, Power.con_pump. ring.
Qed.

Lemma objective_bound J K inputs v s f : initialise J = Ok K -> answer J K inputs v s -> Power.w_machines (j_power J) = [] -> (0 <= j_penalty J)%Q -> (forall t, t < Power.w_time (q_power K) -> (0 < step_weight K t)%Q) -> (forall h, h < q_number K -> (0 <= nth h f 0)%Q) ->
  (sumf (fun h => nth h f 0 * (costs K s 2 h - income K s h)) (q_number K) + s (JWater Hydro.HPenalty) <= objective J K f s)%Q.
Proof.
  intros E A NC PP PW Pf. unfold objective. apply Qplus_le_compat; [|apply Qle_refl]. unfold sumf. apply qsum_le. intros h Ih. apply in_seq in Ih. destruct Ih as [_ Lh]. cbn in Lh. pose proof (scenario_cost J K inputs v s h E A NC PP PW Lh) as X. cbv zeta in X. rewrite <- (scenario_income K s h). rewrite (Qmult_comm (nth h f 0%Q)). apply Qmult_le_compat_r; [|now apply Pf]. unfold Qminus. apply Qplus_le_compat; [exact X|apply Qle_refl].
Qed.
End Cost.
