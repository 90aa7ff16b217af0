(** Properties C162 to C184: the electricity network engine (pyeneD.py and pyeneN.py). *)
From Coq Require Import List Bool Arith ZArith QArith Qabs Qround Lia Lqa.
From Verif Require Import Base ReaderProofs GraphData GraphDataProofs Cases CasesProofs Network InputOutput InputOutputProofs ConverterOpen HydroSpec HydroTables HydroNet HydroLimits ScreeningProofs Linear LinearProofs Devices Power PowerSpec DevicesProofs FleetProofs PowerTables PowerBalance PowerLimits PowerUnits PowerBuilt PowerExamples.
Import ListNotations.
Open Scope nat_scope.
Open Scope list_scope.
Local Ltac sp := repeat match goal with |- _ /\ _ => split end.

(* ------------------------------------------------------------------ *)
(** ** C162 *)

(** A bus has the branches that leave it, those that arrive at it and its generators, in order. *)
Theorem C162_buses : forall cf W M n, initialise cf W = Ok M -> n < n_bus W ->
  nth_error (g_from (m_grid M)) n = Some (filter (fun i => first_at (numbers W) (nth i (froms W) 0) n) (seq 0 (n_bra W)))
  /\ nth_error (g_to (m_grid M)) n = Some (filter (fun i => first_at (numbers W) (nth i (tos W) 0) n) (seq 0 (n_bra W)))
  /\ nth_error (fl_at (m_fleet M)) n = Some (filter (fun i => first_at (numbers W) (nth i (gen_buses W) 0) n) (seq 0 (n_gen W))).
Proof.
  intros cf W M n I Ln. pose proof (fleet_placed cf W M I) as (_ & P). destruct (initialise_inv _ _ _ I) as (gs & _ & G & _). pose proof (build_grid_cases (numbers W) (w_branches W) (w_secflag W) (w_security W)) as B. rewrite G in B. destruct B as (_ & _ & (_ & F) & (_ & T) & _).
  assert (L : n < List.length (numbers W)) by (unfold numbers; now rewrite map_length). sp; [now apply F|now apply T|now apply P].
Qed.
Print Assumptions C162_buses.
(** Branches and generators at unknown buses are refused. *)
Theorem C162_unknown : forall cf W b, In b (froms W ++ tos W ++ gen_buses W) -> ~ In b (numbers W) -> exists e, initialise cf W = Err e.
Proof.
  intros cf W b Ib NI. destruct (initialise cf W) as [M|e] eqn:I; [exfalso|eauto]. apply NI. pose proof (ends_known _ _ _ I) as (F & T). pose proof (gen_buses_known _ _ _ I) as G. rewrite Forall_forall in F, T, G. rewrite !in_app_iff in Ib. destruct Ib as [X|[X|X]]; auto.
Qed.
Print Assumptions C162_unknown.

Example C162_witness : exists M, initialise no_cf (ring true [1]) = Ok M /\ g_from (m_grid M) = [[0; 2]; [1]; []] /\ g_to (m_grid M) = [[]; [0]; [1; 2]] /\ fl_at (m_fleet M) = [[0]; []; []].
Proof. exists (model_of (ring true [1])). vm_compute. auto. Qed.

(* ------------------------------------------------------------------ *)
(** ** C163 *)

(** Security cases: the tripped branch has no flow, and the flows of all cases are numbered without gaps or clashes. *)
Theorem C163_cases : forall cf W M, initialise cf W = Ok M -> w_secflag W = false ->
  let n := n_bra W in let sec := w_security W in
  (forall xs b, xs <= List.length sec -> b < n -> exists o, flow_no (m_grid M) xs b = Ok o /\ (o = None <-> exists k, xs = S k /\ nth_error sec k = Some (S b)) /\ (forall i, o = Some i -> i < n + (n - 1) * List.length sec) /\ (xs = 0 -> o = Some b))
  /\ (forall xs b xs' b' i, xs <= List.length sec -> xs' <= List.length sec -> b < n -> b' < n -> flow_no (m_grid M) xs b = Ok (Some i) -> flow_no (m_grid M) xs' b' = Ok (Some i) -> xs = xs' /\ b = b')
  /\ (forall i, i < n + (n - 1) * List.length sec -> exists xs b, xs <= List.length sec /\ b < n /\ flow_no (m_grid M) xs b = Ok (Some i)).
Proof.
  intros cf W M I NF n sec. pose proof (secs_valid _ _ _ I NF) as V. fold n sec in V. assert (FN : forall xs b, xs <= List.length sec -> b < n -> flow_no (m_grid M) xs b = Ok (flow_index n sec xs b)) by exact (flow_no_ok _ _ _ I NF). sp.
  - intros xs b Lx Lb. eexists. split; [now apply FN|]. sp.
    + unfold flow_index. destruct xs as [|k]; [split; [discriminate|intros (k & H & _); discriminate]|]. destruct (nth_error sec k) as [x|] eqn:N; [|apply nth_error_None in N; lia]. destruct (Nat.eqb_spec (S b) x) as [E|E].
      * split; [|reflexivity]. intros _. exists k. subst x. auto.
      * split; [discriminate|]. intros (k' & K & N'). injection K as <-. congruence.
    + intros i. now apply flow_index_lt.
    + intros ->. reflexivity.
  - intros xs b xs' b' i Lx Lx' Lb Lb' E E'. rewrite FN in E, E' by auto. injection E as E. injection E' as E'. eapply flow_index_inj; eauto.
  - intros i Li. destruct (flow_index_onto n sec i V Li) as (xs & b & Lx & Lb & E). exists xs, b. rewrite FN, E by auto. auto.
Qed.
Print Assumptions C163_cases.
(** Cases of branches that do not exist are refused. *)
Theorem C163_unknown : forall cf W x, w_secflag W = false -> In x (w_security W) -> ~ 1 <= x <= n_bra W -> exists e, initialise cf W = Err e.
Proof.
  intros cf W x NF Ix NX. destruct (initialise cf W) as [M|e] eqn:I; [exfalso|eauto]. apply NX. pose proof (secs_valid _ _ _ I NF) as V. unfold branch_numbers in V. rewrite Forall_forall in V. now apply V.
Qed.
Print Assumptions C163_unknown.

Example C163_witness : exists M, initialise no_cf (ring true [1; 3]) = Ok M /\ g_n1 (m_grid M) = [[Some 0; Some 1; Some 2]; [None; Some 3; Some 4]; [Some 5; Some 6; None]] /\ initialise no_cf (ring true [4]) = Err IndexError.
Proof. exists (model_of (ring true [1; 3])). vm_compute. auto. Qed.

(* ------------------------------------------------------------------ *)
(** ** C164 *)

(** In every security case, generation, flows, half of the losses of the branches, curtailment and pump balance the load of
    the bus. *)
Theorem C164_bus_balance : forall cf W M s, initialise cf W = Ok M -> answer W M s -> w_flag W = true -> w_secflag W = false ->
  forall n t xs h, n < n_bus W -> t < w_time W -> xs <= List.length (w_security W) -> h < w_noh W -> exists q, load_at W n t h q /\ balanced W s h t xs n q.
Proof. intros cf W M s I A FL NF. exact (bus_balance cf W M s I A NF FL). Qed.
Print Assumptions C164_bus_balance.
(** Without links, scenario [h] takes the profile [h] of the demand. *)
Theorem C164_default_profile : forall W n t h q, w_links W = None -> 0 < w_nodem W -> n < n_bus W -> h < w_scen W -> load_at W n t h q ->
  exists b d, nth_error (w_buses W) n = Some b /\ nth_error (w_demand W) (h * w_time W + t) = Some d /\ (q == (b_loss b + b_pd b) / w_base W * d)%Q.
Proof.
  intros W n t h q L P Ln Lh (b & d & Nb & PA & E). exists b, d. sp; auto. unfold profile_at in PA. destruct (Nat.eqb_spec (w_nodem W) 0); [lia|]. rewrite L in PA. destruct PA as (l & Nl & PI).
  assert (X : nth_error (flat_map (fun h => repeat (S h) (n_bus W)) (seq 0 (w_scen W))) (h * n_bus W + n) = Some (S h)).
  { clear - Lh Ln. generalize (n_bus W) Ln. clear Ln. intros w Ln. assert (G : forall k j h, h < k -> nth_error (flat_map (fun h => repeat (S h) w) (seq j k)) (h * w + n) = Some (S (j + h))).
    { induction k as [|k IH]; intros j h' L'; [lia|]. cbn [seq flat_map]. destruct h' as [|h'].
      - rewrite nth_error_app1 by (rewrite repeat_length; lia). rewrite Nat.mul_0_l, Nat.add_0_l, Nat.add_0_r. now apply HydroTables.nth_repeat.
      - rewrite nth_error_app2 by (rewrite repeat_length; nia). rewrite repeat_length. replace (S h' * w + n - w) with (h' * w + n) by nia. rewrite IH by lia. f_equal. lia. }
    now rewrite G. }
  rewrite X in Nl. injection Nl as <-. replace ((Z.of_nat (S h) - 1) * Z.of_nat (w_time W) + Z.of_nat t)%Z with (Z.of_nat (h * w_time W + t)) in PI by nia. rewrite py_index_nat in PI. now apply at_nth.
Qed.
Print Assumptions C164_default_profile.

Example C164_witness : let W := ring true [1] in let M := model_of W in initialise no_cf W = Ok M /\ answer W M ring_answer /\ w_flag W = true /\ w_secflag W = false /\ 2 < n_bus W /\ 1 <= List.length (w_security W)
  /\ load_at W 2 0 0 (5 # 2) /\ (flow W ring_answer 0 0 1 2 == 3)%Q /\ (lost W ring_answer 0 0 2 == 1)%Q.
Proof. destruct ring_checked as (A & B). cbv zeta. sp; auto; try (vm_compute; reflexivity); try (vm_compute; lia). exists (mkBus 30 0 (5 # 2)), 1%Q. sp; [reflexivity|exists 1; split; reflexivity|reflexivity]. Qed.

(* ------------------------------------------------------------------ *)
(** ** C165 *)

(** Generation and curtailment equal loads, pumps and losses of branches: each pump at its own bus. *)
Theorem C165_network_partial : forall cf W M s, initialise cf W = Ok M -> answer W M s -> w_flag W = true -> w_secflag W = false ->
  forall t xs h, t < w_time W -> xs <= List.length (w_security W) -> h < w_noh W -> exists q, (forall n, n < n_bus W -> load_at W n t h (q n))
  /\ (below (n_gen W) (output W s h t) + below (n_bus W) (curtailed W s h t) == load_factor W * below (n_bus W) q + below (n_bus W) (pumped W s h t) + below (n_bra W) (branch_loss W s h t xs))%Q.
Proof. intros cf W M s I A FL NF. exact (total_balance cf W M s I A NF FL). Qed.
Print Assumptions C165_network_partial.
(** Without network. *)
Theorem C165_no_network : forall cf W M s, initialise cf W = Ok M -> answer W M s -> w_flag W = false ->
  forall t h, t < w_time W -> h < w_noh W -> exists q, (forall n, n < n_bus W -> load_at W n t h (q n))
  /\ (below (n_gen W) (output W s h t) + (if w_feas W then s (NFea h t) else 0) == load_factor W * below (n_bus W) q + below (n_pump W) (pump_power W s h t))%Q.
Proof. intros cf W M s I A FL. exact (one_bus_balance cf W M s I A FL). Qed.
Print Assumptions C165_no_network.
(** Two pumps at a bus: the first one takes nothing from the network. *)
Definition two_pumps : power := pair_ 0 10 true true true [0; 5]%Q [mkPump 2 1 7; mkPump 2 1 0].
Definition two_pumps_answer : var -> Q := assign [(NGen 0 0, 1); (NGCost 0 0, 1); (NFlow 0 0, 1); (NVolt 0 0, 1); (NPump 1 0, 1)]%Q.
Theorem C165_pumps_refuted : exists cf W M s q, initialise cf W = Ok M /\ answer W M s /\ w_flag W = true /\ w_secflag W = false /\ (forall n, n < n_bus W -> load_at W n 0 0 (q n))
  /\ (below (n_bus W) (curtailed W s 0 0) == 0)%Q /\ (below (n_gen W) (output W s 0 0) < load_factor W * below (n_bus W) q + below (n_pump W) (pump_power W s 0 0))%Q.
Proof.
  exists no_cf, two_pumps, (model_of two_pumps), two_pumps_answer, (fun n => if n =? 0 then 0%Q else 1%Q). sp; [vm_compute; reflexivity|apply check_answer; vm_compute; reflexivity|reflexivity|reflexivity| |vm_compute; reflexivity|vm_compute; reflexivity].
  intros [|[|n]] L; [exists (mkBus 1 0 0), 1%Q|exists (mkBus 2 0 1), 1%Q|cbn in L; lia]; (sp; [reflexivity|exists 1; split; reflexivity|reflexivity]).
Qed.
Print Assumptions C165_pumps_refuted.

Definition spot_load : power := spot true false 2 [] plain_conv [] plain_hyd [hydro 1 1] [mkPump 1 1 0] [1; 2]%Q None.
Definition spot_answer : var -> Q := assign [(NGen 0 0, 1); (NGCost 0 0, 1); (NGen 0 1, 1); (NGCost 0 1, 1); (NFea 0 1, 3 # 2); (NPump 1 1, 1 # 2)]%Q.
Lemma spot_checked : initialise no_cf spot_load = Ok (model_of spot_load) /\ answer spot_load (model_of spot_load) spot_answer.
Proof. split; [vm_compute; reflexivity|]. apply check_answer. vm_compute. reflexivity. Qed.
Example C165_witness : initialise no_cf spot_load = Ok (model_of spot_load) /\ answer spot_load (model_of spot_load) spot_answer /\ w_flag spot_load = false /\ w_time spot_load = 2
  /\ initialise no_cf (ring true [1]) = Ok (model_of (ring true [1])) /\ answer (ring true [1]) (model_of (ring true [1])) ring_answer /\ w_flag (ring true [1]) = true /\ w_secflag (ring true [1]) = false.
Proof. destruct ring_checked as (A & B). destruct spot_checked. sp; auto. Qed.

(* ------------------------------------------------------------------ *)
(** ** C166 *)

(** With the flag that secures all branches there is no answer: the model cannot be built. *)
Theorem C166_flag_refuted : forall cf W M, initialise cf W = Ok M -> w_flag W = true -> w_secflag W = true -> 0 < n_bra W -> 0 < w_noh W -> forall s, ~ answer W M s.
Proof. intros cf W M I FL SF Lb Lh s A. rewrite (security_flag_fails cf W M s I A FL Lb Lh) in SF. discriminate. Qed.
Print Assumptions C166_flag_refuted.
(** Nor with security cases when the losses are not estimated. *)
Theorem C166_fixed_losses_refuted : forall cf W M, initialise cf W = Ok M -> w_flag W = true -> w_secflag W = false -> w_losses W = false -> 2 <= n_bra W -> 0 < w_noh W -> w_security W <> [] -> forall s, ~ answer W M s.
Proof. intros cf W M I FL NF NL Lb Lh NE s A. apply NE. exact (fixed_losses_no_cases cf W M s I A NF FL NL Lh Lb). Qed.
Print Assumptions C166_fixed_losses_refuted.
Definition flagged : power :=
  mkPower 1 (w_buses (ring true [])) (w_branches (ring true [])) true true true true [] None None false 1 [] [0; 5]%Q plain_conv None [] plain_hyd [hydro 10 5] [] [None] [] [] 1 None 1 [1]%Q 1 None [] None None 1.

Example C166_witness : initialise no_cf flagged = Ok (model_of flagged) /\ w_secflag flagged = true /\ constraints flagged (model_of flagged) = Err KeyError
  /\ initialise no_cf (ring false [1]) = Ok (model_of (ring false [1])) /\ w_losses (ring false [1]) = false /\ constraints (ring false [1]) (model_of (ring false [1])) = Err IndexError.
Proof. vm_compute. sp; reflexivity. Qed.

(* ------------------------------------------------------------------ *)
(** ** C167 *)

(** Flow times reactance is the difference of the angles of the case, within the rate, for every branch in service. *)
Theorem C167_flows : forall cf W M s, initialise cf W = Ok M -> answer W M s -> w_flag W = true -> w_secflag W = false ->
  forall t b xs h br, t < w_time W -> nth_error (w_branches W) b = Some br -> xs <= List.length (w_security W) -> h < w_noh W -> (forall k, xs = S k -> nth_error (w_security W) k <> Some (S b)) ->
  (exists p q, first_at (numbers W) (br_from br) p = true /\ first_at (numbers W) (br_to br) q = true /\ ~ (br_x br == 0)%Q /\ (flow W s h t xs b * br_x br == angle W s h t xs p - angle W s h t xs q)%Q)
  /\ (Qabs (flow W s h t xs b) <= br_rate br / w_base W)%Q.
Proof.
  intros cf W M s I A FL NF t b xs h br Lt Nb Lx Lh NT. assert (X : exists i, flow_index (n_bra W) (w_security W) xs b = Some i).
  { unfold flow_index. destruct xs as [|k]; [eauto|]. destruct (nth_error (w_security W) k) as [x|] eqn:N; [|apply nth_error_None in N; lia]. destruct (Nat.eqb_spec (S b) x); [|eauto]. exfalso. apply (NT k eq_refl). congruence. }
  destruct X as (i & Fi). split; [exact (flow_law cf W M s I A NF FL t b xs h br i Lt Nb Lx Lh Fi)|]. apply Qabs_Qle_condition. apply (flow_limit cf W M s I A NF FL t b xs h br Lt Nb Lx Lh). congruence.
Qed.
Print Assumptions C167_flows.
(** A branch out of service carries power. *)
Theorem C167_status_refuted : exists cf W M s br, initialise cf W = Ok M /\ answer W M s /\ nth_error (w_branches W) 0 = Some br /\ br_status br = false /\ (0 < flow W s 0 0 0 0)%Q.
Proof.
  exists no_cf, (pair_ 0 10 false true true [0; 5]%Q []), (model_of (pair_ 0 10 false true true [0; 5]%Q [])), (assign [(NGen 0 0, 1); (NGCost 0 0, 1); (NFlow 0 0, 1); (NVolt 0 0, 1)]%Q). eexists. sp; [vm_compute; reflexivity|apply check_answer; vm_compute; reflexivity|reflexivity|reflexivity|vm_compute; reflexivity].
Qed.
Print Assumptions C167_status_refuted.

Example C167_witness : let W := ring true [1] in initialise no_cf W = Ok (model_of W) /\ answer W (model_of W) ring_answer /\ nth_error (w_branches W) 2 = Some (mkBranch 10 30 (1 # 10) 1 10 0 true) /\ (forall k, 1 = S k -> nth_error (w_security W) k <> Some 3) /\ (flow W ring_answer 0 0 1 2 == 3)%Q /\ (angle W ring_answer 0 0 1 0 == 3)%Q.
Proof. destruct ring_checked as (A & B). cbv zeta. sp; auto; try (vm_compute; reflexivity). intros k [= <-]. discriminate. Qed.

(* ------------------------------------------------------------------ *)
(** ** C168 *)

(** Between two neighbours of Loss_Param the losses are at least the quadratic ones. *)
Theorem C168_losses : forall cf W M s, initialise cf W = Ok M -> answer W M s -> w_flag W = true -> w_secflag W = false -> w_losses W = true ->
  forall t b h br l p q, t < w_time W -> nth_error (w_branches W) b = Some br -> h < w_noh W -> nth_error (w_points W) l = Some p -> nth_error (w_points W) (S l) = Some q -> (0 <= br_r br)%Q ->
  (p <= Qabs (flow W s h t 0 b) <= q)%Q -> (br_loss br / w_base W + br_r br * flow W s h t 0 b ^ 2 <= lost W s h t b)%Q.
Proof.
  intros cf W M s I A FL NF LS t b h br l p q Lt Nb Lh Np Nq Rp (B1 & B2). destruct (initialise_inv _ _ _ I) as (gs & _ & _ & _ & _ & CH & _). rewrite LS in CH. destruct (chords_nth _ _ CH l p q Np Nq) as (Nc & NZ). pose proof (losses_above cf W M s I A NF FL l t b h br _ LS Lt Nb Lh Nc) as (L1 & L2). cbn [fst snd] in L1, L2. set (f := flow W s h t 0 b) in *.
  assert (V : (p ^ 2 - p * ((q ^ 2 - p ^ 2) / (q - p)) + (q ^ 2 - p ^ 2) / (q - p) * Qabs f == Qabs f ^ 2 + (q - Qabs f) * (Qabs f - p))%Q) by now apply chord_value. assert (G : (0 <= (q - Qabs f) * (Qabs f - p))%Q) by (apply Qmult_le_0_compat; lra). assert (SQ : (Qabs f ^ 2 == f ^ 2)%Q) by (apply (Qabs_case f); intros _; ring).
  assert (X : (br_loss br / w_base W + br_r br * (p ^ 2 - p * ((q ^ 2 - p ^ 2) / (q - p)) + (q ^ 2 - p ^ 2) / (q - p) * Qabs f) <= lost W s h t b)%Q). { revert L1 L2. generalize ((q ^ 2 - p ^ 2) / (q - p))%Q. intros m L1 L2. apply (Qabs_case f (fun a => (br_loss br / w_base W + br_r br * (p ^ 2 - p * m + m * a) <= lost W s h t b)%Q)); intros _; [exact L1|]. assert (E : (p ^ 2 - p * m + m * - f == p ^ 2 - p * m - m * f)%Q) by ring. now rewrite E. }
  eapply Qle_trans; [|exact X]. rewrite V, SQ. apply Qplus_le_r. rewrite !(Qmult_comm (br_r br)). apply Qmult_le_compat_r; [lra|exact Rp].
Qed.
Print Assumptions C168_losses.
(** And no line asks for more than a quarter of the square of the distance above them. *)
Theorem C168_tight : forall pts cs, chords pts = Ok cs -> (forall i j a b, i < j -> nth_error pts i = Some a -> nth_error pts j = Some b -> (a < b)%Q) ->
  forall l p q c x, nth_error pts l = Some p -> nth_error pts (S l) = Some q -> (0 <= p)%Q -> (p <= x <= q)%Q -> In c cs -> (fst c + snd c * x <= x ^ 2 + (1 # 4) * (q - p) ^ 2)%Q.
Proof.
  intros pts cs CH ST l p q c x Np Nq P0 (B1 & B2) Ic. apply In_nth_error in Ic as (k & Nk). pose proof (chords_length _ _ CH) as L. assert (Lk : k < List.length cs) by (apply nth_error_Some; congruence).
  destruct (nth_error pts k) as [a|] eqn:Na; [|apply nth_error_None in Na; lia]. destruct (nth_error pts (S k)) as [b|] eqn:Nb; [|apply nth_error_None in Nb; lia]. destruct (chords_nth _ _ CH k a b Na Nb) as (Nc & NZ). rewrite Nc in Nk. injection Nk as <-. cbn [fst snd]. eapply Qle_trans; [apply Qle_lteq; right; now apply chord_value|]. apply Qplus_le_r.
  destruct (Nat.lt_trichotomy k l) as [C|[C|C]].
  - assert (b <= p)%Q. { destruct (Nat.eq_dec (S k) l) as [E|E]; [rewrite E in Nb; assert (b = p) by congruence; subst; lra|]. apply Qlt_le_weak, (ST (S k) l); auto. lia. } pose proof (ST k (S k) a b ltac:(lia) Na Nb). assert (0 <= (x - b) * (x - a))%Q by (apply Qmult_le_0_compat; lra). assert (0 <= (q - p) * (q - p))%Q by (apply Qmult_le_0_compat; lra). assert (E : ((q - p) ^ 2 == (q - p) * (q - p))%Q) by ring. rewrite E. lra.
  - subst k. assert (a = p) by congruence. assert (b = q) by congruence. subst. assert (0 <= (q - x - (x - p)) * (q - x - (x - p)))%Q by (destruct (Qlt_le_dec (q - x - (x - p)) 0); nra). nra.
  - assert (q <= a)%Q. { destruct (Nat.eq_dec (S l) k) as [E|E]; [rewrite <- E in Na; assert (a = q) by congruence; subst; lra|]. apply Qlt_le_weak, (ST (S l) k); auto. lia. } pose proof (ST k (S k) a b ltac:(lia) Na Nb). assert (0 <= (b - x) * (a - x))%Q by (apply Qmult_le_0_compat; lra). assert (0 <= (q - p) * (q - p))%Q by (apply Qmult_le_0_compat; lra). assert (E : ((q - p) ^ 2 == (q - p) * (q - p))%Q) by ring. rewrite E. lra.
Qed.
Print Assumptions C168_tight.
(** Beyond the last point the losses are understated. *)
Theorem C168_beyond_refuted : exists cf W M s br, initialise cf W = Ok M /\ answer W M s /\ w_flag W = true /\ w_losses W = true /\ nth_error (w_branches W) 0 = Some br /\ (flow W s 0 0 0 0 <= br_rate br / w_base W)%Q
  /\ (lost W s 0 0 0 < br_r br * flow W s 0 0 0 0 ^ 2)%Q.
Proof.
  exists no_cf, (pair_ 1 10 true true true [0; 1]%Q []), (model_of (pair_ 1 10 true true true [0; 1]%Q [])), (assign [(NGen 0 0, 3); (NGCost 0 0, 3); (NFlow 0 0, 2); (NVolt 0 0, 2); (NLoss 0 0, 2)]%Q). eexists. sp; [vm_compute; reflexivity|apply check_answer; vm_compute; reflexivity|reflexivity|reflexivity|reflexivity|vm_compute; discriminate|vm_compute; reflexivity].
Qed.
Print Assumptions C168_beyond_refuted.

Example C168_witness : let W := ring true [1] in initialise no_cf W = Ok (model_of W) /\ answer W (model_of W) ring_answer /\ w_losses W = true /\ nth_error (w_points W) 0 = Some 0%Q /\ nth_error (w_points W) 1 = Some 5%Q /\ (Qabs (flow W ring_answer 0 0 0 2) == 2)%Q /\ (lost W ring_answer 0 0 2 == 1)%Q
  /\ exists cs, chords [0; 1; 3]%Q = Ok cs /\ map Qred (map fst cs) = [0; -3]%Q /\ map Qred (map snd cs) = [1; 4]%Q.
Proof. destruct ring_checked as (A & B). cbv zeta. sp; auto; try (vm_compute; reflexivity). eexists. split; [reflexivity|]. vm_compute. auto. Qed.

(* ------------------------------------------------------------------ *)
(** ** C169 *)

(** Without network and without the flag, nothing is curtailed. *)
Theorem C169_no_network_partial : forall cf W M s, initialise cf W = Ok M -> answer W M s -> w_flag W = false -> w_feas W = false ->
  forall t h, t < w_time W -> h < w_noh W -> exists q, (forall n, n < n_bus W -> load_at W n t h (q n)) /\ (below (n_gen W) (output W s h t) == load_factor W * below (n_bus W) q + below (n_pump W) (pump_power W s h t))%Q.
Proof. intros cf W M s I A FL FE t h Lt Lh. destruct (one_bus_balance cf W M s I A FL t h Lt Lh) as (q & H & B). exists q. split; [exact H|]. unfold spilled in B. rewrite FE in B. rewrite <- B. ring. Qed.
Print Assumptions C169_no_network_partial.
(** With network the flag is ignored: all load may be curtailed. *)
Theorem C169_flag_refuted : exists cf W M s, initialise cf W = Ok M /\ answer W M s /\ w_feas W = false /\ load_at W 1 0 0 1 /\ (curtailed W s 0 0 1 == 1)%Q /\ (output W s 0 0 0 == 0)%Q.
Proof.
  exists no_cf, (pair_ 1 10 true true false [0; 1]%Q []), (model_of (pair_ 1 10 true true false [0; 1]%Q [])), (assign [(NFea 0 0, 1)]%Q). sp; [vm_compute; reflexivity|apply check_answer; vm_compute; reflexivity|reflexivity| |vm_compute; reflexivity|vm_compute; reflexivity].
  exists (mkBus 2 0 1), 1%Q. sp; [reflexivity|exists 1; split; reflexivity|reflexivity].
Qed.
Print Assumptions C169_flag_refuted.

Definition tight_spot (weights : option (list Q)) : power := spot false false 1 [] plain_conv [] plain_hyd [hydro 1 1] [] [1]%Q weights.
Definition tight_answer (k : Q) : var -> Q := assign [(NGen 0 0, 1); (NGCost 0 0, k)]%Q.
Example C169_witness : initialise no_cf (tight_spot None) = Ok (model_of (tight_spot None)) /\ answer (tight_spot None) (model_of (tight_spot None)) (tight_answer 1) /\ w_flag (tight_spot None) = false /\ w_feas (tight_spot None) = false.
Proof. sp; [vm_compute; reflexivity|apply check_answer; vm_compute; reflexivity|reflexivity|reflexivity]. Qed.

(* ------------------------------------------------------------------ *)
(** ** C170 *)

(** Output within the limits of the unit; of farms, within the profile. *)
Theorem C170_limits : forall cf W M s, initialise cf W = Ok M -> answer W M s -> (0 < w_base W)%Q -> forall t h, t < w_time W -> h < w_noh W ->
  (forall g, w_uc W = false -> w_cool W = None -> g < n_conv W + n_hyd W -> (0 <= output W s h t g <= top W g / w_base W)%Q /\ ((0 < top W g)%Q -> (low W g / w_base W <= output W s h t g)%Q))
  /\ (forall r f, nth_error (w_farms W) r = Some f -> exists q, farm_profile W r t h q /\ (0 <= output W s h t (n_conv W + n_hyd W + r) <= q * fa_max f)%Q).
Proof.
  intros cf W M s I A Pb t h Lt Lh. split.
  - intros g UC WC Lg. assert (Lg' : g < n_gen W) by (unfold n_gen; lia). split; [split|].
    + exact (output_nonneg W M s A h t g Lh Lt Lg').
    + rewrite <- (Qmult_1_r (top W g / w_base W)). apply (top_limit cf W M s I A t g h 1 UC Lt Lh Lg). intros u _. now apply (derate_none cf W M I).
    + intros P. apply (low_limit cf W M s I A t g h UC Lt Lh Lg). apply Qlt_shift_div_l; lra.
  - intros r f Nf. destruct (farm_limit cf W M s I A t r h f Lt Lh Nf) as (q & FP & B). exists q. split; [exact FP|]. split; [|exact B]. apply (output_nonneg W M s A); auto. assert (r < n_ren W) by (apply nth_error_Some; congruence). unfold n_gen. lia.
Qed.
Print Assumptions C170_limits.

Definition windy : power :=
  mkPower 10 [mkBus 1 0 20] [] false false true false [] None None false 2 [] [] plain_conv None [free 1 30 5] plain_hyd [] [mkFarm 1 10 0] [None] [] [] 1 None 1 [1; 1]%Q 1 None [1 # 10; 1 # 20]%Q None None 1.
Definition windy_answer : var -> Q := assign [(NGen 0 0, 1); (NGen 1 0, 1); (NGen 0 1, 3 # 2); (NGen 1 1, 1 # 2)]%Q.
Example C170_witness : initialise no_cf windy = Ok (model_of windy) /\ answer windy (model_of windy) windy_answer /\ (0 < w_base windy)%Q /\ w_uc windy = false /\ w_cool windy = None /\ top windy 0 = 30%Q /\ low windy 0 = 5%Q /\ nth_error (w_farms windy) 0 = Some (mkFarm 1 10 0) /\ farm_profile windy 0 1 0 (1 # 20).
Proof. sp; [vm_compute; reflexivity|apply check_answer; vm_compute; reflexivity|reflexivity..|]. exists 1. split; reflexivity. Qed.

(* ------------------------------------------------------------------ *)
(** ** C171 *)

(** Costs: for plants and farms proportional to the power; for machines with points, above the line through any two
    neighbours; for machines with quadratic costs and no setting for the pieces, above the costs. *)
Theorem C171_costs : forall cf W M s, initialise cf W = Ok M -> answer W M s -> forall t h w, t < w_time W -> h < w_noh W -> weight W t w -> (0 < w)%Q ->
  (forall g k, n_conv W <= g -> nth_error (map pl_cost (w_plants W) ++ map fa_cost (w_farms W)) (g - n_conv W) = Some k -> (w * (k * power_of W s h t g) <= cost_of W s h t g)%Q)
  /\ (forall g r c x0 y0 x1 y1, nth_error (w_machines W) g = Some r -> cu_points (ma_curve r) = true -> S c < cu_n (ma_curve r) ->
      nth_error (cu_cost (ma_curve r)) (2 * c) = Some x0 -> nth_error (cu_cost (ma_curve r)) (2 * c + 1) = Some y0 -> nth_error (cu_cost (ma_curve r)) (2 * c + 2) = Some x1 -> nth_error (cu_cost (ma_curve r)) (2 * c + 3) = Some y1 ->
      (w * (y0 + (y1 - y0) / (x1 - x0) * (power_of W s h t g - x0)) <= cost_of W s h t g)%Q)
  /\ (forall g r a b c, nth_error (w_machines W) g = Some r -> cu_points (ma_curve r) = false -> cu_n (ma_curve r) = 3 -> cu_cost (ma_curve r) = [a; b; c] -> (0 <= a)%Q -> w_pieces W = [] -> (0 < ma_max r)%Q -> (0 <= ma_min r)%Q ->
      (ma_min r <= power_of W s h t g <= ma_max r)%Q -> (w * (a * power_of W s h t g ^ 2 + b * power_of W s h t g + c) <= cost_of W s h t g)%Q).
Proof.
  intros cf W M s I A t h w Lt Lh Ww Pw. sp.
  - intros g k. now apply (linear_cost cf W M s I A).
  - intros g r c x0 y0 x1 y1. now apply (point_cost cf W M s I A).
  - intros g r a b c Nr CP CN CC Pa PE Pm P0 (B1 & B2). set (d := if Qeq_bool a 0 then ma_max r else (ma_max r / 3)%Q).
    assert (D : (0 < d <= ma_max r)%Q). { unfold d. destruct (Qeq_bool a 0); [lra|]. split; [apply Qlt_shift_div_l; lra|apply Qle_shift_div_r; lra]. }
    assert (PL : piece_length (w_pieces W) g (ma_max r) (ma_curve r) = Ok d) by (rewrite PE; unfold piece_length; rewrite CC; reflexivity).
    assert (F : (inject_Z (Qfloor (ma_max r / d)) * d == ma_max r)%Q). { unfold d. destruct (Qeq_bool a 0).
      - assert (E : (ma_max r / ma_max r == 1)%Q) by (field; lra). rewrite (Qfloor_comp _ _ E). change (Qfloor 1) with 1%Z. change (inject_Z 1) with 1%Q. ring.
      - assert (E : (ma_max r / (ma_max r / 3) == 3)%Q) by (field; lra). rewrite (Qfloor_comp _ _ E). change (Qfloor 3) with 3%Z. change (inject_Z 3) with 3%Q. field. }
    eapply (quadratic_cost cf W M s I A t g h w r a b c d); eauto. split; [exact B1|]. rewrite F. lra.
Qed.
Print Assumptions C171_costs.
(** With a length of pieces, the power may pass the last point, where the costs are understated. *)
Definition coal (k : Q) : machine := mkMachine 1 k 0 (mkCurve false 3 [1; 0; 0]%Q).
Definition pieced (d k q : Q) : power := spot true false 1 [d] plain_conv [coal k] plain_hyd [] [] [q] None.
Theorem C171_pieces_refuted : exists cf W M s r, initialise cf W = Ok M /\ answer W M s /\ nth_error (w_machines W) 0 = Some r /\ cu_points (ma_curve r) = false /\ cu_cost (ma_curve r) = [1; 0; 0]%Q /\ (exists d, w_pieces W = [d] /\ 0 < d <= ma_max r)%Q
  /\ (ma_min r <= power_of W s 0 0 0 <= ma_max r)%Q /\ (cost_of W s 0 0 0 < power_of W s 0 0 0 ^ 2)%Q.
Proof.
  exists no_cf, (pieced 4 7 7), (model_of (pieced 4 7 7)), (assign [(NGen 0 0, 7); (NGCost 0 0, 28)]%Q), (coal 7). sp; [vm_compute; reflexivity|apply check_answer; vm_compute; reflexivity|reflexivity|reflexivity|reflexivity| |vm_compute; discriminate|vm_compute; discriminate|vm_compute; reflexivity].
  exists 4%Q. sp; [reflexivity|reflexivity|vm_compute; discriminate].
Qed.
Print Assumptions C171_pieces_refuted.
(** Pieces longer than the capacity leave no cost at all; a machine without capacity stops the program. *)
Theorem C171_long_piece_refuted : exists cf W M s r d, initialise cf W = Ok M /\ answer W M s /\ nth_error (w_machines W) 0 = Some r /\ cu_cost (ma_curve r) = [1; 0; 0]%Q /\ w_pieces W = [d] /\ (ma_max r < d)%Q /\ (power_of W s 0 0 0 == 5)%Q /\ (cost_of W s 0 0 0 == 0)%Q.
Proof.
  exists no_cf, (pieced 10 7 5), (model_of (pieced 10 7 5)), (assign [(NGen 0 0, 5)]%Q), (coal 7), 10%Q. sp; [vm_compute; reflexivity|apply check_answer; vm_compute; reflexivity|reflexivity|reflexivity|reflexivity|reflexivity|vm_compute; reflexivity|vm_compute; reflexivity].
Qed.
Print Assumptions C171_long_piece_refuted.
Theorem C171_zero_refuted : forall cf W g r, nth_error (w_machines W) g = Some r -> cu_points (ma_curve r) = false -> (ma_max r == 0)%Q -> w_pieces W = [] -> exists e, initialise cf W = Err e.
Proof.
  intros cf W g r Nr CP Z PE. destruct (initialise cf W) as [M|e] eqn:I; [exfalso|eauto]. assert (Lg : g < n_conv W) by (apply nth_error_Some; congruence). assert (Lg' : g < n_gen W) by (unfold n_gen; lia). destruct (unit_facts cf W M I g Lg') as (gs & ge & u & EG & Ng & _ & U & _ & _ & _ & L).
  pose proof (all_gens_ok _ _ _ _ _ _ _ EG) as (_ & _ & _ & _ & _ & C & _). pose proof (conv_gen_inv _ _ _ _ _ (C g r ge Nr Ng)) as (_ & _ & MX & MN & CV & _). destruct U as (_ & _ & _ & _ & _ & _ & _ & _ & _ & _ & _ & CL). unfold cost_lines in CL. rewrite CV, CP, MX in CL. apply bind_inv in CL as (pts & EP & _). unfold poly_points in EP. apply bind_inv in EP as (d & ED & EP).
  rewrite PE in ED. unfold piece_length in ED. apply bind_inv in ED as (a & _ & ED). injection ED as <-. assert (X : Qeq_bool (if Qeq_bool a 0 then ma_max r else (ma_max r / 3)%Q) 0 = true) by (apply Qeq_bool_iff; destruct (Qeq_bool a 0); [exact Z|rewrite Z; reflexivity]). rewrite X in EP. discriminate.
Qed.
Print Assumptions C171_zero_refuted.

Definition quad : power := spot true false 1 [] plain_conv [mkMachine 1 6 1 (mkCurve false 3 [1; 2; 3]%Q); mkMachine 1 4 0 (mkCurve true 3 [0; 0; 2; 1; 4; 4]%Q)] plain_hyd [hydro 1 1] [] [5]%Q None.
Definition quad_answer : var -> Q := assign [(NGen 0 0, 2); (NGen 1 0, 2); (NGen 2 0, 1); (NGCost 0 0, 12); (NGCost 1 0, 1); (NGCost 2 0, 1)]%Q.
Example C171_witness : initialise no_cf quad = Ok (model_of quad) /\ answer quad (model_of quad) quad_answer /\ weight quad 0 1 /\ w_pieces quad = [] /\ (power_of quad quad_answer 0 0 0 == 2)%Q /\ (cost_of quad quad_answer 0 0 0 == 12)%Q /\ map cu_points (map ma_curve (w_machines quad)) = [false; true] /\ initialise no_cf (spot true false 1 [] plain_conv [coal 0] plain_hyd [] [] [1]%Q None) = Err ZeroDivisionError.
Proof. sp; [vm_compute; reflexivity|apply check_answer; vm_compute; reflexivity|reflexivity|reflexivity|vm_compute; reflexivity|vm_compute; reflexivity|reflexivity|vm_compute; reflexivity]. Qed.

(* ------------------------------------------------------------------ *)
(** ** C172 *)

(** The objective counts the costs of plants and farms with the square of the weight of the time step. *)
Theorem C172_square : forall cf W M s ws, initialise cf W = Ok M -> answer W M s -> w_weights W = Some ws -> 0 < w_noh W -> List.length ws = w_time W -> Forall (fun w => 0 < w)%Q ws -> n_conv W = 0 ->
  (below (w_time W) (fun t => nth t ws 0 ^ 2 * below (n_gen W) (fun g => nth g (map pl_cost (w_plants W) ++ map fa_cost (w_farms W)) 0 * power_of W s 0 t g))
   <= objective W M s + qsum (map (fun ip => pu_value (snd ip) * w_base W * below (w_time W) (fun t => pump_power W s 0 t (fst ip) * nth t ws 0)) (combine (seq 0 (n_pump W)) (w_pumps W))))%Q.
Proof.
  intros cf W M s ws I A WS Lh LW PW NC. destruct (initialise_inv _ _ _ I) as (gs & _ & _ & _ & _ & _ & _ & _ & _ & _ & _ & _ & _ & _ & _ & _ & EW & _). rewrite WS in EW. unfold objective. rewrite EW. set (cr := qsum (map (fun ip => pu_value (snd ip) * w_base W * qsum (map (fun t => s (NPump (con_pump W 0 + fst ip + 1) t) * nth t ws 0) (s_tim W))) _)%Q).
  change (qsum (map (fun ip => pu_value (snd ip) * w_base W * below (w_time W) (fun t => pump_power W s 0 t (fst ip) * nth t ws 0)) (combine (seq 0 (n_pump W)) (w_pumps W)))%Q) with cr.
  assert (X : (below (w_time W) (fun t => nth t ws 0 ^ 2 * below (n_gen W) (fun g => nth g (map pl_cost (w_plants W) ++ map fa_cost (w_farms W)) 0 * power_of W s 0 t g)) <= qsum (map (fun t => (qsum (map (fun g => s (NGCost (con_gen W 0 + g) t)) (s_gen W)) + qsum (map (fun f => s (NFea (con_fea M 0 + f) t)) (seq 0 (m_nofea M))) * 1000000) * nth t ws 0) (s_tim W)))%Q); [|revert X; generalize (qsum (map (fun t => (qsum (map (fun g => s (NGCost (con_gen W 0 + g) t)) (s_gen W)) + qsum (map (fun f => s (NFea (con_fea M 0 + f) t)) (seq 0 (m_nofea M))) * 1000000) * nth t ws 0) (s_tim W)))%Q; intros; lra].
  unfold below at 1. apply qsum_le. intros t It. apply in_seq in It. destruct It as (_ & Lt). cbn in Lt. destruct (nth_error ws t) as [w|] eqn:Nw; [|apply nth_error_None in Nw; lia]. rewrite (nth_error_nth _ _ _ Nw). assert (Pw : (0 < w)%Q) by (rewrite Forall_forall in PW; apply PW; eapply nth_error_In; eauto). assert (Ww : weight W t w) by (unfold weight; now rewrite WS).
  assert (Y : (w * below (n_gen W) (fun g => nth g (map pl_cost (w_plants W) ++ map fa_cost (w_farms W)) 0 * power_of W s 0 t g) <= qsum (map (fun g => s (NGCost (con_gen W 0 + g) t)) (s_gen W)))%Q).
  { rewrite <- (below_mul (n_gen W) w). unfold below. apply qsum_le. intros g Ig. apply in_seq in Ig. assert (Lk : g < List.length (map pl_cost (w_plants W) ++ map fa_cost (w_farms W))) by (rewrite app_length, !map_length; unfold n_gen, n_hyd, n_ren in Ig; lia). destruct (nth_error (map pl_cost (w_plants W) ++ map fa_cost (w_farms W)) g) as [k|] eqn:Nk; [|apply nth_error_None in Nk; lia]. rewrite (nth_error_nth _ _ _ Nk).
    apply (linear_cost cf W M s I A t g 0 w k Lt Lh Ww Pw); [lia|]. now rewrite NC, Nat.sub_0_r. }
  assert (Z : (0 <= qsum (map (fun f => s (NFea (con_fea M 0 + f) t)) (seq 0 (m_nofea M))))%Q). { apply qsum_nonneg. apply Forall_forall. intros q Iq. apply in_map_iff in Iq as (f & <- & If). apply in_seq in If. apply (proj2 (answer_rules _ _ _ A) (NFea (con_fea M 0 + f) t)). cbn [declared]. apply andb_true_intro. split; apply Nat.ltb_lt; [unfold con_fea; nia|exact Lt]. }
  revert Y Z. generalize (below (n_gen W) (fun g => nth g (map pl_cost (w_plants W) ++ map fa_cost (w_farms W)) 0 * power_of W s 0 t g)%Q) (qsum (map (fun g => s (NGCost (con_gen W 0 + g) t)) (s_gen W))) (qsum (map (fun f => s (NFea (con_fea M 0 + f) t)) (seq 0 (m_nofea M)))). intros y n z Y Z. assert (E : (w ^ 2 * y == (w * y) * w)%Q) by ring. rewrite E. apply Qmult_le_compat_r; lra.
Qed.
Print Assumptions C172_square.
(** A step of two hours with load 1 at cost 1 costs 2; the least value of the objective is 4. *)
Theorem C172_cost_refuted : exists cf W M s, initialise cf W = Ok M /\ answer W M s /\ w_weights W = Some [2]%Q /\ w_time W = 1 /\ map pl_cost (w_plants W) = [1]%Q /\ (power_of W s 0 0 0 == 1)%Q /\ (objective W M s == 4)%Q
  /\ forall s', answer W M s' -> (4 <= objective W M s')%Q.
Proof.
  exists no_cf, (tight_spot (Some [2]%Q)), (model_of (tight_spot (Some [2]%Q))), (tight_answer 2). assert (I : initialise no_cf (tight_spot (Some [2]%Q)) = Ok (model_of (tight_spot (Some [2]%Q)))) by (vm_compute; reflexivity). sp; [exact I|apply check_answer; vm_compute; reflexivity|reflexivity|reflexivity|reflexivity|vm_compute; reflexivity|vm_compute; reflexivity|].
  intros s' A'. destruct (C169_no_network_partial _ _ _ _ I A' eq_refl eq_refl 0 0 ltac:(cbn; lia) ltac:(cbn; lia)) as (q & H & B). destruct (H 0 ltac:(cbn; lia)) as (b & d & Nb & (l & Nl & PI) & E). injection Nb as <-. injection Nl as <-. injection PI as <-.
  pose proof (C172_square _ _ _ _ [2]%Q I A' eq_refl ltac:(cbn; lia) eq_refl ltac:(repeat constructor) eq_refl) as C. cbn [w_time tight_spot spot sample w_pumps n_pump] in C. change (n_gen (tight_spot (Some [2%Q]))) with 1 in *. change (n_bus (tight_spot (Some [2%Q]))) with 1 in *. change (n_pump (tight_spot (Some [2%Q]))) with 0 in *. unfold below in *. cbn [seq map nth qsum fold_right combine] in *. unfold power_of in C. change (w_base (tight_spot (Some [2%Q]))) with 1%Q in *. change (load_factor (tight_spot (Some [2%Q]))) with 1%Q in *. cbn in E. change (nth 0 (map pl_cost (w_plants (tight_spot (Some [2%Q]))) ++ map fa_cost (w_farms (tight_spot (Some [2%Q])))) 0%Q) with 1%Q in C. revert C B E. generalize (objective (tight_spot (Some [2%Q])) (model_of (tight_spot (Some [2%Q]))) s') (output (tight_spot (Some [2%Q])) s' 0 0 0) (q 0). intros o g d C B E. assert (E1 : (d == 1)%Q) by (rewrite E; reflexivity). assert (E2 : (2 ^ 2 == 4)%Q) by reflexivity. rewrite E2 in C. lra.
Qed.
Print Assumptions C172_cost_refuted.

Example C172_witness : exists W s, initialise no_cf W = Ok (model_of W) /\ answer W (model_of W) s /\ w_weights W = Some [2; 3]%Q /\ w_noh W = 1 /\ w_time W = 2 /\ n_conv W = 0 /\ (objective W (model_of W) s == 2 * 2 + 3 * 3 * 2)%Q.
Proof.
  exists (spot false false 2 [] plain_conv [] plain_hyd [hydro 1 2] [] [1; 2]%Q (Some [2; 3]%Q)), (assign [(NGen 0 0, 1); (NGCost 0 0, 2); (NGen 0 1, 2); (NGCost 0 1, 6)]%Q). sp; [vm_compute; reflexivity|apply check_answer; vm_compute; reflexivity|reflexivity|reflexivity|reflexivity|reflexivity|vm_compute; reflexivity].
Qed.

(* ------------------------------------------------------------------ *)
(** ** C173 *)

(** Ramps between neighbouring steps, the first one after the last one. *)
Theorem C173_ramps : forall cf W M s, initialise cf W = Ok M -> answer W M s -> (0 < w_base W)%Q -> forall t g h r, t < w_time W -> h < w_noh W -> g < n_conv W + n_hyd W -> ramp_setting W g r -> (0 < r < 1)%Q -> (0 < top W g)%Q ->
  (Qabs (output W s h t g - output W s h (before (w_time W) t) g) <= top W g / w_base W * r)%Q.
Proof. intros cf W M s I A Pb t g h r Lt Lh Lg RS R P. apply (ramp_limit cf W M s I A); auto. apply Qlt_shift_div_l; lra. Qed.
Print Assumptions C173_ramps.
(** A list of ramps that is too short is not read as no ramp for the machines after it. *)
Theorem C173_short_list_refuted : forall cf W, 2 <= List.length (cv_ramp (w_conv W)) < n_conv W -> exists e, initialise cf W = Err e.
Proof.
  intros cf W (L2 & Lr). destruct (initialise cf W) as [M|e] eqn:I; [exfalso|eauto]. set (g := List.length (cv_ramp (w_conv W))) in *. assert (Lg' : g < n_gen W) by (unfold n_gen; lia). destruct (unit_facts cf W M I g Lg') as (gs & ge & u & EG & Ng & _).
  pose proof (all_gens_ok _ _ _ _ _ _ _ EG) as (_ & _ & _ & _ & _ & C & _). destruct (nth_error (w_machines W) g) as [r|] eqn:Nr; [|apply nth_error_None in Nr; unfold n_conv in Lr; lia]. pose proof (conv_gen_inv _ _ _ _ _ (C g r ge Nr Ng)) as (_ & _ & _ & _ & _ & PR & _). unfold pick_ramp in PR. destruct (cv_ramp (w_conv W)) as [|x [|y l]] eqn:ER; [cbn in g; lia|cbn in g; lia|].
  replace (g <=? List.length (x :: y :: l)) with true in PR by (symmetry; apply Nat.leb_le; reflexivity). apply at_nth in PR. assert (g < List.length (x :: y :: l)) by (apply nth_error_Some; congruence). unfold g in H. lia.
Qed.
Print Assumptions C173_short_list_refuted.

Definition slow : power := spot true false 2 [] (mkConv None [false] [0%Q] [Some (1 # 4); None] [false] [] []) [free 1 4 0; free 1 1 0] plain_hyd [] [] [3; 4]%Q None.
Definition slow_answer : var -> Q := assign [(NGen 0 0, 3); (NGen 0 1, 4)]%Q.
Example C173_witness : initialise no_cf slow = Ok (model_of slow) /\ answer slow (model_of slow) slow_answer /\ (0 < w_base slow)%Q /\ ramp_setting slow 0 (1 # 4) /\ (0 < top slow 0)%Q /\ before (w_time slow) 0 = 1
  /\ initialise no_cf (spot true false 2 [] (w_conv slow) [free 1 4 0; free 1 1 0; free 1 1 0] plain_hyd [] [] [3; 4]%Q None) = Err IndexError.
Proof. sp; [vm_compute; reflexivity|apply check_answer; vm_compute; reflexivity|reflexivity..]. Qed.

(* ------------------------------------------------------------------ *)
(** ** C174 *)

(** With unit commitment a switched unit is off without output, or on within its limits. *)
Theorem C174_commitment : forall cf W M s, initialise cf W = Ok M -> answer W M s -> w_uc W = true -> w_cool W = None -> forall t g h, t < w_time W -> h < w_noh W ->
  (switched W g = true -> (on W s h t g == 0 /\ output W s h t g == 0)%Q \/ (on W s h t g == 1 /\ low W g / w_base W <= output W s h t g <= top W g / w_base W)%Q)
  /\ (switched W g = false -> g < n_conv W + n_hyd W -> (output W s h t g <= top W g / w_base W)%Q).
Proof. intros cf W M s I A UC WC t g h Lt Lh. split; [now apply (switch_limits cf W M s I A)|intros SW Lg; now apply (unswitched_limit cf W M s I A)]. Qed.
Print Assumptions C174_commitment.

Definition units (mut : list (option nat)) (demand : list Q) : power := spot true true 4 [] (mkConv None [false] [0%Q] [] [false] mut []) [free 1 2 1; free 1 2 1] plain_hyd [hydro 1 1] [] demand None.
Definition units_answer : var -> Q := assign [(NGen 0 0, 1); (NGen 0 1, 1); (NGen 0 2, 1); (NGen 0 3, 1); (NBin 0 0, 1); (NBin 0 1, 1); (NBin 0 2, 1); (NBin 0 3, 1); (NGen 1 1, 1); (NGen 1 2, 2); (NBin 1 1, 1); (NBin 1 2, 1); (NMut 1 1, 1)]%Q.
Example C174_witness : let W := units [Some 2] [1; 2; 3; 1]%Q in initialise no_cf W = Ok (model_of W) /\ answer W (model_of W) units_answer /\ w_uc W = true /\ map (switched W) [0; 1; 2] = [true; true; false] /\ map (switch_no W) [0; 1] = [0; 1] /\ (on W units_answer 0 0 1 == 0)%Q /\ (on W units_answer 0 2 1 == 1)%Q.
Proof. cbv zeta. sp; [vm_compute; reflexivity|apply check_answer; vm_compute; reflexivity|vm_compute; reflexivity..]. Qed.

(* ------------------------------------------------------------------ *)
(** ** C175 *)

(** Minimum up and down times, for units whose switched predecessors also have one: a unit that starts (stops) after the
    first step stays on (off), the first step coming after the last one. *)
Theorem C175_times_partial : forall cf W M s, initialise cf W = Ok M -> answer W M s -> w_uc W = true -> forall t g h k, S t < w_time W -> h < w_noh W -> g < n_conv W -> switched W g = true ->
  (time_setting (cv_mut (w_conv W)) g = Some k -> (forall j, j < g -> switched W j = true -> time_setting (cv_mut (w_conv W)) j <> None) -> (on W s h t g == 0)%Q -> (on W s h (S t) g == 1)%Q -> forall i, i < k -> (on W s h ((S t + i) mod w_time W) g == 1)%Q)
  /\ (time_setting (cv_mdt (w_conv W)) g = Some k -> (forall j, j < g -> switched W j = true -> time_setting (cv_mdt (w_conv W)) j <> None) -> (on W s h t g == 1)%Q -> (on W s h (S t) g == 0)%Q -> forall i, i < k -> (on W s h ((S t + i) mod w_time W) g == 0)%Q).
Proof.
  intros cf W M s I A UC t g h k Lt Lh Lg SW. split; intros TS LU Z O i Li.
  - exact (min_held cf W M s I A true g k t h UC Lt Lh Lg SW TS LU Z O i Li).
  - assert (X : (state W s false h ((S t + i) mod w_time W) g == 1)%Q) by (apply (min_held cf W M s I A false g k t h UC Lt Lh Lg SW TS LU); auto; unfold state; [rewrite Z|rewrite O]; reflexivity). unfold state in X. lra.
Qed.
Print Assumptions C175_times_partial.
(** At the first step such a unit cannot start (stop), even when it then stays on (off). *)
Theorem C175_first_step_refuted : forall cf W M s, initialise cf W = Ok M -> answer W M s -> w_uc W = true -> forall g h k, h < w_noh W -> g < n_conv W -> switched W g = true -> 1 <= k ->
  (time_setting (cv_mut (w_conv W)) g = Some k -> (forall j, j < g -> switched W j = true -> time_setting (cv_mut (w_conv W)) j <> None) -> (on W s h 0 g == 1)%Q -> (on W s h (w_time W - 1) g == 1)%Q)
  /\ (time_setting (cv_mdt (w_conv W)) g = Some k -> (forall j, j < g -> switched W j = true -> time_setting (cv_mdt (w_conv W)) j <> None) -> (on W s h 0 g == 0)%Q -> (on W s h (w_time W - 1) g == 0)%Q).
Proof.
  intros cf W M s I A UC g h k Lh Lg SW Lk. split; intros TS LU O.
  - exact (first_step cf W M s I A true g k h UC Lh Lg SW TS LU Lk O).
  - assert (X : (state W s false h (w_time W - 1) g == 1)%Q) by (apply (first_step cf W M s I A false g k h UC Lh Lg SW TS LU Lk); unfold state; rewrite O; reflexivity). unfold state in X. lra.
Qed.
Print Assumptions C175_first_step_refuted.
(** With a unit without minimum time before it, the unit is not held. *)
Theorem C175_other_unit_refuted : exists cf W M s g, initialise cf W = Ok M /\ answer W M s /\ w_uc W = true /\ g < n_conv W /\ switched W g = true /\ time_setting (cv_mut (w_conv W)) g = Some 2 /\ (on W s 0 0 g == 0)%Q /\ (on W s 0 1 g == 1)%Q /\ (on W s 0 2 g == 0)%Q.
Proof.
  exists no_cf, (units [None; Some 2] [1; 2; 1; 1]%Q), (model_of (units [None; Some 2] [1; 2; 1; 1]%Q)), (assign [(NGen 0 0, 1); (NGen 0 1, 1); (NGen 0 2, 1); (NGen 0 3, 1); (NBin 0 0, 1); (NBin 0 1, 1); (NBin 0 2, 1); (NBin 0 3, 1); (NGen 1 1, 1); (NBin 1 1, 1)]%Q), 1.
  sp; [vm_compute; reflexivity|apply check_answer; vm_compute; reflexivity|reflexivity|cbn; lia|vm_compute; reflexivity..].
Qed.
Print Assumptions C175_other_unit_refuted.

Example C175_witness : let W := units [Some 2] [1; 2; 3; 1]%Q in initialise no_cf W = Ok (model_of W) /\ answer W (model_of W) units_answer /\ w_uc W = true /\ switched W 1 = true /\ time_setting (cv_mut (w_conv W)) 1 = Some 2 /\ time_setting (cv_mut (w_conv W)) 0 = Some 2 /\ (on W units_answer 0 0 1 == 0)%Q /\ (on W units_answer 0 1 1 == 1)%Q.
Proof. cbv zeta. sp; [vm_compute; reflexivity|apply check_answer; vm_compute; reflexivity|vm_compute; reflexivity..]. Qed.

(* ------------------------------------------------------------------ *)
(** ** C176 *)

(** With commitment, the scenarios must fit into the binary variables. *)
Theorem C176_room : forall cf W M s, initialise cf W = Ok M -> answer W M s -> w_uc W = true -> forall g, switched W g = true -> 0 < w_noh W -> (w_noh W - 1) * n_gen W + switch_no W g < w_noh W * (count (map (switched W) (seq 0 (n_gen W))) + 1).
Proof.
  intros cf W M s I A UC g SW Lh. assert (Lg : g < n_conv W + n_hyd W) by (unfold switched in SW; apply andb_prop in SW as (SW & _); apply andb_prop in SW as (SW & _); now apply Nat.ltb_lt). assert (Lg' : g < n_gen W) by (unfold n_gen; lia). pose proof (time_pos cf W M I) as Lt.
  destruct (unit_facts cf W M I g Lg') as (gs & ge & u & EG & Ng & Eu & U & TM & TL & TK & _). pose proof (bin_no cf W M I g gs ge u Lg' EG Ng U) as B. rewrite SW in B. destruct U as (K & _). pose proof (kind_ren W g Lg) as NR. rewrite <- TK, <- K in NR.
  pose proof (proj1 (answer_rules _ _ _ A)) as (_ & _ & R & _). unfold unit_rules in R. rewrite UC in R. destruct R as (_ & R2 & _). destruct (R2 g 0 (w_noh W - 1) Lg' Lt ltac:(lia)) as (o & E & _). unfold min_uc_rule in E. rewrite Eu, bind_ok, B in E.
  assert (F : (do v <- get W M (NGen (con_gen W (w_noh W - 1) + g) 0); do x <- get W M (NBin (con_gen W (w_noh W - 1) + switch_no W g) 0); keep (CLe (EMul (un_min u) x) v)) = Ok o) by (destruct (un_kind u); [exact E|exact E|congruence]). apply bind_inv in F as (v & _ & F). apply bind_inv in F as (x & Ex & _). apply get_inv in Ex as (_ & D). cbn [declared] in D. apply andb_prop in D as (_ & D). apply andb_prop in D as (D & _). apply Nat.ltb_lt in D.
  destruct (initialise_inv _ _ _ I) as (gs' & EG' & _ & _ & _ & _ & _ & _ & _ & _ & _ & _ & _ & EF & _). assert (gs' = gs) by congruence. subst gs'. apply build_fleet_ok in EF as (_ & _ & _ & FB & _). pose proof (all_gens_ok _ _ _ _ _ _ _ EG) as (L & _). change (List.length gs = n_gen W) in L.
  assert (T : tally has_bin gs = count (map (switched W) (seq 0 (n_gen W)))). { rewrite <- (firstn_all gs) at 1. rewrite L. apply tally_count; [intros i x' N; now apply (has_bin_switched cf W M I gs)|lia]. } rewrite FB, T in D. exact D.
Qed.
Print Assumptions C176_room.
(** Two scenarios and four machines, one of them switched. *)
Definition twice : power :=
  mkPower 1 [mkBus 1 0 1] [] false false true false [] None None true 1 [] [] plain_conv None [free 1 2 1; free 1 1 0; free 1 1 0; free 1 1 0] plain_hyd [] [] [None] [] [] 2 None 2 [1; 1]%Q 1 None [] None None 2.
Theorem C176_scenarios_refuted : exists cf W M, initialise cf W = Ok M /\ w_uc W = true /\ w_noh W = 2 /\ constraints W M = Err KeyError /\ forall s, ~ answer W M s.
Proof.
  exists no_cf, twice, (model_of twice). assert (E : constraints twice (model_of twice) = Err KeyError) by (vm_compute; reflexivity). sp; [vm_compute; reflexivity|reflexivity|reflexivity|exact E|]. intros s (cs & E' & _). congruence.
Qed.
Print Assumptions C176_scenarios_refuted.

Example C176_witness : let W := units [Some 2] [1; 2; 3; 1]%Q in initialise no_cf W = Ok (model_of W) /\ answer W (model_of W) units_answer /\ w_uc W = true /\ switched W 1 = true /\ w_noh W = 1 /\ count (map (switched W) (seq 0 (n_gen W))) = 2.
Proof. cbv zeta. sp; [vm_compute; reflexivity|apply check_answer; vm_compute; reflexivity|vm_compute; reflexivity..]. Qed.

(* ------------------------------------------------------------------ *)
(** ** C177 *)

(** Pumps between 0 and their capacity. *)
Theorem C177_pumps : forall cf W M s, initialise cf W = Ok M -> answer W M s -> forall t p h r, t < w_time W -> h < w_noh W -> nth_error (w_pumps W) p = Some r -> (0 <= pump_power W s h t p <= pu_max r / w_base W)%Q.
Proof. intros cf W M s I A t p h r. now apply (pump_limit W M s A). Qed.
Print Assumptions C177_pumps.
(** The bus of a pump is taken for a position: with network, it draws from another bus, or the program stops. *)
Theorem C177_bus_refuted : exists cf W M s p, initialise cf W = Ok M /\ answer W M s /\ nth_error (w_pumps W) 0 = Some p /\ nth_error (numbers W) 0 = Some (pu_bus p) /\ (0 < pump_power W s 0 0 0)%Q /\ (pumped W s 0 0 0 == 0)%Q /\ (pumped W s 0 0 1 == pump_power W s 0 0 0)%Q.
Proof.
  set (W := sample [mkBus 2 0 0; mkBus 1 0 1] [mkBranch 1 2 0 1 10 0 true] true true true [] false 1 [] [0; 5]%Q plain_conv [] plain_hyd [hydro 1 10] [mkPump 2 1 0] [1]%Q None).
  exists no_cf, W, (model_of W), (assign [(NGen 0 0, 2); (NGCost 0 0, 2); (NPump 1 0, 1)]%Q). eexists. sp; [vm_compute; reflexivity|apply check_answer; vm_compute; reflexivity|reflexivity|reflexivity|vm_compute; reflexivity|vm_compute; reflexivity|vm_compute; reflexivity].
Qed.
Print Assumptions C177_bus_refuted.
Theorem C177_position_refuted : forall cf W p, In p (w_pumps W) -> n_bus W < pu_bus p -> exists e, initialise cf W = Err e.
Proof.
  intros cf W p Ip L. destruct (initialise cf W) as [M|e] eqn:I; [exfalso|eauto]. destruct (initialise_inv _ _ _ I) as (gs & _ & _ & _ & _ & _ & PT & _). assert (X : exists t, pump_table (n_bus W) (w_pumps W) = Ok t) by eauto. apply pump_table_total in X. rewrite Forall_forall in X. destruct (X p Ip) as (i & S). apply slot_row with (n := n_bus W) in S as R. pose proof (slot_lt _ _ _ S) as Li. unfold slot in S. destruct (pu_bus p) as [|b]; [lia|]. destruct (Nat.ltb_spec b (n_bus W)); [lia|discriminate].
Qed.
Print Assumptions C177_position_refuted.

Example C177_witness : initialise no_cf spot_load = Ok (model_of spot_load) /\ answer spot_load (model_of spot_load) spot_answer /\ nth_error (w_pumps spot_load) 0 = Some (mkPump 1 1 0) /\ (pump_power spot_load spot_answer 0 1 0 == 1 # 2)%Q
  /\ initialise no_cf (sample [mkBus 10 0 1] [] true true true [] false 1 [] [0; 5]%Q plain_conv [] plain_hyd [] [mkPump 10 1 0] [1]%Q None) = Err IndexError.
Proof. destruct spot_checked. sp; auto; vm_compute; reflexivity. Qed.

(* ------------------------------------------------------------------ *)
(** ** C178 *)

(** With storage there is no answer: the model cannot be built. *)
Theorem C178_storage_refuted : forall W M s, 0 < n_stor W -> ~ answer W M s.
Proof. intros W M s L A. rewrite (no_store W M s A) in L. lia. Qed.
Print Assumptions C178_storage_refuted.

Definition stored : power :=
  mkPower 1 [mkBus 1 0 1] [] false false true false [] None None false 1 [] [] plain_conv None [] plain_hyd [hydro 1 1] [] [None] [] [mkStore 1 1 1] 1 None 1 [1]%Q 1 None [] None None 1.
Example C178_witness : initialise no_cf stored = Ok (model_of stored) /\ n_stor stored = 1 /\ exists e, constraints stored (model_of stored) = Err e.
Proof. sp; [vm_compute; reflexivity|reflexivity|]. eexists. vm_compute. reflexivity. Qed.

(* ------------------------------------------------------------------ *)
(** ** C179 *)

(** Baseload, with equal steps and some for the hydropower plants: at every step at least that share of the mean output. *)
Theorem C179_baseload_partial : forall cf W M s, initialise cf W = Ok M -> answer W M s -> forall t g h b, w_weights W = None -> (0 < qsum (hs_base (w_hyd W)))%Q -> t < w_time W -> h < w_noh W -> g < n_conv W + n_hyd W -> base_setting W g b -> (0 < b)%Q ->
  (b * below (w_time W) (fun t2 => output W s h t2 g) <= inject_Z (Z.of_nat (w_time W)) * output W s h t g)%Q.
Proof. intros cf W M s I A t g h b. now apply (base_load cf W M s I A). Qed.
Print Assumptions C179_baseload_partial.
(** Baseload of machines alone is ignored. *)
Definition machine_base : power := spot true false 2 [] (mkConv None [false] [1%Q] [] [false] [] []) [free 1 2 0] plain_hyd [] [] [2; 0]%Q None.
Theorem C179_machines_refuted : exists cf W M s, initialise cf W = Ok M /\ answer W M s /\ w_weights W = None /\ base_setting W 0 1 /\ (output W s 0 0 0 == 2)%Q /\ (output W s 0 1 0 == 0)%Q.
Proof. exists no_cf, machine_base, (model_of machine_base), (assign [(NGen 0 0, 2)]%Q). sp; [vm_compute; reflexivity|apply check_answer; vm_compute; reflexivity|reflexivity|reflexivity|vm_compute; reflexivity|vm_compute; reflexivity]. Qed.
Print Assumptions C179_machines_refuted.
(** With steps of different weights, constant output is refused. *)
Definition river_base (weights : option (list Q)) : power := spot false false 2 [] plain_conv [] (mkHyd [false] [1%Q] [None] [false]) [hydro 1 5] [] [1; 1]%Q weights.
Theorem C179_weights_refuted : exists cf W M, initialise cf W = Ok M /\ w_weights W = Some [1; 9]%Q /\ w_demand W = [1; 1]%Q /\ (0 < qsum (hs_base (w_hyd W)) <= 1)%Q /\ forall s, ~ answer W M s.
Proof.
  set (W := river_base (Some [1; 9]%Q)). assert (I : initialise no_cf W = Ok (model_of W)) by (vm_compute; reflexivity). exists no_cf, W, (model_of W). sp; [exact I|reflexivity|reflexivity|reflexivity|vm_compute; discriminate|]. intros s A.
  assert (B : forall t, t < 2 -> (output W s 0 t 0 == 1)%Q). { intros t Lt. destruct (C169_no_network_partial _ _ _ _ I A eq_refl eq_refl t 0 Lt ltac:(cbn; lia)) as (q & H & B). destruct (H 0 ltac:(cbn; lia)) as (b & d & Nb & (l & Nl & PI) & E). injection Nb as <-. injection Nl as <-. assert (D : d = 1%Q) by (destruct t as [|[|t]]; [| |lia]; vm_compute in PI; injection PI as PI; symmetry; exact PI). subst d.
    change (n_gen W) with 1 in B. change (n_bus W) with 1 in B. change (n_pump W) with 0 in B. change (load_factor W) with 1%Q in B. unfold below in B. cbn [seq map qsum fold_right] in B. change (w_base W) with 1%Q in E. cbn [b_loss b_pd] in E. assert (E1 : (q 0%nat == 1)%Q) by (rewrite E; reflexivity). revert B E1. generalize (output W s 0 t 0) (q 0). intros. lra. }
  pose proof (base_any no_cf W (model_of W) s I A 1 0 0 1 9 eq_refl ltac:(reflexivity) ltac:(cbn; lia) ltac:(cbn; lia) ltac:(cbn; lia) eq_refl ltac:(reflexivity)) as S. change (w_time W) with 2 in S. change (qsum (m_weights (model_of W))) with (qsum [1; 9]%Q) in S. unfold below in S. cbn [seq map qsum fold_right] in S. rewrite (B 0), (B 1) in S by lia. vm_compute in S. now apply S.
Qed.
Print Assumptions C179_weights_refuted.

Example C179_witness : initialise no_cf (river_base None) = Ok (model_of (river_base None)) /\ answer (river_base None) (model_of (river_base None)) (assign [(NGen 0 0, 1); (NGen 0 1, 1); (NGCost 0 0, 1); (NGCost 0 1, 1)]%Q) /\ w_weights (river_base None) = None /\ (0 < qsum (hs_base (w_hyd (river_base None))))%Q /\ base_setting (river_base None) 0 1.
Proof. sp; [vm_compute; reflexivity|apply check_answer; vm_compute; reflexivity|reflexivity..]. Qed.

(* ------------------------------------------------------------------ *)
(** ** C180 *)

(** Cooling water without types: a machine is limited by the capacity factor of its temperatures. *)
Theorem C180_cooling_partial : forall cf W M s C, initialise cf W = Ok M -> answer W M s -> w_uc W = false -> w_cool W = Some C -> co_type C = [] ->
  forall t g h, t < w_time W -> h < w_noh W -> g < n_conv W -> exists ts ks k, nth_error (co_temps C) (nth g (co_link C) 0) = Some ts /\ cf ts 0 = Ok ks /\ nth_error ks t = Some k /\ (output W s h t g <= top W g / w_base W * k)%Q.
Proof.
  intros cf W M s C I A UC WC CT t g h Lt Lh Lg. destruct (initialise_inv _ _ _ I) as (gs & _ & _ & _ & _ & _ & _ & _ & _ & _ & _ & _ & D & _). rewrite WC in D. apply bind_inv in D as (d & Ed & D). injection D as D. unfold derating in Ed. apply bind_inv in Ed as (der & Eder & Ed). apply bind_inv in Ed as (t0 & _ & Ed). rewrite CT in Ed. apply bind_inv in Ed as (rows & Er & Ed). injection Ed as <-.
  assert (Lg' : g < n_gen W) by (unfold n_gen; lia). destruct (unit_facts cf W M I g Lg') as (gs' & ge & u & EG & Ng & Eu & U & TM & TL & TK & _). assert (KC : un_kind u = Conv). { destruct U as (K & _). rewrite K, TK. unfold kind_of. apply Nat.ltb_lt in Lg. now rewrite Lg. }
  assert (DR : exists k, derate_of M u g t = Ok k). { pose proof (proj1 (answer_rules _ _ _ A)) as (_ & _ & R & _). unfold unit_rules in R. rewrite UC in R. destruct R as (R & _). destruct (R g t h Lg' Lt Lh) as (o & E & _). unfold max_rule in E. rewrite Eu, bind_ok, KC in E. apply bind_inv in E as (k & Ek & _). eauto. } destruct DR as (k & DR).
  assert (B : (output W s h t g <= top W g / w_base W * k)%Q). { apply (top_limit cf W M s I A t g h k UC Lt Lh); [lia|]. intros u' Eu'. assert (u' = u) by congruence. now subst. }
  unfold derate_of in DR. rewrite KC, <- D in DR. cbn [fst snd] in DR. apply bind_inv in DR as (i & Ei & DR). apply bind_inv in DR as (ks & Ek & DR). apply at_nth in Ei. apply at_nth in Ek. apply at_nth in DR. assert (IN : i = nth g (co_link C) 0).
  { unfold fill in Eder. destruct (Nat.leb_spec (List.length (co_link C)) (n_conv W)); [|discriminate]. injection Eder as <-. destruct (Nat.lt_ge_cases g (List.length (co_link C))) as [B1|B1]; [rewrite nth_error_app1 in Ei by exact B1; symmetry; now apply nth_error_nth|]. rewrite nth_error_app2 in Ei by exact B1. apply nth_error_In, repeat_spec in Ei. rewrite nth_overflow by exact B1. exact Ei. }
  apply mapM_Ok in Er. destruct (F2_nth_r _ _ _ _ _ Er Ek) as (ts & Nts & Ets). exists ts, ks, k. rewrite <- IN. sp; auto.
Qed.
Print Assumptions C180_cooling_partial.
(** With types, a machine may be given the temperatures of another. *)
Theorem C180_types_refuted : exists cf C n der rows g ts, derating cf C n = Ok (der, rows) /\ g < n /\ List.length (co_type C) = n /\ List.length (co_link C) = n /\ nth_error (co_temps C) (nth g (co_link C) 0) = Some ts /\ cf ts (nth g (co_type C) 0) = Ok ts /\ nth_error rows (nth g der 0) <> Some ts.
Proof. exists no_cf, (mkCooling [[1]; [2]]%Q [1; 0] [1; 1]), 2. eexists. eexists. exists 1, [1]%Q. sp; [reflexivity|lia|reflexivity|reflexivity|reflexivity|reflexivity|discriminate]. Qed.
Print Assumptions C180_types_refuted.
(** And a machine may be given a profile that does not exist: the number of another machine is taken for that of a profile. *)
Theorem C180_profile_refuted : exists cf C n der rows g, derating cf C n = Ok (der, rows) /\ g < n /\ List.length (co_type C) = n /\ List.length (co_link C) = n /\ Forall (fun i => i < List.length (co_temps C)) (co_link C) /\ nth_error rows (nth g der 0) = None.
Proof. exists no_cf, (mkCooling [[1]; [2]]%Q [0; 0; 0; 1] [1; 1; 2; 2]), 4. eexists. eexists. exists 3. sp; [reflexivity|lia|reflexivity|reflexivity|repeat constructor|reflexivity]. Qed.
Print Assumptions C180_profile_refuted.

Definition cooled : power :=
  mkPower 1 [mkBus 1 0 1] [] false false true false [] None None false 1 [] [] plain_conv None [free 1 4 0; free 1 4 0] plain_hyd [] [] [None] [] [] 1 None 1 [3]%Q 1 None [] None (Some (mkCooling [[1 # 2]; [1 # 4]]%Q [1] [])) 1.
Example C180_witness : initialise no_cf cooled = Ok (model_of cooled) /\ answer cooled (model_of cooled) (assign [(NGen 0 0, 1); (NGen 1 0, 2)]%Q) /\ w_uc cooled = false /\ w_time cooled = 1 /\ n_conv cooled = 2.
Proof. sp; [vm_compute; reflexivity|apply check_answer; vm_compute; reflexivity|reflexivity..]. Qed.

(* ------------------------------------------------------------------ *)
(** ** C181 *)

(** The ancillary service is at least its share of the generation, less the curtailment variable, and at most the
    generation. *)
Theorem C181_service_partial : forall cf W M s a, initialise cf W = Ok M -> answer W M s -> w_anc W = Some a -> 0 < m_lanc M -> forall t h, t < w_time W -> h < w_noh W ->
  (a * below (n_gen W) (output W s h t) - (if w_feas W then s (NFea h t) else 0) <= s (NServ (h * m_serv M) t) <= below (n_gen W) (output W s h t))%Q.
Proof.
  intros cf W M s a I A WA LA t h Lt Lh. pose proof (proj1 (answer_rules _ _ _ A)) as (_ & _ & _ & _ & _ & _ & _ & _ & _ & _ & _ & R & _). destruct R as (_ & R & _); [unfold services; apply Nat.ltb_lt; lia|]. destruct (R LA) as (R1 & R2). destruct (R1 t h Lt Lh) as (o & E & S). destruct (R2 t h Lt Lh) as (o' & E' & S').
  unfold service_rule in E. apply bind_inv in E as (g & Eg & E). apply bind_inv in E as (v & Ev & E). injection E as <-. specialize (S _ eq_refl). unfold ancillary_rule in E'. apply bind_inv in E' as (v' & Ev' & E'). apply bind_inv in E' as (g' & Eg' & E'). apply bind_inv in E' as (c & Ec & E'). rewrite WA in E'. injection E' as <-. specialize (S' _ eq_refl).
  assert (v' = v) by congruence. subst v'. assert (g' = g) by congruence. subst g'. apply get_inv in Ev as (-> & _). apply (gen_sum_ok W M s) in Eg. change (eval s g == below (n_gen W) (output W s h t))%Q in Eg. apply (gets_inv W M s) in Ec as (Vc & _). assert (C : (eval s c == if w_feas W then s (NFea h t) else 0)%Q) by (rewrite Vc; unfold faux; destruct (w_feas W); cbn; ring).
  cbn [sat eval] in S, S'. rewrite Eg in S, S'. rewrite C in S'. split; [exact S'|exact S].
Qed.
Print Assumptions C181_service_partial.
(** All services together are at most the generation. *)
Theorem C181_total_partial : forall cf W M s, initialise cf W = Ok M -> answer W M s -> 0 < m_lanc M + m_lres M -> forall t h, t < w_time W -> h < w_noh W ->
  (below (m_serv M) (fun i => s (NServ (h * m_serv M + i) t)) <= below (n_gen W) (output W s h t))%Q.
Proof.
  intros cf W M s I A LS t h Lt Lh. pose proof (proj1 (answer_rules _ _ _ A)) as (_ & _ & _ & _ & _ & _ & _ & _ & _ & _ & _ & R & _). destruct R as (R & _); [unfold services; apply Nat.ltb_lt; lia|]. destruct (R t h Lt Lh) as (o & E & S).
  unfold services_rule in E. apply bind_inv in E as (g & Eg & E). apply bind_inv in E as (v & Ev & E). injection E as <-. specialize (S _ eq_refl). apply (gen_sum_ok W M s) in Eg. change (eval s g == below (n_gen W) (output W s h t))%Q in Eg. apply (gets_inv W M s) in Ev as (Vc & _). cbn [sat] in S. rewrite Eg, Vc in S. rewrite map_map in S. exact S.
Qed.
Print Assumptions C181_total_partial.
(** It keeps no capacity free: all units may be at their limit. *)
Definition served : power :=
  mkPower 1 [mkBus 1 0 1] [] false false false false [] None (Some (1 # 10)%Q) false 1 [] [] (mkConv (Some 0) [true] [0%Q] [] [true] [] []) None [] (mkHyd [true] [0%Q] [None] [true]) [hydro 1 1] [] [None] [] [] 1 None 1 [1]%Q 1 None [] None None 1.
Definition served_answer : var -> Q := assign [(NGen 0 0, 1); (NGCost 0 0, 1); (NServ 0 0, 1 # 10)]%Q.
Theorem C181_reserve_refuted : exists cf W M s a, initialise cf W = Ok M /\ answer W M s /\ w_anc W = Some a /\ (0 < a)%Q /\ 0 < m_lanc M /\ n_gen W = 1 /\ (output W s 0 0 0 == top W 0 / w_base W)%Q.
Proof. exists no_cf, served, (model_of served), served_answer, (1 # 10)%Q. sp; [vm_compute; reflexivity|apply check_answer; vm_compute; reflexivity|reflexivity|reflexivity|vm_compute; lia|reflexivity|vm_compute; reflexivity]. Qed.
Print Assumptions C181_reserve_refuted.

Example C181_witness : initialise no_cf served = Ok (model_of served) /\ answer served (model_of served) served_answer /\ w_anc served = Some (1 # 10)%Q /\ m_lanc (model_of served) = 1.
Proof. sp; [vm_compute; reflexivity|apply check_answer; vm_compute; reflexivity|reflexivity..]. Qed.

(* ------------------------------------------------------------------ *)
(** ** C182 *)

(** Losses shared among the branches: with flows that are not negative and not all 0, the shares add up. *)
Theorem C182_shares_partial : forall full flow fix_, List.length flow = List.length fix_ -> Forall (fun f => 0 <= f)%Q flow -> (0 < qsum flow)%Q -> (qsum (allocate full flow fix_) == full + qsum fix_)%Q.
Proof.
  intros full flow fix_ L F P. unfold allocate. rewrite (proj2 (positive_iff _) P). assert (X : forall t flow fix_, (0 < t)%Q -> List.length flow = List.length fix_ -> Forall (fun f => 0 <= f)%Q flow -> (qsum (map (fun ff => full * (Qabs (fst ff) / t) + snd ff) (combine flow fix_)) == full * (qsum flow / t) + qsum fix_)%Q).
  { clear. intros t flow. induction flow as [|f flow IH]; intros [|k fix_] Pt L F; cbn [List.length] in L; try discriminate; [cbn; field; lra|]. inversion F as [|? ? Ff F']; subst. cbn [combine map fst snd]. change (qsum (?x :: ?l)) with (x + qsum l)%Q. rewrite IH by (auto; lia). rewrite (Qabs_pos f Ff). change (qsum (f :: flow)) with (f + qsum flow)%Q. change (qsum (k :: fix_)) with (k + qsum fix_)%Q.
    field. lra. }
  rewrite X by auto. field. lra.
Qed.
Print Assumptions C182_shares_partial.
(** With a flow against the direction of its branch they do not, and they may all be 0. *)
Theorem C182_direction_refuted : exists full flow fix_, List.length flow = List.length fix_ /\ (0 < full)%Q /\ Forall (fun f => f == 0)%Q fix_ /\ ~ (qsum (allocate full flow fix_) == full + qsum fix_)%Q.
Proof. exists 1%Q, [1; -2; 3]%Q, [0; 0; 0]%Q. sp; [reflexivity|reflexivity|repeat constructor|]. vm_compute. discriminate. Qed.
Print Assumptions C182_direction_refuted.
Theorem C182_none_refuted : forall full flow fix_, (qsum flow <= 0)%Q -> Forall (fun q => q == 0)%Q (allocate full flow fix_).
Proof. intros full flow fix_ P. unfold allocate. destruct (positive (qsum flow)) eqn:X; [apply positive_iff in X; exfalso; lra|]. apply Forall_forall. intros q Iq. apply repeat_spec in Iq. now subst. Qed.
Print Assumptions C182_none_refuted.

Example C182_witness : exists l, allocate 6 [1; 2]%Q [1; 0]%Q = l /\ map Qred l = [3; 4]%Q /\ (qsum [-1; -2]%Q <= 0)%Q.
Proof. eexists. split; [reflexivity|]. vm_compute. split; [reflexivity|discriminate]. Qed.

(* ------------------------------------------------------------------ *)
(** ** C183 *)

(** The farms together are held below the reduced profiles, up to the curtailment variable and a service of the other units;
    without other units there is no service. *)
Theorem C183_farms_partial : forall cf W M s u, initialise cf W = Ok M -> answer W M s -> nth_error (w_unc W) 0 = Some (Some u) -> 0 < n_ren W -> forall t h, t < w_time W -> h < w_noh W ->
  exists q sv, (forall r, r < n_ren W -> farm_profile W r t h (q r))
    /\ (below (n_ren W) (fun r => output W s h t (n_conv W + n_hyd W + r)) <= (1 - u) * below (n_ren W) (fun r => q r * nth r (map fa_max (w_farms W)) 0) + (if w_feas W then s (NFea h t) else 0) + sv)%Q
    /\ (0 <= sv <= below (n_gen W) (output W s h t))%Q /\ (n_conv W + n_hyd W = 0 -> sv = 0%Q).
Proof.
  intros cf W M s u I A U Lr t h Lt Lh. destruct (answer_rules _ _ _ A) as (R & DM). destruct R as (_ & _ & _ & _ & _ & _ & RF & _ & _ & _ & _ & R & R'). apply at_nth in U.
  assert (FP : forall r, r < n_ren W -> exists q, farm_max W M r t h = Ok (q * nth r (map fa_max (w_farms W)) 0)%Q /\ farm_profile W r t h q).
  { intros r L. destruct (nth_error (w_farms W) r) as [f|] eqn:Nr; [|apply nth_error_None in Nr; unfold n_ren in L; lia]. destruct (RF t r h Lt L Lh) as (o & E & _). unfold res_rule in E. apply bind_inv in E as (v & _ & E). apply bind_inv in E as (m & Em & _). rewrite Em. unfold farm_max in Em. apply bind_inv in Em as (row & Er & Em). apply bind_inv in Em as (oo & Eo & Em). apply bind_inv in Em as (q & Eq & Em). rewrite (proj2 (at_nth _ _ _) Nr), bind_ok in Em. injection Em as <-. exists q. split; [rewrite (nth_error_nth _ _ 0%Q (map_nth_error fa_max r (w_farms W) Nr)); reflexivity|].
    destruct (initialise_inv _ _ _ I) as (gs & _ & _ & _ & _ & _ & _ & _ & _ & _ & _ & OF & _). pose proof (offsets_size _ _ _ _ _ _ _ _ _ OF Er Eo) as (_ & Ls). destruct (offsets_ok _ _ _ _ _ OF r h L Ls) as (l & row' & Nl & Er' & Eo'). assert (row' = row) by congruence. subst row'. assert (oo = offset (w_time W) l) by congruence. subst oo. exists l. split; [|exact Eq]. unfold res_links in Nl. destruct (w_nores W =? 1); [|exact Nl]. now apply nth_error_In, repeat_spec in Nl. }
  assert (Q_ : exists q : nat -> Q, forall r, r < n_ren W -> farm_max W M r t h = Ok (q r * nth r (map fa_max (w_farms W)) 0)%Q /\ farm_profile W r t h (q r)).
  { clear - FP. generalize dependent (n_ren W). induction n as [|n IH]; intros FP; [exists (fun _ => 0%Q); lia|]. destruct IH as (q & Hq); [auto|]. destruct (FP n ltac:(lia)) as (x & Hx). exists (fun r => if r =? n then x else q r). intros r L. destruct (Nat.eqb_spec r n) as [->|N]; [exact Hx|apply Hq; lia]. }
  destruct Q_ as (q & Hq). assert (SUM : forall qs, mapM (fun r => farm_max W M r t h) (seq 0 (n_ren W)) = Ok qs -> (qsum qs == below (n_ren W) (fun r => q r * nth r (map fa_max (w_farms W)) 0))%Q).
  { intros qs E. assert (E' : mapM (fun r => farm_max W M r t h) (seq 0 (n_ren W)) = Ok (map (fun r => q r * nth r (map fa_max (w_farms W)) 0)%Q (seq 0 (n_ren W)))). { apply mapM_map. intros r Ir. apply in_seq in Ir. apply Hq. lia. } unfold below. replace qs with (map (fun r => q r * nth r (map fa_max (w_farms W)) 0)%Q (seq 0 (n_ren W))) by congruence. reflexivity. }
  assert (DUM : forall c, dummy W M h t = Ok c -> (eval s c == if w_feas W then s (NFea h t) else 0)%Q). { intros c Ec. apply (gets_inv W M s) in Ec as (Vc & _). rewrite Vc. unfold faux. destruct (w_feas W); cbn; ring. }
  assert (GEN : forall g, gen_sum W M h t (map (farm_gen W) (seq 0 (n_ren W))) = Ok g -> (eval s g == below (n_ren W) (fun r => output W s h t (n_conv W + n_hyd W + r)))%Q). { intros g Eg. apply (gen_sum_ok W M s) in Eg. rewrite Eg, map_map. reflexivity. }
  destruct (Nat.eq_dec (m_lres M) 0) as [Z|Z].
  - destruct (R' Z Lr) as (o & Eo & R1). assert (o = Some u) by congruence. subst o. destruct (R1 eq_refl t h Lt Lh) as (o & E & S). unfold unc_rule in E. apply bind_inv in E as (g & Eg & E). apply bind_inv in E as (qs & Eqs & E). rewrite U, bind_ok in E. apply bind_inv in E as (c & Ec & E). injection E as <-. specialize (S _ eq_refl). cbn [sat eval] in S. rewrite (GEN g Eg), (SUM qs Eqs), (DUM c Ec) in S. exists q, 0%Q. sp; [apply Hq| |apply Qle_refl| |reflexivity].
    + rewrite Qplus_0_r. rewrite (Qmult_comm (1 - u)). exact S.
    + apply HydroLimits.below_nonneg. intros g' Lg. now apply (output_nonneg W M s A).
  - destruct R as (_ & _ & R); [unfold services; apply Nat.ltb_lt; lia|]. destruct (R ltac:(lia)) as (R1 & R2). destruct (R1 t h Lt Lh) as (o & E & S). destruct (R2 t h Lt Lh) as (o' & E' & S').
    unfold service_rule in E. apply bind_inv in E as (ga & Ega & E). apply bind_inv in E as (v & Ev & E). injection E as <-. specialize (S _ eq_refl). unfold unc_rule in E'. apply bind_inv in E' as (g & Eg & E'). apply bind_inv in E' as (qs & Eqs & E'). rewrite U, bind_ok in E'. apply bind_inv in E' as (c & Ec & E'). cbv zeta in E'. apply bind_inv in E' as (v' & Ev' & E'). injection E' as <-. specialize (S' _ eq_refl). assert (v' = v) by congruence. subst v'. apply get_inv in Ev as (-> & DV). specialize (DM _ DV). cbn [domain] in DM. cbn [sat eval] in S, S'. rewrite (GEN g Eg), (SUM qs Eqs), (DUM c Ec) in S'. apply (gen_sum_ok W M s) in Ega. change (eval s ga == below (n_gen W) (output W s h t))%Q in Ega. rewrite Ega in S.
    exists q, (s (NServ (m_serv M * (h + 1) - 1) t)). sp; [apply Hq| |exact DM|exact S|].
    + rewrite (Qmult_comm (1 - u)). exact S'.
    + intros NU. exfalso. apply Z. destruct (initialise_inv _ _ _ I) as (gs & _ & _ & _ & _ & _ & _ & _ & _ & _ & _ & _ & _ & _ & _ & _ & _ & a & r & _ & ER & _ & _ & S3). unfold support in ER. destruct (n_ren W =? 0); [injection ER as <-; now rewrite S3|]. rewrite U, bind_ok in ER. rewrite S3. destruct (is_set (cv_res (w_conv W))); [|destruct (is_set (hs_res (w_hyd W)))]; injection ER as <-; cbn [snd]; try destruct (is_set _); lia.
Qed.
Print Assumptions C183_farms_partial.
(** The service may come from units that do not offer it, and from the farms: the correction changes nothing. *)
Definition gusty (unc : option Q) : power :=
  mkPower 1 [mkBus 1 0 1] [] false false false false [] None None false 1 [] [] plain_conv None [free 1 1 0] plain_hyd [] [mkFarm 1 1 0] [unc] [] [] 1 None 1 [1]%Q 1 None [1]%Q None None 1.
Definition gusty_answer : var -> Q := assign [(NGen 1 0, 1); (NServ 0 0, 1)]%Q.
Theorem C183_support_refuted : exists cf W M s u, initialise cf W = Ok M /\ answer W M s /\ nth_error (w_unc W) 0 = Some (Some u) /\ (0 < u)%Q /\ w_feas W = false /\ Forall (fun b => b = false) (cv_res (w_conv W)) /\ Forall (fun b => b = false) (hs_res (w_hyd W))
  /\ n_ren W = 1 /\ w_noh W = 1 /\ farm_profile W 0 0 0 1 /\ (output W s 0 0 (n_conv W + n_hyd W) == nth 0 (map fa_max (w_farms W)) 0)%Q /\ (output W s 0 0 0 == 0)%Q.
Proof. exists no_cf, (gusty (Some (1 # 2)%Q)), (model_of (gusty (Some (1 # 2)%Q))), gusty_answer, (1 # 2)%Q. sp; [vm_compute; reflexivity|apply check_answer; vm_compute; reflexivity|reflexivity|reflexivity|reflexivity|repeat constructor|repeat constructor|reflexivity|reflexivity| |vm_compute; reflexivity|vm_compute; reflexivity]. exists 1. split; reflexivity. Qed.
Print Assumptions C183_support_refuted.

(** A farm alone, with curtailment. *)
Definition alone : power :=
  mkPower 1 [mkBus 1 0 1] [] false false true false [] None None false 1 [] [] plain_conv None [] plain_hyd [] [mkFarm 1 1 0] [Some (1 # 4)%Q] [] [] 1 None 1 [1]%Q 1 None [1]%Q None None 1.
Example C183_witness : (let W := gusty (Some (1 # 2)%Q) in initialise no_cf W = Ok (model_of W) /\ answer W (model_of W) gusty_answer /\ nth_error (w_unc W) 0 = Some (Some (1 # 2)%Q) /\ n_ren W = 1)
  /\ initialise no_cf alone = Ok (model_of alone) /\ answer alone (model_of alone) (assign [(NGen 0 0, 7 # 8); (NFea 0 0, 1 # 8)]%Q) /\ n_conv alone + n_hyd alone = 0.
Proof. cbv zeta. sp; try reflexivity; try (vm_compute; reflexivity); apply check_answer; vm_compute; reflexivity. Qed.

(* ------------------------------------------------------------------ *)
(** ** C184 *)

(** Complete settings, without storage, cooling, ancillary service and uncertain renewables, give a model. *)
Theorem C184_built_partial : forall cf W, complete W -> exists M cs, initialise cf W = Ok M /\ constraints W M = Ok cs.
Proof.
  intros cf W C. destruct (initialise_total cf W C) as (M & I). destruct (constraints_total cf W C M I) as (cs & E). eauto.
Qed.
Print Assumptions C184_built_partial.
(** With storage there is none. *)
Theorem C184_storage_refuted : forall cf W M, initialise cf W = Ok M -> 0 < n_stor W -> exists e, constraints W M = Err e.
Proof.
  intros cf W M _ L. destruct (constraints W M) as [cs|e] eqn:E; [exfalso|eauto]. unfold constraints in E. repeat (apply bind_inv in E as (? & ?E & E)). apply Nat.ltb_lt in L. rewrite L in *. discriminate.
Qed.
Print Assumptions C184_storage_refuted.

Local Ltac settings :=
  constructor; cbn -[Qlt]; unfold branch_numbers, profiles_set; cbn -[Qlt];
  try match goal with |- _ -> _ /\ _ => intros _; split; [discriminate|intros [|[|[|?]]] ? ?; cbn; intros [= <-] [= <-]; discriminate] end;
  repeat first [apply I | reflexivity | discriminate | lia | progress intros | apply Forall_nil | apply Forall_cons | split | left; reflexivity | match goal with H : _ = true \/ _ |- _ => destruct H end ].
Example C184_witness : complete (ring true [1]) /\ complete windy /\ complete (units [Some 2] [1; 2; 3; 1]%Q).
Proof.
  split; [|split]; settings.
  all: try (cbn; lia); try (eexists; split; [left; reflexivity|reflexivity]). right; left; reflexivity.
Qed.
