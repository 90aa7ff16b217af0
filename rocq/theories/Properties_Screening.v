(** Properties C109-C118: the screening model. *)
From Coq Require Import List Bool Arith ZArith QArith Qabs Qround Qminmax Lia Lqa Permutation Sorted.
From Verif Require Import Base GraphData GraphDataProofs CasesProofs Cases Screening ScreeningSpec ScreeningProofs ScreeningPlans.
Import ListNotations.
Open Scope nat_scope.
Open Scope list_scope.

Local Ltac sp := repeat match goal with |- _ /\ _ => split end.

(** ** Concrete cases *)

(** Two buses, a generator at bus 1, a load at bus 2 and one branch. *)
Definition net (f t : Z) (rate hi : Q) (cost : list Q) (pd qd : Q) : mpc :=
  mkMPC 1 [1; 2]%Z [3; 1]%Z [0%Q; pd] [0%Q; qd] [f] [t] [1%Q] [rate] [1]%Z [1]%Z [hi] [0%Q] [1]%Z [2]%Z [3] [cost].
Definition args (m p : Q) : setup := mkSetup false false 200 1000 [[1]]%Z [p] [] [] [m; m] [0; 0]%Q 1.
Definition two_pi : Q := 6283185307179586 # 1000000000000000.

Lemma net_wf f t rate hi c2 c1 c0 pd qd m p : In f [1; 2]%Z -> In t [1; 2]%Z -> well_formed (net f t rate hi [c2; c1; c0] pd qd) (args m p).
Proof.
  intros F T. constructor; try reflexivity; cbn; try lia; auto; try discriminate.
  - intros g L. assert (g = 0) as -> by (unfold no_gen in L; cbn in L; lia). cbn. lia.
  - intros b L. assert (b = 0) as -> by (unfold no_branch in L; cbn in L; lia). cbn. discriminate.
  - intros z [<-|[]]. exact F.
  - intros z [<-|[]]. exact T.
Qed.

Definition satb (s : var -> Q) (c : constr) : bool :=
  match c with CLe a b => Qle_bool (eval s a) (eval s b) | CEq a b => Qeq_bool (eval s a) (eval s b) | CSkip => true end.
Definition below (n : nat) (p : nat -> bool) : bool := forallb p (seq 0 n).
Lemma below_ok n p : below n p = true -> forall i, i < n -> p i = true.
Proof. intros H i L. unfold below in H. rewrite forallb_forall in H. apply H, in_seq. lia. Qed.
Definition feasibleb (M : mpc) (A : setup) (tp : Q) (s : var -> Q) : bool :=
  below (no_gen M) (fun g => below (List.length (cont A)) (fun k => below (no_time A) (fun t => Qle_bool 0 (s (Pgen g k t)) && Qle_bool 0 (s (Cgen g k t))))) &&
  below (no_branch M) (fun b => below (no_time A) (fun t => Qle_bool 0 (s (ICbra b t)))) &&
  below (no_bus M) (fun n => below (List.length (cont A)) (fun k => below (no_time A) (fun t => Qle_bool (- tp) (s (Ang n k t)) && (Qle_bool (s (Ang n k t)) tp && Qle_bool 0 (s (Plc n k t)))))) &&
  match constraints M A with Ok cs => forallb (satb s) cs | Err _ => false end.
Lemma feasibleb_ok M A tp s : feasibleb M A tp s = true -> feasible M A tp s.
Proof.
  intros H. apply andb_true_iff in H as [H H4]. apply andb_true_iff in H as [H H3]. apply andb_true_iff in H as [H1 H2]. split.
  - unfold in_domain. cbv zeta. sp.
    + intros g k t Lg Lk Lt. pose proof (below_ok _ _ (below_ok _ _ (below_ok _ _ H1 g Lg) k Lk) t Lt) as X. apply andb_true_iff in X as [X Y]. apply Qle_bool_iff in X, Y. auto.
    + intros b t Lb Lt. apply Qle_bool_iff. exact (below_ok _ _ (below_ok _ _ H2 b Lb) t Lt).
    + intros n k t Ln Lk Lt. pose proof (below_ok _ _ (below_ok _ _ (below_ok _ _ H3 n Ln) k Lk) t Lt) as X. apply andb_true_iff in X as [X Y]. apply andb_true_iff in Y as [Y Z]. apply Qle_bool_iff in X, Y, Z. auto.
  - destruct (constraints M A) as [cs|]; [|discriminate]. exists cs. split; auto. apply Forall_forall. intros c I. rewrite forallb_forall in H4. apply H4 in I. destruct c; cbn in *; [now apply Qle_bool_iff|now apply Qeq_bool_iff|exact Logic.I].
Qed.

(** The answer in which the branch carries [p], extended by [ic], at the cost [c]. *)
Definition answer (p ang ic c : Q) (v : var) : Q :=
  match v with Pgen _ _ _ => Qabs p | Cgen _ _ _ => c | Pbra _ _ _ => p | ICbra _ _ => ic | Ang 1 _ _ => ang | _ => 0 end%Q.

(** In the network drawn from bus 2 to bus 1 the load of 5 needs an investment of 3 whatever was
    built earlier. *)
Lemma reversed_cost p s : plan (net 2 1 2 10 [0; 0; 0]%Q 5 0) (args 1 p) s two_pi -> (600 <= plan_cost (net 2 1 2 10 [0; 0; 0]%Q 5 0) (args 1 p) s)%Q.
Proof.
  intros [I O]. specialize (I 0 0 ltac:(cbn; lia) ltac:(cbn; lia)). specialize (O 0 0 ltac:(cbn; lia) ltac:(cbn; lia)).
  pose proof (op_balance _ _ _ _ _ _ O 1 ltac:(cbn; lia)) as B. pose proof (op_shed _ _ _ _ _ _ O 1 ltac:(cbn; lia)) as [S1 _]. pose proof (op_shed _ _ _ _ _ _ O 0 ltac:(cbn; lia)) as [S0 _].
  pose proof (op_cost _ _ _ _ _ _ O 0 ltac:(cbn; lia)) as C.
  assert (Sv : in_service (net 2 1 2 10 [0; 0; 0]%Q 5 0) (args 1 p) 0 0) by (split; [discriminate|cbn; discriminate]).
  destruct (op_rate _ _ _ _ _ _ O 0 ltac:(cbn; lia) Sv ltac:(cbn; discriminate)) as [_ R]. cbn in B, S1, S0, C, R, I |- *. unfold plan_cost, total, qsum. cbn. unfold demand_of, pd_of, qd_of in B. cbn in B. lra.
Qed.

(* ------------------------------------------------------------------ *)
(** ** C109 *)

(** In every contingency and at every time point, generation and shed load together are the demand. *)
Theorem C109_power_is_balanced : forall M A tp s k t, NoDup (bus_i M) -> costs_match M -> feasible M A tp s -> k < List.length (cont A) -> t < no_time A ->
  (total (no_gen M) (fun g => s (Pgen g k t)) + total (no_bus M) (fun n => s (Plc n k t)) == total (no_bus M) (demand_of M A))%Q.
Proof.
  intros M A tp s k t N C F Lk Lt. destruct F as (D & cs & E & S). assert (P : plan M A s tp) by (apply (model_is_plan M A tp s cs E C); split; eauto).
  apply (operation_balance M A tp); auto; [|now apply P]. exact (accepted_ends M A cs k t E Lk Lt).
Qed.
Print Assumptions C109_power_is_balanced.

Example C109_witness : NoDup (bus_i (net 1 2 2 10 [0; 0; 0]%Q 5 0)) /\ costs_match (net 1 2 2 10 [0; 0; 0]%Q 5 0) /\
  feasible (net 1 2 2 10 [0; 0; 0]%Q 5 0) (args 1 0) two_pi (answer 5 (-5) 3 0).
Proof.
  sp; [repeat constructor; cbn; intuition lia| |apply feasibleb_ok; vm_compute; reflexivity].
  apply (wf_costs _ (args 1 0)), net_wf; cbn; auto.
Qed.

(* ------------------------------------------------------------------ *)
(** ** C110 *)

(** The model that is built has exactly the plans as its answers, and their cost as its objective. *)
Theorem C110_answers_are_plans : forall M A tp s cs, constraints M A = Ok cs -> costs_match M ->
  (feasible M A tp s <-> plan M A s tp) /\ (forall e, objective M A = Ok e -> (eval s e == plan_cost M A s)%Q).
Proof. intros M A tp s cs E C. split; [exact (model_is_plan M A tp s cs E C)|]. intros e Ee. now apply objective_is_cost. Qed.
Print Assumptions C110_answers_are_plans.

Example C110_witness : exists cs e, constraints (net 1 2 2 10 [1; 2; 0]%Q 5 0) (args 1 0) = Ok cs /\ objective (net 1 2 2 10 [1; 2; 0]%Q 5 0) (args 1 0) = Ok e /\ costs_match (net 1 2 2 10 [1; 2; 0]%Q 5 0).
Proof.
  destruct (accepted (net 1 2 2 10 [1; 2; 0]%Q 5 0) (args 1 0)) as (cs & E); [apply net_wf; cbn; auto|reflexivity|]. exists cs. eexists. sp; [exact E|reflexivity|].
  apply (wf_costs _ (args 1 0)), net_wf; cbn; auto.
Qed.

(* ------------------------------------------------------------------ *)
(** ** C111 *)

(** The direction in which a branch is written matters: what was invested earlier is only available
    from the first bus to the second.  Here all answers for the exchanged network cost at least
    600, and there is an answer without cost for the original. *)
Theorem C111_refuted : exists M A F s e, well_formed M A /\ feasible M A two_pi s /\ objective M A = Ok e /\ (eval s e == 0)%Q /\
  forall s' e', feasible (flip F M) A two_pi s' -> objective (flip F M) A = Ok e' -> (600 <= eval s' e')%Q.
Proof.
  exists (net 1 2 2 10 [0; 0; 0]%Q 5 0), (args 1 3), (fun _ => true), (answer 5 (-5) 0 0). eexists. sp.
  - apply net_wf; cbn; auto.
  - apply feasibleb_ok. vm_compute. reflexivity.
  - reflexivity.
  - reflexivity.
  - intros s' e' F E. change (flip (fun _ => true) (net 1 2 2 10 [0; 0; 0]%Q 5 0)) with (net 2 1 2 10 [0; 0; 0]%Q 5 0) in *. rewrite (objective_is_cost _ _ _ _ E). apply reversed_cost.
    apply feasible_plan in F; auto; [|reflexivity]. apply net_wf; cbn; auto.
Qed.
Print Assumptions C111_refuted.

(** Without earlier investments in the exchanged branches it does not. *)
Theorem C111_orientation_partial : forall M A F tp s, well_formed M A -> (0 < nth 0 (pmax M) 0)%Q -> (forall b, b < no_branch M -> F b = true -> (nth b (prev A) 0 == 0)%Q) ->
  feasible M A tp s -> feasible (flip F M) A tp (flip_answer F s) /\
  forall e e', objective M A = Ok e -> objective (flip F M) A = Ok e' -> (eval (flip_answer F s) e' == eval s e)%Q.
Proof.
  intros M A F tp s W P Z H. split.
  - apply feasible_plan; [now apply flip_wf|exact P|]. apply flip_plan; auto. apply feasible_plan in H; auto.
  - intros e e' E E'. rewrite (objective_is_cost _ _ _ _ E), (objective_is_cost _ _ _ _ E'), flip_cost. reflexivity.
Qed.
Print Assumptions C111_orientation_partial.

Example C111_witness : well_formed (net 1 2 2 10 [0; 0; 0]%Q 5 0) (args 1 0) /\ (0 < nth 0 (pmax (net 1 2 2 10 [0; 0; 0]%Q 5 0)) 0)%Q /\
  feasible (net 1 2 2 10 [0; 0; 0]%Q 5 0) (args 1 0) two_pi (answer 5 (-5) 3 0).
Proof. sp; [apply net_wf; cbn; auto|reflexivity|apply feasibleb_ok; vm_compute; reflexivity]. Qed.

(* ------------------------------------------------------------------ *)
(** ** C112 *)

(** What a year has invested is not available to the next one: with unchanged demand the 3 MW built
    in the first year are charged again. *)
Theorem C112_refuted : exists M A s p, well_formed M A /\ feasible M A two_pi s /\ p = map (fun b => nth b (prev A) 0 + s (ICbra b 0))%Q (seq 0 (no_branch M)) /\
  forall s' e', feasible M (with_prev A p) two_pi s' -> objective M (with_prev A p) = Ok e' -> (600 <= eval s' e')%Q.
Proof.
  exists (net 2 1 2 10 [0; 0; 0]%Q 5 0), (args 1 0), (answer (-5) (-5) 3 0). eexists. sp.
  - apply net_wf; cbn; auto.
  - apply feasibleb_ok. vm_compute. reflexivity.
  - reflexivity.
  - intros s' e' F E. change (with_prev (args 1 0) _) with (args 1 (0 + 3)%Q) in F, E.
    rewrite (objective_is_cost _ _ _ _ E). apply reversed_cost. apply feasible_plan in F; auto; [|reflexivity]. apply net_wf; cbn; auto.
Qed.
Print Assumptions C112_refuted.

(** More earlier investments never make an answer infeasible; and they replace the investments of an
    answer whose flows respect the original limits in the second direction. *)
Theorem C112_earlier_investments_partial : forall M A tp s p, well_formed M A -> (0 < nth 0 (pmax M) 0)%Q -> List.length p = no_branch M -> feasible M A tp s ->
  ((forall b, b < no_branch M -> (nth b (prev A) 0 <= nth b p 0)%Q) -> feasible M (with_prev A p) tp s) /\
  ((forall b t, b < no_branch M -> t < no_time A -> (nth b (prev A) 0 + s (ICbra b t) <= nth b p 0)%Q) ->
   (forall b k t, b < no_branch M -> k < List.length (cont A) -> t < no_time A -> in_service M A b k -> ~ (nth b (rate_a M) 0 == 0)%Q -> (- s (Pbra b k t) <= nth b (rate_a M) 0)%Q) ->
   feasible M (with_prev A p) tp (no_invest s)).
Proof.
  intros M A tp s p W P L F. apply feasible_plan in F; auto. assert (W' : well_formed M (with_prev A p)) by now apply prev_wf. split.
  - intros H. apply feasible_plan; auto. now apply prev_plan.
  - intros H N. apply feasible_plan; auto. now apply carry_plan.
Qed.
Print Assumptions C112_earlier_investments_partial.

Example C112_witness : feasible (net 1 2 2 10 [0; 0; 0]%Q 5 0) (args 1 0) two_pi (answer 5 (-5) 3 0) /\ (forall k, (- answer 5 (-5) 3 0 (Pbra 0 k 0) <= 2)%Q) /\
  (0 + answer 5 (-5) 3 0 (ICbra 0 0) <= nth 0 [3%Q] 0)%Q.
Proof. sp; [apply feasibleb_ok; vm_compute; reflexivity|intros k; discriminate|discriminate]. Qed.

(* ------------------------------------------------------------------ *)
(** ** C113 *)

(** Reactive demand enters the balance but cannot be shed: without enough generation there is no
    answer at all. *)
Theorem C113_refuted : exists M A, well_formed M A /\ (0 < nth 0 (pmax M) 0)%Q /\ (forall n, (0 <= pd_of M A n)%Q /\ (0 <= qd_of M A n)%Q) /\ forall s, ~ feasible M A two_pi s.
Proof.
  exists (net 1 2 2 1 [0; 0; 0]%Q 0 5), (args 1 0). assert (W : well_formed (net 1 2 2 1 [0; 0; 0]%Q 0 5) (args 1 0)) by (apply net_wf; cbn; auto). sp; [auto|reflexivity| |].
  - intros [|[|[|n]]]; split; discriminate.
  - intros s F. pose proof F as F'. apply feasible_plan in F'; auto; [|reflexivity]. destruct F' as [_ O]. specialize (O 0 0 ltac:(cbn; lia) ltac:(cbn; lia)).
    assert (Nd : NoDup (bus_i (net 1 2 2 1 [0; 0; 0]%Q 0 5))) by (repeat constructor; cbn; intuition lia).
    pose proof (C109_power_is_balanced _ _ _ _ 0 0 Nd (wf_costs _ _ W) F ltac:(cbn; lia) ltac:(cbn; lia)) as B.
    pose proof (op_shed _ _ _ _ _ _ O 0 ltac:(cbn; lia)) as [_ S0]. pose proof (op_shed _ _ _ _ _ _ O 1 ltac:(cbn; lia)) as [_ S1].
    destruct (op_on _ _ _ _ _ _ O 0 ltac:(cbn; lia) ltac:(discriminate)) as (_ & n & [Fn _] & U). unfold total, demand_of, pd_of, qd_of, qsum in *. cbn in *.
    assert (n = 0 \/ n = 1) as [-> | ->] by (destruct n as [|[|[|n]]]; cbn in Fn; try discriminate; auto); cbn in U; lra.
Qed.
Print Assumptions C113_refuted.

(** Where the demand of every bus is between zero and its active demand, shedding all of it is an
    answer, with no generation and no investment. *)
Theorem C113_shed_all_partial : forall M A tp, well_formed M A -> (0 < nth 0 (pmax M) 0)%Q -> (0 <= tp)%Q ->
  (forall g, g < no_gen M -> runs M A g -> (nth g (pmin M) 0 <= 0)%Q /\ (0 <= nth g (pmax M) 0)%Q) -> (forall n, n < no_bus M -> (0 <= nth n (mult A) 0)%Q) ->
  (forall b, b < no_branch M -> (0 <= nth b (rate_a M) 0)%Q /\ (0 <= nth b (prev A) 0)%Q) ->
  (forall n, n < no_bus M -> (0 <= demand_of M A n)%Q /\ (demand_of M A n <= nth n (mult A) 0 * Qabs (pd_of M A n))%Q) ->
  exists s, feasible M A tp s /\ (forall g k t, (s (Pgen g k t) == 0)%Q) /\ (forall b t, (s (ICbra b t) == 0)%Q) /\ forall n k t, s (Plc n k t) = demand_of M A n.
Proof.
  intros M A tp W P T G Mu B D. exists (shed_all M A). sp; try reflexivity. apply feasible_plan; auto. now apply shed_plan.
Qed.
Print Assumptions C113_shed_all_partial.

Example C113_witness : let M := net 1 2 2 10 [0; 0; 0]%Q 5 0 in let A := args 1 0 in well_formed M A /\ (0 < nth 0 (pmax M) 0)%Q /\ (0 <= two_pi)%Q /\
  (forall g, g < no_gen M -> runs M A g -> (nth g (pmin M) 0 <= 0)%Q /\ (0 <= nth g (pmax M) 0)%Q) /\ (forall n, n < no_bus M -> (0 <= nth n (mult A) 0)%Q) /\
  (forall b, b < no_branch M -> (0 <= nth b (rate_a M) 0)%Q /\ (0 <= nth b (prev A) 0)%Q) /\
  (forall n, n < no_bus M -> (0 <= demand_of M A n)%Q /\ (demand_of M A n <= nth n (mult A) 0 * Qabs (pd_of M A n))%Q).
Proof.
  cbv zeta. sp; [apply net_wf; cbn; auto|reflexivity|discriminate| | | |].
  - intros g L _. assert (g = 0) as -> by (cbn in L; lia). split; discriminate.
  - intros [|[|n]] L; [discriminate|discriminate|cbn in L; lia].
  - intros b L. assert (b = 0) as -> by (cbn in L; lia). split; discriminate.
  - intros [|[|n]] L; [split; discriminate|split; discriminate|cbn in L; lia].
Qed.

(* ------------------------------------------------------------------ *)
(** ** C114 *)

(** The secants end at PMIN + PMAX: where the multiplier raises the limit of a generator above its
    PMAX, its cost is underestimated (24 instead of 36 at output 6). *)
Theorem C114_refuted : exists M A s, well_formed M A /\ feasible M A two_pi s /\ (forall x, cost_at M 0 x == x * x)%Q /\ (s (Cgen 0 0 0) < cost_at M 0 (s (Pgen 0 0 0)))%Q.
Proof.
  exists (net 1 2 10 3 [1; 0; 0]%Q 3 0), (args 2 0), (answer 6 (-6) 0 24). sp.
  - apply net_wf; cbn; auto.
  - apply feasibleb_ok. vm_compute. reflexivity.
  - intros x. unfold cost_at, polynomial. cbn [nth gc_cost net fold_left]. ring.
  - vm_compute. reflexivity.
Qed.
Print Assumptions C114_refuted.

(** For convex quadratics and outputs between PMIN and PMIN + PMAX no answer underestimates the cost,
    and a cheapest answer overestimates the cost without contingency by at most a * PMAX^2 / 36. *)
Theorem C114_convex_partial : forall M A tp s g k t a b c, costs_match M -> feasible M A tp s -> g < no_gen M -> k < List.length (cont A) -> t < no_time A ->
  (0 < nth g (pmax M) 0)%Q -> (0 <= a)%Q -> (forall x, cost_at M g x == a * x * x + b * x + c)%Q ->
  ((nth g (pmin M) 0 <= s (Pgen g k t) <= nth g (pmin M) 0 + nth g (pmax M) 0)%Q -> (cost_at M g (s (Pgen g k t)) <= s (Cgen g k t))%Q) /\
  (optimal M A tp s -> k = 0 -> (s (Cgen g k t) == 0)%Q \/ (s (Cgen g k t) <= cost_at M g (s (Pgen g k t)) + a * nth g (pmax M) 0 * nth g (pmax M) 0 / 36)%Q).
Proof.
  intros M A tp s g k t a b c CM F Lg Lk Lt P Pa Qd. pose proof F as (_ & cs & E & _). split.
  - intros [L U]. assert (O : plan M A s tp) by now apply (model_is_plan M A tp s cs E CM). destruct O as [_ O]. pose proof (op_secants _ _ _ _ _ _ (O k t Lk Lt) g) as Sc.
    set (x := s (Pgen g k t)) in *. assert (G : forall i, i < 3 -> (breakpoint M g i <= x <= breakpoint M g (S i))%Q -> (cost_at M g x <= s (Cgen g k t))%Q).
    { intros i Li [X Y]. specialize (Sc i Lg P Li). apply secant_line in Sc; auto. rewrite (secant_quadratic M g i x a b c P Qd) in Sc. rewrite Qd.
      assert (N : (0 <= a * (x - breakpoint M g i) * (breakpoint M g (S i) - x))%Q) by (apply Qmult_le_0_compat; [apply Qmult_le_0_compat|]; lra). lra. }
    unfold breakpoint in G. assert (D : (nth g (pmax M) 0 == 3 * (nth g (pmax M) 0 / 3))%Q) by field. set (d := (nth g (pmax M) 0 / 3)%Q) in *. set (lo := nth g (pmin M) 0%Q) in *.
    pose proof (G 0 ltac:(lia)) as G0. pose proof (G 1 ltac:(lia)) as G1. pose proof (G 2 ltac:(lia)) as G2. cbn in G0, G1, G2.
    change (inject_Z 0) with 0%Q in *. change (inject_Z 1) with 1%Q in *. change (inject_Z 2) with 2%Q in *. change (inject_Z 3) with 3%Q in *.
    destruct (Qlt_le_dec x (lo + d)) as [B0|B0]; [apply G0; lra|]. destruct (Qlt_le_dec x (lo + 2 * d)) as [B1|B1]; [apply G1; lra|apply G2; lra].
  - intros Opt ->. rewrite (cost_exactly M A tp s cs E CM Opt g t Lg Lt Lk). set (x := s (Pgen g 0 t)).
    destruct (top_hit (lines_at M g x)) as [Z|(q & I & Z)]; [now left|right]. rewrite Z. unfold lines_at in I. destruct (Qle_bool _ 0) eqn:Eq; [apply Qle_bool_iff in Eq; lra|].
    apply in_map_iff in I as (i & <- & _). rewrite (secant_quadratic M g i x a b c P Qd), Qd.
    assert (Eb : (breakpoint M g (S i) == breakpoint M g i + nth g (pmax M) 0 / 3)%Q).
    { unfold breakpoint. rewrite Nat2Z.inj_succ. unfold Z.succ. rewrite inject_Z_plus. change (inject_Z 1) with 1%Q. ring. }
    rewrite Eb. set (u := breakpoint M g i). set (h := nth g (pmax M) 0%Q).
    assert (N : (a * (x - u) * (u + h / 3 - x) == a * h * h / 36 - a * ((x - u - h / 6) * (x - u - h / 6)))%Q) by field.
    assert (Sq : (0 <= a * ((x - u - h / 6) * (x - u - h / 6)))%Q).
    { apply Qmult_le_0_compat; [auto|]. destruct (Qlt_le_dec (x - u - h / 6) 0) as [B|B]; [|now apply Qmult_le_0_compat].
      setoid_replace ((x - u - h / 6) * (x - u - h / 6))%Q with ((- (x - u - h / 6)) * (- (x - u - h / 6)))%Q by ring. apply Qmult_le_0_compat; lra. }
    lra.
Qed.
Print Assumptions C114_convex_partial.

Example C114_witness : costs_match (net 1 2 10 6 [1; 0; 0]%Q 3 0) /\ feasible (net 1 2 10 6 [1; 0; 0]%Q 3 0) (args 1 0) two_pi (answer 3 (-3) 0 10) /\
  (forall x, cost_at (net 1 2 10 6 [1; 0; 0]%Q 3 0) 0 x == 1 * x * x + 0 * x + 0)%Q.
Proof.
  sp; [apply (wf_costs _ (args 1 0)), net_wf; cbn; auto|apply feasibleb_ok; vm_compute; reflexivity|]. intros x. unfold cost_at, polynomial. cbn [nth gc_cost net fold_left]. ring.
Qed.

(* ------------------------------------------------------------------ *)
(** ** C115 *)

(** Two generators at bus 1, one of which supplies no active power. *)
Definition pair (hi hi' : Q) : mpc :=
  mkMPC 1 [1; 2]%Z [3; 1]%Z [0; 5]%Q [0; 0]%Q [1]%Z [2]%Z [1%Q] [10%Q] [1]%Z [1; 1]%Z [hi; hi'] [0; 0]%Q [1; 1]%Z [2; 2]%Z [3; 3] [[0; 1; 0]; [0; 1; 0]]%Q.
Lemma pair_wf hi hi' : well_formed (pair hi hi') (args 1 0).
Proof.
  constructor; try reflexivity; cbn; try lia; auto; try discriminate.
  - intros [|[|g]] L; cbn; try lia.
  - intros b L. assert (b = 0) as -> by (unfold no_branch in L; cbn in L; lia). cbn. discriminate.
  all: intros; intuition.
Qed.

(** The first generator decides: a case whose first generator has no active power is rejected, the same
    case with the generators exchanged is accepted. *)
Theorem C115_refuted : exists M M' A, well_formed M A /\ well_formed M' A /\ pmax M' = rev (pmax M) /\ constraints M A = Err UnboundLocalError /\ exists cs, constraints M' A = Ok cs.
Proof.
  exists (pair 0 10), (pair 10 0), (args 1 0). sp; try apply pair_wf; try reflexivity. apply accepted; [apply pair_wf|reflexivity].
Qed.
Print Assumptions C115_refuted.

(** A well-formed case is accepted exactly if its first generator has positive PMAX. *)
Theorem C115_accepted_partial : forall M A, well_formed M A -> ((exists cs, constraints M A = Ok cs) <-> (0 < nth 0 (pmax M) 0)%Q).
Proof.
  intros M A W. split; [|apply accepted; auto]. intros (cs & H). unfold constraints in H. destruct (read_parameters M); cbn [rbind] in H; [|discriminate].
  destruct (gen_cost M) as [pieces|] eqn:E; cbn [rbind] in H; [|discriminate]. exact (gen_cost_first M pieces E (wf_gen _ _ W)).
Qed.
Print Assumptions C115_accepted_partial.

Example C115_witness : well_formed (pair 10 0) (args 1 0) /\ (0 < nth 0 (pmax (pair 10 0)) 0)%Q.
Proof. split; [apply pair_wf|reflexivity]. Qed.

(* ------------------------------------------------------------------ *)
(** ** C116 *)

(** A cheapest answer invests exactly the largest overload of a branch, and nothing in branches
    without limit. *)
Theorem C116_invests_the_overload : forall M A tp s b t, costs_match M -> optimal M A tp s -> (0 < cicost A)%Q -> b < no_branch M -> t < no_time A ->
  let over k p q := k < List.length (cont A) /\ in_service M A b k /\ ~ (nth b (rate_a M) 0 == 0)%Q /\
    (p = s (Pbra b k t) /\ q = nth b (rate_a M) 0 + nth b (prev A) 0 \/ p = - s (Pbra b k t) /\ q = nth b (rate_a M) 0)%Q in
  ((s (ICbra b t) == 0)%Q \/ exists k p q, over k p q /\ (p == q + s (ICbra b t))%Q) /\
  (forall k p q, over k p q -> (p <= q + s (ICbra b t))%Q) /\ ((nth b (rate_a M) 0 == 0)%Q -> (s (ICbra b t) == 0)%Q).
Proof.
  intros M A tp s b t C O P Lb Lt over. pose proof O as ((_ & cs & E & _) & _). pose proof (invested_exactly M A tp s cs E C O b t Lb Lt P) as X.
  assert (Ov : forall k p q, over k p q -> In (p - q)%Q (overloads M A s b t) \/ exists r, In r (overloads M A s b t) /\ (r == p - q)%Q).
  { intros k p q (Lk & S & N & H). right. destruct H as [[-> ->]|[-> ->]]; [exists (s (Pbra b k t) - nth b (rate_a M) 0 - nth b (prev A) 0)%Q|exists (- s (Pbra b k t) - nth b (rate_a M) 0)%Q];
      (split; [apply overloads_spec; exists k; sp; auto|ring]). }
  sp.
  - destruct (top_hit (overloads M A s b t)) as [Z|(q & I & Z)]; [left; now rewrite X|right]. apply overloads_spec in I as (k & Lk & S & N & H).
    destruct H as [H|H]; [exists k, (s (Pbra b k t)), (nth b (rate_a M) 0 + nth b (prev A) 0)%Q|exists k, (- s (Pbra b k t))%Q, (nth b (rate_a M) 0)%Q];
      (split; [unfold over; sp; auto|]); rewrite X, Z, H; ring.
  - intros k p q H. rewrite X. destruct (Ov k p q H) as [I|(r & I & Er)]; apply top_ge in I; lra.
  - intros Z. destruct (top_hit (overloads M A s b t)) as [T|(q & I & _)]; [now rewrite X|]. apply overloads_spec in I as (k & _ & _ & N & _). contradiction.
Qed.
Print Assumptions C116_invests_the_overload.

Example C116_witness : optimal (net 2 1 2 10 [0; 0; 0]%Q 5 0) (args 1 0) two_pi (answer (-5) (-5) 3 0) /\ costs_match (net 2 1 2 10 [0; 0; 0]%Q 5 0).
Proof.
  assert (W : well_formed (net 2 1 2 10 [0; 0; 0]%Q 5 0) (args 1 0)) by (apply net_wf; cbn; auto). split; [split|].
  - apply feasibleb_ok. vm_compute. reflexivity.
  - eexists. split; [reflexivity|]. intros s' F. match goal with |- (eval _ ?e <= _)%Q => rewrite (objective_is_cost (net 2 1 2 10 [0; 0; 0]%Q 5 0) (args 1 0) s' e eq_refl) end.
    apply feasible_plan in F; [|auto|reflexivity]. apply reversed_cost in F. eapply Qle_trans; [|exact F]. vm_compute. discriminate.
  - exact (wf_costs _ _ W).
Qed.

(* ------------------------------------------------------------------ *)
(** ** C117 *)

(** The investment reported for a branch is the largest over the time points; the interventions are
    the positive ones, rounded up and sorted. *)
Lemma ins_perm a : forall l, Permutation ((fix ins (a : Z) (l : list Z) : list Z := match l with [] => [a] | x :: r => if Z.leb a x then a :: l else x :: ins a r end) a l) (a :: l).
Proof. induction l as [|x l IH]; [reflexivity|]. destruct (Z.leb a x); [reflexivity|]. rewrite IH. apply perm_swap. Qed.
Lemma ins_sorted a : forall l, Sorted Z.le l -> Sorted Z.le ((fix ins (a : Z) (l : list Z) : list Z := match l with [] => [a] | x :: r => if Z.leb a x then a :: l else x :: ins a r end) a l).
Proof.
  induction l as [|x l IH]; intros S; [repeat constructor|]. destruct (Z.leb_spec a x) as [L|L]; [constructor; auto; constructor; lia|]. inversion_clear S as [|? ? S' H]. constructor; auto.
  destruct l as [|y l]; [constructor; lia|]. inversion_clear H. destruct (Z.leb a y); constructor; lia.
Qed.
Theorem C117_results : forall M A s interv mx vect, results M A s = Ok (interv, mx, vect) ->
  List.length mx = no_branch M /\ List.length vect = no_branch M /\
  (forall b, b < no_branch M -> nth b vect 0%Q = s (ICbra b 0) /\ (exists t, t < no_time A /\ nth b mx 0%Q = s (ICbra b t)) /\ forall t, t < no_time A -> (s (ICbra b t) <= nth b mx 0)%Q) /\
  Sorted Z.le interv /\ Permutation interv (map Qceiling (filter (fun q => negb (Qle_bool q 0)) mx)).
Proof.
  intros M A s interv mx vect H. unfold results in H. destruct (mapM _ (seq 0 (no_branch M))) as [m|] eqn:E; cbn [rbind] in H; [|discriminate]. inversion H; subst. clear H.
  apply mapM_Ok in E. assert (L : List.length mx = no_branch M) by (rewrite <- (seq_length (no_branch M) 0); clear - E; induction E; cbn; congruence).
  assert (K : forall b, b < no_branch M -> match map (fun t => s (ICbra b t)) (seq 0 (no_time A)) with [] => Err ValueError | x :: r => Ok (qmax_of x r) end = Ok (nth b mx 0%Q)).
  { clear L. revert E. generalize (no_branch M). assert (X : forall n i m, Forall2 (fun a b => match map (fun t => s (ICbra a t)) (seq 0 (no_time A)) with [] => Err ValueError | x :: r => Ok (qmax_of x r) end = Ok b) (seq i n) m ->
      forall b, b < n -> match map (fun t => s (ICbra (i + b) t)) (seq 0 (no_time A)) with [] => Err ValueError | x :: r => Ok (qmax_of x r) end = Ok (nth b m 0%Q)).
    { induction n as [|n IH]; intros i m F b Lb; [lia|]. cbn [seq] in F. inversion F as [|? ? ? ? Ha Fa]; subst. destruct b as [|b]; [now rewrite Nat.add_0_r|]. rewrite <- Nat.add_succ_comm. cbn [nth]. apply IH; auto. lia. }
    intros n E b Lb. apply (X n 0 mx E b Lb). }
  sp; auto.
  - now rewrite map_length, seq_length.
  - intros b Lb. specialize (K b Lb). sp.
    + now rewrite nth_map_seq.
    + destruct (map (fun t => s (ICbra b t)) (seq 0 (no_time A))) as [|x r] eqn:Em; [discriminate|]. inversion K as [Eq]. destruct (qmax_of_spec r x) as (_ & _ & I). rewrite <- Em in I.
      apply in_map_iff in I as (t & Et & I). apply in_seq in I. exists t. split; [lia|auto].
    + intros t Lt. assert (I : In (s (ICbra b t)) (map (fun t => s (ICbra b t)) (seq 0 (no_time A)))) by (apply in_map_iff; exists t; split; auto; apply in_seq; lia).
      destruct (map (fun t => s (ICbra b t)) (seq 0 (no_time A))) as [|x r]; [discriminate|]. inversion K as [Eq]. destruct (qmax_of_spec r x) as (Q1 & Q2 & _). destruct I as [<-|I]; auto.
  - generalize (map Qceiling (filter (fun q => negb (Qle_bool q 0)) mx)). induction l as [|z l IH]; [constructor|]. cbn [fold_right]. now apply ins_sorted.
  - generalize (map Qceiling (filter (fun q => negb (Qle_bool q 0)) mx)). induction l as [|z l IH]; [constructor|]. cbn [fold_right]. rewrite ins_perm. now constructor.
Qed.
Print Assumptions C117_results.

Example C117_witness : results (mkMPC 1 [] [] [] [] [1; 2; 3]%Z [] [] [] [] [] [] [] [] [] [] []) (args 1 0) (fun v => match v with ICbra 0 _ => 5 # 2 | ICbra 2 _ => 3 # 2 | _ => 0 end)%Q =
  Ok ([2; 3]%Z, [5 # 2; 0; 3 # 2]%Q, [5 # 2; 0; 3 # 2]%Q).
Proof. vm_compute. reflexivity. Qed.

(* ------------------------------------------------------------------ *)
(** ** C118 *)

(** Further contingencies never make the plan cheaper. *)
Theorem C118_more_contingencies : forall M A tp s c d e e', well_formed M (with_cont A (c ++ d)) -> (0 < nth 0 (pmax M) 0)%Q -> (0 <= penalty A)%Q -> feasible M (with_cont A (c ++ d)) tp s ->
  objective M (with_cont A c) = Ok e -> objective M (with_cont A (c ++ d)) = Ok e' ->
  feasible M (with_cont A c) tp s /\ (eval s e <= eval s e')%Q.
Proof.
  intros M A tp s c d e e' W P Pp F E E'. apply feasible_plan in F; auto. assert (W' : well_formed M (with_cont A c)).
  { apply (cont_wf M (with_cont A (c ++ d)) c W). pose proof (wf_cont _ _ W) as X. cbn [cont with_cont] in X. now apply Forall_app in X. }
  split; [apply feasible_plan; auto; now apply cont_plan with d|]. rewrite (objective_is_cost _ _ _ _ E), (objective_is_cost _ _ _ _ E'). now apply cont_cost with tp.
Qed.
Print Assumptions C118_more_contingencies.

Example C118_witness : let M := net 1 2 2 10 [0; 0; 0]%Q 5 0 in let A := with_cont (args 1 0) ([[1]]%Z ++ [[0]]%Z) in
  let s := fun v => match v with Pgen _ 1 _ => 0 | Pbra _ 1 _ => 0 | Ang 1 1 _ => 0 | Plc 1 1 _ => 5 | _ => answer 5 (-5) 3 0 v end%Q in
  well_formed M A /\ feasible M A two_pi s /\ is_ok (objective M A) /\ is_ok (objective M (with_cont (args 1 0) [[1]]%Z)).
Proof.
  cbv zeta. sp; [apply (cont_wf _ (args 1 0)); [apply net_wf; cbn; auto|repeat constructor]|apply feasibleb_ok; vm_compute; reflexivity|exact I|exact I].
Qed.
