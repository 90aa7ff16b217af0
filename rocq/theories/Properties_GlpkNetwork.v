(** Properties of the models built with GLPK: the power system. *)
From Coq Require Import List String Bool Arith ZArith QArith Qminmax Lia Lqa.
From Verif Require Import Base Cases Network GraphData GraphDataProofs HydroTables Glpk GlpkSpec GlpkProofs GlpkEnergy GlpkRows GlpkParts GlpkNetwork GlpkNetworkSpec GlpkNetworkParts GlpkNetworkPlaces GlpkNetworkRows GlpkNetworkSystem GlpkNetworkValues.
Import ListNotations.
Open Scope nat_scope.
Open Scope list_scope.
Local Ltac sp := repeat match goal with |- _ /\ _ => split end.

(** All results of a model, and those expected of a plan. *)
Definition answers (m : nm) (S : solver) (x : nat -> Q) :=
  do g <- mapM (get_generation m S x) kinds; do c <- mapM (get_costs m S x) kinds; do u <- get_pumps m S x; do a <- get_angles m S x;
  do lc <- get_load_curtailment m S x; do gc <- get_generation_curtailment m S x; do f <- get_flows m S x; do l <- get_losses m S x;
  Ok (g, c, u, (a, lc, gc, f, l)).
Definition some_if {A} (b : bool) (a : A) : option A := if b then Some a else None.
Definition reported (m : nm) (p : plan) :=
  let units k := List.length (nm_units m k) in let buses := List.length (nm_buses m) in let lines := List.length (nm_lines m) in
  (map (fun k => some_if (0 <? units k) (grid m (p_gen p k) (units k) (nm_base m))) kinds,
   map (fun k => some_if (0 <? units k) (grid m (p_cost p k) (units k) 1)) kinds,
   some_if (0 <? List.length (nm_pumps m)) (grid m (p_pump p) (List.length (nm_pumps m)) (nm_base m)),
   (Some (grid4 m (p_angle p) buses 1), some_if (nm_feas m) (grid4 m (p_lc p) buses (nm_base m)), some_if (nm_feas m) (grid4 m (p_gc p) buses (nm_base m)),
    Some (grid4 m (p_flow p) lines (nm_base m)), match nm_losses m with Some _ => Some (grid4 m (p_loss p) lines (nm_base m)) | None => None end)).

Lemma table_grid m S x f g count scale : (forall i j n, period m i j -> n < count -> primal S x (f i j) n = Ok (g i j n)) -> table m S x f count scale = Ok (grid m g count scale).
Proof.
  intros H. unfold table, grid. apply mapM_pure. intros i I. apply in_seq in I. apply mapM_pure. intros j J. apply in_seq in J. apply mapM_pure. intros n N. apply in_seq in N. rewrite (H i j n) by (unfold period; lia). reflexivity.
Qed.
Lemma table4_grid m S x f g count scale : (forall i j k n, instance m i j k -> n < count -> primal S x (f i j k) n = Ok (g i j k n)) -> table4 m S x f count scale = Ok (grid4 m g count scale).
Proof.
  intros H. unfold table4, grid4. apply mapM_pure. intros i I. apply in_seq in I. apply mapM_pure. intros j J. apply in_seq in J. apply mapM_pure. intros k K. apply in_seq in K. apply mapM_pure. intros n N. apply in_seq in N. rewrite (H i j k n) by (unfold instance; lia). reflexivity.
Qed.
Lemma answers_reported m S x s p : nm_flag m = true -> agrees s p -> (forall n o, inside (vcols m) (n, o) -> primal S x n o = Ok (s (n, o))) -> answers m S x = Ok (reported m p).
Proof.
  intros FL AG P. unfold answers, reported.
  rewrite (mapM_pure (get_generation m S x) (fun k => some_if (0 <? List.length (nm_units m k)) (grid m (p_gen p k) (List.length (nm_units m k)) (nm_base m)))).
  2:{ intros k _. unfold get_generation, if_some, some_if. destruct (0 <? _); [|reflexivity]. rewrite (table_grid m S x _ (p_gen p k)); [reflexivity|]. intros i j n PE N. rewrite P by (now apply gen_inside). now rewrite (ag_gen s p AG). }
  rewrite bind_ok. rewrite (mapM_pure (get_costs m S x) (fun k => some_if (0 <? List.length (nm_units m k)) (grid m (p_cost p k) (List.length (nm_units m k)) 1))).
  2:{ intros k _. unfold get_costs, if_some, some_if. destruct (0 <? _); [|reflexivity]. rewrite (table_grid m S x _ (p_cost p k)); [reflexivity|]. intros i j n PE N. rewrite P by (now apply cost_inside). now rewrite (ag_cost s p AG). }
  rewrite bind_ok. assert (E : get_pumps m S x = Ok (some_if (0 <? List.length (nm_pumps m)) (grid m (p_pump p) (List.length (nm_pumps m)) (nm_base m)))).
  { unfold get_pumps, if_some, some_if. destruct (0 <? _); [|reflexivity]. rewrite (table_grid m S x _ (p_pump p)); [reflexivity|]. intros i j n PE N. rewrite P by (now apply pump_inside). now rewrite (ag_pump s p AG). }
  rewrite E, bind_ok. clear E. assert (E : get_angles m S x = Ok (Some (grid4 m (p_angle p) (List.length (nm_buses m)) 1))).
  { unfold get_angles, if_some. rewrite FL. rewrite (table4_grid m S x _ (p_angle p)); [reflexivity|]. intros i j k n PE N. rewrite P by (now apply angle_inside). now rewrite (ag_angle s p AG). }
  rewrite E, bind_ok. clear E. assert (E : get_load_curtailment m S x = Ok (some_if (nm_feas m) (grid4 m (p_lc p) (List.length (nm_buses m)) (nm_base m)))).
  { unfold get_load_curtailment, if_some, some_if. rewrite FL. cbn [andb]. destruct (nm_feas m) eqn:N; [|reflexivity]. rewrite (table4_grid m S x _ (p_lc p)); [reflexivity|]. intros i j k n PE NN. rewrite P by (now apply lc_inside). now rewrite (ag_lc s p AG). }
  rewrite E, bind_ok. clear E. assert (E : get_generation_curtailment m S x = Ok (some_if (nm_feas m) (grid4 m (p_gc p) (List.length (nm_buses m)) (nm_base m)))).
  { unfold get_generation_curtailment, if_some, some_if. rewrite FL. cbn [andb]. destruct (nm_feas m) eqn:N; [|reflexivity]. rewrite (table4_grid m S x _ (p_gc p)); [reflexivity|]. intros i j k n PE NN. rewrite P by (now apply gc_inside). now rewrite (ag_gc s p AG). }
  rewrite E, bind_ok. clear E. assert (E : get_flows m S x = Ok (Some (grid4 m (p_flow p) (List.length (nm_lines m)) (nm_base m)))).
  { unfold get_flows, if_some. rewrite FL. rewrite (table4_grid m S x _ (p_flow p)); [reflexivity|]. intros i j k n PE N. rewrite P by (now apply flow_inside). now rewrite (ag_flow s p AG). }
  rewrite E, bind_ok. clear E. unfold get_losses, if_some. rewrite FL. cbn [andb]. destruct (nm_losses m) as [c|] eqn:N; [|reflexivity]. rewrite (table4_grid m S x _ (p_loss p)); [reflexivity|]. intros i j k n PE NN. rewrite P by (apply loss_inside; auto; congruence). now rewrite (ag_loss s p AG).
Qed.
Lemma inside_name R n o : inside R (n, o) -> In n (map fst R).
Proof. intros (c & I & _). now apply in_map with (f := fst) in I. Qed.
Lemma opf_solver m : usable m -> limits_ok m -> nm_flag m = true -> exists S, optimisation_nm m = Ok S /\ exists vw : (nat -> Q) -> place -> Q,
  (forall x, feasible S x <-> opf_rules m (plan_of (vw x))) /\ (forall x, answers m S x = Ok (reported m (plan_of (vw x)))) /\ (forall x, get_objective S x == plan_cost m (plan_of (vw x)) (fun _ => 1) 100000000)%Q /\
  (forall p, exists x, (opf_rules m p -> feasible S x) /\ answers m S x = Ok (reported m p) /\ (get_objective S x == plan_cost m p (fun _ => 1) 100000000)%Q).
Proof.
  intros U L FL. destruct (opf_run m U FL) as (l & S & E & R & SO & vw & F & P & B & O). exists S. split.
  - unfold optimisation_nm. rewrite FL, E, bind_ok, R, bind_ok. unfold simplex. rewrite (proj2 SO); [reflexivity|]. now apply limits_proper.
  - assert (PR : forall x n o, inside (vcols m) (n, o) -> primal S x n o = Ok (vw x (n, o))) by (intros x n o I; apply P; now apply (inside_name _ n o)).
    exists vw. sp.
    + intros x. rewrite F. apply conds_rules; [exact U|apply agrees_plan].
    + intros x. apply (answers_reported m S x (vw x)); auto. apply agrees_plan.
    + intros x. unfold get_objective. rewrite O. unfold opf_objs. apply costs_sum; auto. apply agrees_plan.
    + intros p. destruct (B (value_of p)) as (x & X). exists x. sp.
      * intros H. apply F. apply (conds_ext _ _ _ (value_of p)).
        -- intros q b I. apply column_inside, (bounded_column m q b). now apply in_vbnds.
        -- intros r t I J. apply in_vspecs in I. now apply (terms_inside m r).
        -- intros q I. symmetry. now apply X.
        -- apply (conds_rules m (value_of p) p U (agrees_value p)). exact H.
      * apply (answers_reported m S x (value_of p)); auto; [apply agrees_value|]. intros n o I. rewrite (PR x n o I). now rewrite X.
      * unfold get_objective. rewrite O. rewrite <- (costs_sum m (value_of p) p (agrees_value p) (fun _ => 1%Q) 100000000 FL). apply term_sum_ext. intros t I. destruct t as [q a]. cbn [fst]. rewrite X; [reflexivity|]. exact (objs_inside m _ _ q a FL I).
Qed.

(* ------------------------------------------------------------------------------------------------------------------ *)
(** ** C234 *)

(** C234: for all networks of any size the optimal power flow can be built from, with limits in order, the problem for GLPK is built and solved; its answers are
    exactly the plans that meet the limits of units, pumps and lines, the pieces of the costs and losses, the law of the angles and the balance of every bus in every
    day, time and case; all results are the tables of the plan; and its objective is the cost of the plan. *)
Theorem C234_answers : forall m, usable m -> limits_ok m -> nm_flag m = true -> exists S, optimisation_nm m = Ok S /\
  (forall x, feasible S x -> exists p, opf_rules m p /\ answers m S x = Ok (reported m p) /\ (get_objective S x == plan_cost m p (fun _ => 1) 100000000)%Q) /\
  (forall p, opf_rules m p -> exists x, feasible S x /\ answers m S x = Ok (reported m p) /\ (get_objective S x == plan_cost m p (fun _ => 1) 100000000)%Q).
Proof.
  intros m U L FL. destruct (opf_solver m U L FL) as (S & E & vw & A & B & C & D). exists S. split; [exact E|]. split.
  - intros x F. exists (plan_of (vw x)). sp; auto. now apply A.
  - intros p H. destruct (D p) as (x & X & Y & Z). exists x. auto.
Qed.
Print Assumptions C234_answers.

(** A unit at the first bus, a demand of 2 at the second, two times of 2 hours. *)
Definition ex_bus1 : bus := mkBus 1 3 0.
Definition ex_bus2 : bus := mkBus 2 1 2.
Definition ex_line : line := mkLine 1 2 0 1 1 1 5 0 (fun _ => true).
Definition ex_unit : unit_ := mkUnit 1 0 10 [(3, 1)]%Q 0 true.
Definition ex_net : nm := mkNm 1 2 (fun k => match k with Thermal => [ex_unit] | _ => [] end) [] [] (fun _ => 2%Q) (fun _ _ _ => 1%Q) 0 [ex_bus1; ex_bus2] [ex_line] None (fun _ _ _ => 1%Q) None true 100 true.
Definition ex_plan : plan := mkPlan (fun _ _ _ _ => 2%Q) (fun _ _ _ _ => 14%Q) (fun _ _ _ => 0%Q) (fun _ _ _ => 0%Q) (fun _ _ _ _ => 2%Q) (fun _ _ _ _ => 0%Q) (fun _ _ _ _ => 0%Q) (fun _ _ _ _ => 0%Q) (fun _ _ _ n => if (n =? 0)%nat then 0%Q else (- (2))%Q).
Lemma single {A} (a b : A) n : nth_error [a] n = Some b -> n = 0 /\ b = a.
Proof. destruct n as [|n]; cbn; [intros E; injection E as ->; auto|]. destruct n; discriminate. Qed.
Lemma double {A} (a a' b : A) n : nth_error [a; a'] n = Some b -> (n = 0 /\ b = a) \/ (n = 1 /\ b = a').
Proof. destruct n as [|[|n]]; cbn; [intros E; injection E as ->; auto|intros E; injection E as ->; auto|]. destruct n; discriminate. Qed.
Lemma ex_usable : usable ex_net.
Proof.
  constructor; cbn; try discriminate; try lia; auto; try tauto.
  - intros [] u H; cbn in H; try tauto. destruct H as [<-|[]]. discriminate.
  - intros l [<-|[]]. cbn. lia.
  - intros l [<-|[]] E. discriminate E.
Qed.
Lemma ex_limits : limits_ok ex_net.
Proof.
  constructor; cbn; try tauto.
  - intros [] n u i j I J H; try (destruct n; discriminate H). apply single in H as (-> & ->). intros _. cbn. lra.
  - intros _ n b i j _ _ _ _. lra.
Qed.
Local Ltac q := vm_compute; (reflexivity || (intros; discriminate) || (split; intros; discriminate)).
Lemma ex_rules : opf_rules ex_net ex_plan.
Proof.
  intros i j I J. split.
  - constructor.
    + intros [] n u H; try (destruct n; discriminate H). apply single in H as (-> & ->). q.
    + intros [] n u H; try (destruct n; discriminate H). apply single in H as (-> & ->). split; [q|]. intros a b [E|[]]. injection E as <- <-. q.
    + intros n c H. destruct n; discriminate H.
    + intros n c H. destruct n; discriminate H.
  - intros k K. assert (k = 0) as -> by (unfold cases in K; cbn in K; lia). constructor.
    + intros n l H O. apply single in H as (-> & ->). discriminate O.
    + intros n l H O. apply single in H as (-> & ->). split; q.
    + intros c n l N. discriminate N.
    + intros _ n b H. apply double in H as [(-> & ->)|(-> & ->)]; (split; [q|split; [q|intros _; q]]).
    + intros n b H T. apply double in H as [(-> & ->)|(-> & ->)]; [q|discriminate T].
    + intros n b H T. assert (JJ : j = 0 \/ j = 1) by (cbn in J; lia). destruct JJ as [-> | ->]; apply double in H as [(-> & ->)|(-> & ->)]; q.
Qed.
Example C234_witness : usable ex_net /\ limits_ok ex_net /\ nm_flag ex_net = true /\ opf_rules ex_net ex_plan /\ (plan_cost ex_net ex_plan (fun _ => 1) 100000000 == 56)%Q.
Proof. split; [exact ex_usable|]. split; [exact ex_limits|]. split; [reflexivity|]. split; [exact ex_rules|]. reflexivity. Qed.

(** C234, which units are out of service: those switched off and those whose first bus is of type 4; a unit at no bus is not. *)
Theorem C234_service : forall m u, active m u = false <->
  un_on u = false \/ exists n b, nth_error (nm_buses m) n = Some b /\ bs_no b = un_bus u /\ bs_type b = 4 /\ forall n' b', n' < n -> nth_error (nm_buses m) n' = Some b' -> bs_no b' <> un_bus u.
Proof.
  intros m u. unfold active. induction (nm_buses m) as [|a l IH]; cbn [find].
  - split; [now left|]. intros [H|(n & b & H & _)]; [exact H|]. destruct n; discriminate H.
  - destruct (Nat.eqb_spec (un_bus u) (bs_no a)) as [E|E].
    + destruct (Nat.eqb_spec (bs_type a) 4) as [T|T].
      * split; [|reflexivity]. intros _. right. exists 0, a. sp; auto. intros n' b' L. lia.
      * split; [now left|]. intros [H|(n & b & H & B1 & B2 & B3)]; [exact H|]. destruct n as [|n]; [injection H as <-; now destruct T|]. exfalso. apply (B3 0 a); auto. lia.
    + rewrite IH. split.
      * intros [H|(n & b & H & B1 & B2 & B3)]; [now left|]. right. exists (S n), b. sp; auto. intros [|n'] b' L H'; [injection H' as <-; auto|]. apply (B3 n'); auto. lia.
      * intros [H|(n & b & H & B1 & B2 & B3)]; [now left|]. destruct n as [|n]; [injection H as <-; congruence|]. right. exists n, b. sp; auto. intros n' b' L H'. apply (B3 (S n')); auto. lia.
Qed.
Print Assumptions C234_service.
Example C234_service_witness : let m := mkNm 1 1 (fun _ => []) [] [] (fun _ => 2%Q) (fun _ _ _ => 1%Q) 0 [mkBus 1 4 0; mkBus 1 1 2] [ex_line] None (fun _ _ _ => 1%Q) None false 100 true in
  active m ex_unit = false /\ active m (mkUnit 2 0 10 [] 0 true) = true.
Proof. split; reflexivity. Qed.

(* ------------------------------------------------------------------------------------------------------------------ *)
(** ** C235 *)

Open Scope Q_scope.
Lemma bus_once l x q : NoDup (map bs_no l) -> In x (map bs_no l) -> qsum (map (fun b => if (x =? bs_no b)%nat then q else 0) l) == q.
Proof.
  induction l as [|b l IH]; intros N I; [destruct I|]. cbn [map] in *. inversion N as [|? ? H N']; subst. change (qsum (?a :: ?b)) with (a + qsum b). destruct (Nat.eqb_spec x (bs_no b)) as [->|D].
  - rewrite (qsum_zero (fun b0 => if (bs_no b =? bs_no b0)%nat then q else 0)); [ring|]. intros c I'. destruct (Nat.eqb_spec (bs_no b) (bs_no c)) as [E|]; [|reflexivity]. exfalso. apply H. rewrite E. now apply in_map.
  - destruct I as [E|I]; [congruence|]. rewrite IH; auto. ring.
Qed.
Lemma sum_swap {A B} (f : A -> B -> Q) l l' : qsum (map (fun a => qsum (map (f a) l')) l) == qsum (map (fun b => qsum (map (fun a => f a b) l)) l').
Proof.
  induction l as [|a l IH]; cbn [map]; [symmetry; apply qsum_zero; reflexivity|]. change (qsum (?a :: ?b)) with (a + qsum b). rewrite IH, <- qsum_plus. apply qsum_ext. intros b _. reflexivity.
Qed.
Lemma sum_const {A} (l : list A) q : qsum (map (fun _ => q) l) == inject_Z (Z.of_nat (List.length l)) * q.
Proof. induction l as [|a l IH]; [reflexivity|]. cbn [map]. change (qsum (?a :: ?b)) with (a + qsum b). rewrite IH. cbn [List.length]. rewrite Nat2Z.inj_succ. unfold Z.succ. rewrite inject_Z_plus. change (inject_Z 1) with 1. ring. Qed.
(** The totals of a period and case. *)
Definition produced (m : nm) (p : plan) (i j : nat) : Q := qsum (map (fun k => total (nm_units m k) (fun n _ => p_gen p k i j n)) kinds).
Definition consumed (m : nm) (i j : nat) : Q := total (nm_buses m) (fun n b => demand m i j n b).
Definition wasted (m : nm) (p : plan) (i j k : nat) : Q := total (nm_lines m) (fun n l => match nm_losses m with Some _ => p_loss p i j k n | None => ln_loss l end).
Definition shed (m : nm) (p : plan) (i j k : nat) : Q := total (nm_buses m) (fun n _ => curtailed m p i j k n).
(** Buses have different numbers, none is out of service, and units and lines end at them. *)
Definition connected (m : nm) : Prop :=
  NoDup (map bs_no (nm_buses m)) /\ (forall b, In b (nm_buses m) -> bs_type b <> 4%nat) /\ (forall k u, In u (nm_units m k) -> In (un_bus u) (map bs_no (nm_buses m))) /\
  (forall l, In l (nm_lines m) -> In (ln_from l) (map bs_no (nm_buses m)) /\ In (ln_to l) (map bs_no (nm_buses m))).

(** C235 (partial): with all buses in service, in every day, time and case of every plan that meets the rules, what is produced and curtailed is what is consumed and lost and,
    once for every bus, what pumps take less the change of what is stored.  Missing: a single draw by the pumps and the storage (see the refutation). *)
Theorem C235_conserved_partial : forall m p, opf_rules m p -> connected m -> forall i j k, (i < nm_days m)%nat -> (j < nm_times m)%nat -> (k < cases m)%nat ->
  produced m p i j + shed m p i j k == consumed m i j + wasted m p i j k + inject_Z (Z.of_nat (List.length (nm_buses m))) * (pumped m p i j - stored_power m p i j).
Proof.
  intros m p H (ND & T & IU & IL) i j k I J K. destruct (H i j I J) as (_ & C). specialize (C k K). set (z := inject_Z (Z.of_nat (List.length (nm_buses m)))).
  assert (S1 : total (nm_buses m) (fun n b => at_bus m p i j b + stored_power m p i j + from_lines m p i j k b + curtailed m p i j k n) == total (nm_buses m) (fun n b => demand m i j n b + pumped m p i j + lost m p i j k b)).
  { apply total_ext. intros n b E. apply (cr_balance m p i j k C n b E). apply T. now apply nth_error_In in E. }
  rewrite !total_plus in S1. fold (consumed m i j) in S1. fold (shed m p i j k) in S1.
  assert (SC : forall q, total (nm_buses m) (fun _ _ => q) == z * q) by (intros q; rewrite (total_list (nm_buses m) (fun _ => q)); apply sum_const). rewrite !SC in S1.
  assert (A : total (nm_buses m) (fun _ b => at_bus m p i j b) == produced m p i j).
  { rewrite (total_list (nm_buses m) (fun b => at_bus m p i j b)). unfold at_bus, produced. rewrite sum_swap. apply qsum_ext. intros g _. unfold total at 1. rewrite sum_swap. apply qsum_ext. intros (n & u) X. apply in_enum in X. cbn [fst snd]. apply bus_once; auto. apply (IU g u). now apply nth_error_In in X. }
  assert (L : total (nm_buses m) (fun _ b => from_lines m p i j k b) == 0).
  { rewrite (total_list (nm_buses m) (fun b => from_lines m p i j k b)). unfold from_lines, total. rewrite sum_swap. apply qsum_zero. intros (n & l) X. apply in_enum in X. cbn [fst snd]. destruct (IL l (nth_error_In _ _ X)) as (F1 & F2).
    pose proof (bus_once _ _ (p_flow p i j k n) ND F2) as B2. pose proof (bus_once _ _ (p_flow p i j k n) ND F1) as B1. unfold Qminus. rewrite qsum_plus, B2. setoid_replace (qsum (map (fun a => - (if (ln_from l =? bs_no a)%nat then p_flow p i j k n else 0)) (nm_buses m))) with (- (1) * qsum (map (fun a => if (ln_from l =? bs_no a)%nat then p_flow p i j k n else 0) (nm_buses m))); [rewrite B1; ring|]. rewrite <- qsum_times. apply qsum_ext. intros a _. ring. }
  assert (W : total (nm_buses m) (fun _ b => lost m p i j k b) == wasted m p i j k).
  { rewrite (total_list (nm_buses m) (fun b => lost m p i j k b)). unfold lost, wasted, total. rewrite sum_swap. apply qsum_ext. intros (n & l) X. apply in_enum in X. cbn [fst snd]. destruct (IL l (nth_error_In _ _ X)) as (F1 & F2). set (v := match nm_losses m with Some _ => p_loss p i j k n | None => ln_loss l end).
    pose proof (bus_once _ _ ((1 # 2) * v) ND F2) as B2. pose proof (bus_once _ _ ((1 # 2) * v) ND F1) as B1. transitivity ((1 # 2) * v + (1 # 2) * v); [|ring]. etransitivity; [|exact (Qplus_comp _ _ B1 _ _ B2)]. rewrite <- qsum_plus. apply qsum_ext. intros b _. destruct (ln_from l =? bs_no b)%nat, (ln_to l =? bs_no b)%nat; ring. }
  rewrite A, L, W in S1. change (total (nm_buses m) (fun n _ => curtailed m p i j k n)) with (shed m p i j k) in S1. change (total (nm_buses m) (demand m i j)) with (consumed m i j) in S1. clearbody z. lra.
Qed.
Print Assumptions C235_conserved_partial.

Example C235_witness : opf_rules ex_net ex_plan /\ connected ex_net /\ produced ex_net ex_plan 0 1 == 2 /\ consumed ex_net 0 1 == 2.
Proof.
  split; [exact ex_rules|]. split; [|split; reflexivity]. unfold connected. cbn. sp.
  - constructor; [intros [E|[]]; discriminate E|]. constructor; [intros []|constructor].
  - intros b [<-|[<-|[]]]; discriminate.
  - intros [] u H; cbn in H; try tauto. destruct H as [<-|[]]. cbn. auto.
  - intros l [<-|[]]. cbn. auto.
Qed.

(** A pump of at most 1 beside the unit; and a line from a bus that is out of service. *)
Definition ex_pumping : nm := mkNm 1 1 (nm_units ex_net) [(1, 0)] [] (fun _ => 2) (fun _ _ _ => 1) 0 [ex_bus1; ex_bus2] [ex_line] None (fun _ _ _ => 1) None false 100 true.
Definition ex_pumping_plan : plan := mkPlan (fun _ _ _ _ => 4) (fun _ _ _ _ => 26) (fun _ _ _ => 0) (fun _ _ _ => 1) (fun _ _ _ _ => 3) (fun _ _ _ _ => 0) (fun _ _ _ _ => 0) (fun _ _ _ _ => 0) (fun _ _ _ n => if (n =? 0)%nat then 0 else - (3)).
Definition ex_dark : nm := mkNm 1 1 (fun _ => []) [] [] (fun _ => 2) (fun _ _ _ => 1) 0 [mkBus 1 4 0; ex_bus2] [ex_line] None (fun _ _ _ => 1) None false 100 true.
Definition ex_dark_plan : plan := mkPlan (fun _ _ _ _ => 0) (fun _ _ _ _ => 0) (fun _ _ _ => 0) (fun _ _ _ => 0) (fun _ _ _ _ => 2) (fun _ _ _ _ => 0) (fun _ _ _ _ => 0) (fun _ _ _ _ => 0) (fun _ _ _ n => if (n =? 0)%nat then 2 else 0).
Lemma ex_pumping_ok : usable ex_pumping /\ limits_ok ex_pumping /\ opf_rules ex_pumping ex_pumping_plan.
Proof.
  sp.
  - constructor; cbn; try discriminate; try lia; auto; try tauto.
    + intros [] u H; cbn in H; try tauto. destruct H as [<-|[]]. discriminate.
    + intros l [<-|[]]. cbn. lia.
    + intros l [<-|[]] E. discriminate E.
  - constructor; cbn; try discriminate.
    + intros [] n u i j I J H; try (destruct n; discriminate H). apply single in H as (-> & ->). intros _. cbn. lra.
    + intros _ _ c [<-|[]]. cbn. lra.
  - intros i j I J. split.
    + constructor.
      * intros [] n u H; try (destruct n; discriminate H). apply single in H as (-> & ->). q.
      * intros [] n u H; try (destruct n; discriminate H). apply single in H as (-> & ->). split; [q|]. intros a b [E|[]]. injection E as <- <-. q.
      * intros n c H. apply single in H as (-> & ->). q.
      * intros n c H. destruct n; discriminate H.
    + intros k K. assert (k = 0%nat) as -> by (unfold cases in K; cbn in K; lia). constructor.
      * intros n l H O. apply single in H as (-> & ->). discriminate O.
      * intros n l H O. apply single in H as (-> & ->). split; q.
      * intros c n l N. discriminate N.
      * intros N. discriminate N.
      * intros n b H T. apply double in H as [(-> & ->)|(-> & ->)]; [q|discriminate T].
      * intros n b H T. assert (j = 0%nat) as -> by (cbn in J; lia). apply double in H as [(-> & ->)|(-> & ->)]; q.
Qed.
Lemma ex_dark_ok : usable ex_dark /\ limits_ok ex_dark /\ opf_rules ex_dark ex_dark_plan.
Proof.
  sp.
  - constructor; cbn; try discriminate; try lia; auto; try tauto.
    + intros l [<-|[]]. cbn. lia.
    + intros l [<-|[]] E. discriminate E.
  - constructor; cbn; try discriminate; try tauto. intros k n u i j I J H. destruct n; discriminate H.
  - intros i j I J. split.
    + constructor; intros; match goal with H : nth_error _ ?n = Some _ |- _ => destruct n; discriminate H end.
    + intros k K. assert (k = 0%nat) as -> by (unfold cases in K; cbn in K; lia). constructor.
      * intros n l H O. apply single in H as (-> & ->). discriminate O.
      * intros n l H O. apply single in H as (-> & ->). split; q.
      * intros c n l N. discriminate N.
      * intros N. discriminate N.
      * intros n b H T. apply double in H as [(-> & ->)|(-> & ->)]; discriminate T.
      * intros n b H T. assert (j = 0%nat) as -> by (cbn in J; lia). apply double in H as [(-> & ->)|(-> & ->)]; [now destruct T|q].
Qed.

(** C235 (what is produced is what is consumed, lost and pumped) is false: pumps take their power at every bus, so that 4 are produced for a demand of 2 and a pump of 1; and a line from
    a bus that is out of service brings power that nothing produces. *)
Theorem C235_refuted :
  (exists m p, usable m /\ limits_ok m /\ nm_flag m = true /\ connected m /\ opf_rules m p /\ nm_stores m = [] /\ shed m p 0 0 0 == 0 /\ wasted m p 0 0 0 == 0 /\
     pumped m p 0 0 == 1 /\ consumed m 0 0 == 2 /\ produced m p 0 0 == 4) /\
  (exists m p, usable m /\ limits_ok m /\ nm_flag m = true /\ opf_rules m p /\ nm_stores m = [] /\ nm_pumps m = [] /\ (forall k, nm_units m k = []) /\ shed m p 0 0 0 == 0 /\ wasted m p 0 0 0 == 0 /\ consumed m 0 0 == 2).
Proof.
  split.
  - exists ex_pumping, ex_pumping_plan. destruct ex_pumping_ok as (A & B & C). sp; auto; try reflexivity. exact (proj1 (proj2 C235_witness)).
  - exists ex_dark, ex_dark_plan. destruct ex_dark_ok as (A & B & C). sp; auto; reflexivity.
Qed.
Print Assumptions C235_refuted.

(* ------------------------------------------------------------------------------------------------------------------ *)
(** ** C236 *)

(** Nothing at the first time, a demand of 2 at both buses at the second, no units and a storage device. *)
Definition ex_storing : nm := mkNm 1 2 (fun _ => []) [] [1] (fun _ => 2) (fun _ _ _ => 1) 0 [mkBus 1 3 2; ex_bus2] [ex_line] None (fun _ j _ => if (j =? 0)%nat then 0 else 1) None false 100 true.
Definition ex_storing_plan : plan := mkPlan (fun _ _ _ _ => 0) (fun _ _ _ _ => 0) (fun _ j _ => if (j =? 0)%nat then 0 else 4) (fun _ _ _ => 0) (fun _ _ _ _ => 0) (fun _ _ _ _ => 0) (fun _ _ _ _ => 0) (fun _ _ _ _ => 0) (fun _ _ _ _ => 0).
Lemma ex_storing_ok : usable ex_storing /\ limits_ok ex_storing /\ opf_rules ex_storing ex_storing_plan.
Proof.
  sp.
  - constructor; cbn; try discriminate; try lia; auto; try tauto.
    + intros l [<-|[]]. cbn. lia.
    + intros l [<-|[]] E. discriminate E.
  - constructor; cbn; try discriminate; try tauto. intros k n u i j I J H. destruct n; discriminate H.
  - intros i j I J. split.
    + constructor; try (intros; match goal with H : nth_error _ ?n = Some _ |- _ => destruct n; discriminate H end).
      intros n c H. apply single in H as (-> & ->). cbn. destruct (j =? 0)%nat; lra.
    + intros k K. assert (k = 0%nat) as -> by (unfold cases in K; cbn in K; lia). constructor.
      * intros n l H O. apply single in H as (-> & ->). discriminate O.
      * intros n l H O. apply single in H as (-> & ->). split; q.
      * intros c n l N. discriminate N.
      * intros N. discriminate N.
      * intros n b H T. reflexivity.
      * intros n b H T. assert (JJ : j = 0%nat \/ j = 1%nat) by (cbn in J; lia). destruct JJ as [-> | ->]; apply double in H as [(-> & ->)|(-> & ->)]; q.
Qed.

(** C236 (what a storage device gives to the network was stored before) is false: energy that is put into it is given to every bus, and there is no limit to it, so that a network without units
    serves a demand of 2 at each of two buses while the energy stored rises from 0 to 4. *)
Theorem C236_refuted : exists m p, usable m /\ limits_ok m /\ nm_flag m = true /\ opf_rules m p /\ (forall k, nm_units m k = []) /\ nm_pumps m = [] /\ connected m /\
  shed m p 0 1 0 == 0 /\ wasted m p 0 1 0 == 0 /\ consumed m 0 1 == 4 /\ p_store p 0 0 0 == 0 /\ p_store p 0 1 0 == 4.
Proof.
  exists ex_storing, ex_storing_plan. destruct ex_storing_ok as (A & B & C). sp; auto; try reflexivity. unfold connected. cbn. sp.
  - constructor; [intros [E|[]]; discriminate E|]. constructor; [intros []|constructor].
  - intros b [<-|[<-|[]]]; discriminate.
  - tauto.
  - intros l [<-|[]]. cbn. auto.
Qed.
Print Assumptions C236_refuted.

(** C236 (partial): without devices nothing is given, and with one and no contingencies each bus is given the rise of the energy, times the efficiency over the hours of the time before.  Missing: the other sign. *)
Theorem C236_rise_partial : forall m p, opf_rules m p -> usable m -> forall i j n b, (i < nm_days m)%nat -> (0 < j < nm_times m)%nat -> nth_error (nm_buses m) n = Some b -> bs_type b <> 4%nat ->
  exists e s0 s1, (nm_stores m = [] /\ e == 0 \/ nm_stores m = [e] /\ s0 == p_store p i (j - 1) 0 /\ s1 == p_store p i j 0 /\ 0 <= s0 /\ 0 <= s1) /\
    demand m i j n b - at_bus m p i j b - from_lines m p i j 0 b - curtailed m p i j 0 n + pumped m p i j + lost m p i j 0 b == e * (s1 - s0) / nm_hours m (j - 1).
Proof.
  intros m p H U i j n b I J E T. destruct (H i j I ltac:(lia)) as (PR & C). assert (K : (0 < cases m)%nat) by (unfold cases; lia). specialize (C 0%nat K). pose proof (cr_balance m p i j 0 C n b E T) as B. unfold stored_power in B. destruct (Nat.eqb_spec j 0); [lia|].
  destruct (us_stores m U) as [Z|[Z|(Z & _)]]; [|lia|].
  - exists 0, 0, 0. split; [left; split; [exact Z|reflexivity]|]. rewrite Z in B. unfold total at 1 in B. cbn [enum map combine seq List.length] in B. change (qsum []) with 0 in B. setoid_replace (0 * (0 - 0) / nm_hours m (j - 1)) with 0 by (unfold Qdiv; ring). lra.
  - pose proof (pr_store m p i j PR 0%nat) as P1. destruct (H i (j - 1)%nat I ltac:(lia)) as (PR' & _). pose proof (pr_store m p i (j - 1) PR' 0%nat) as P0. destruct (nm_stores m) as [|e [|]] eqn:Y; try discriminate Z. exists e, (p_store p i (j - 1) 0), (p_store p i j 0). split.
    + right. split; [reflexivity|]. split; [reflexivity|]. split; [reflexivity|]. split; [exact (P0 e eq_refl)|exact (P1 e eq_refl)].
    + unfold total at 1 in B. cbn [enum map combine seq List.length fst snd] in B. change (qsum [?a]) with (a + 0) in B. unfold Qdiv in *. lra.
Qed.
Print Assumptions C236_rise_partial.
Example C236_witness : opf_rules ex_storing ex_storing_plan /\ usable ex_storing /\ nm_stores ex_storing = [1].
Proof. destruct ex_storing_ok as (A & B & C). sp; auto. Qed.

(* ------------------------------------------------------------------------------------------------------------------ *)
(** ** C237 *)

(** The cost of a unit over a time: the highest piece, and not below 0. *)
Definition unit_cost (m : nm) (j : nat) (u : unit_) (g : Q) : Q := fold_right (fun c q => Qmax (nm_hours m j * (fst c * g + snd c)) q) 0 (un_pieces u).
Definition running_cost (m : nm) (p : plan) : Q := over_periods m (fun i j => qsum (map (fun k => total (nm_units m k) (fun n u => unit_cost m j u (p_gen p k i j n))) kinds)).
Lemma unit_cost_pos m j u g : 0 <= unit_cost m j u g.
Proof. unfold unit_cost. induction (un_pieces u) as [|c r IH]; [apply Qle_refl|]. cbn [fold_right]. eapply Qle_trans; [exact IH|apply Q.le_max_r]. Qed.
Lemma unit_cost_piece m j u g a b : In (a, b) (un_pieces u) -> nm_hours m j * (a * g + b) <= unit_cost m j u g.
Proof. unfold unit_cost. induction (un_pieces u) as [|c r IH]; [intros []|]. cbn [fold_right]. intros [->|I]; [apply Q.le_max_l|]. eapply Qle_trans; [now apply IH|apply Q.le_max_r]. Qed.
Lemma unit_cost_least m j u g q : 0 <= q -> (forall a b, In (a, b) (un_pieces u) -> nm_hours m j * (a * g + b) <= q) -> unit_cost m j u g <= q.
Proof. intros Z. unfold unit_cost. induction (un_pieces u) as [|c r IH]; intros H; [exact Z|]. cbn [fold_right]. apply Q.max_lub; [destruct c as [a b]; apply H; now left|]. apply IH. intros a b I. apply H. now right. Qed.
Lemma sum_le {A} (f g : A -> Q) l : (forall a, In a l -> f a <= g a) -> qsum (map f l) <= qsum (map g l).
Proof. induction l as [|a l IH]; intros H; [apply Qle_refl|]. cbn [map]. change (qsum (?a :: ?b)) with (a + qsum b). apply Qplus_le_compat; [apply H; now left|]. apply IH. intros b I. apply H. now right. Qed.
Lemma sum_lt {A} (f g : A -> Q) l a : In a l -> f a < g a -> (forall b, In b l -> f b <= g b) -> qsum (map f l) < qsum (map g l).
Proof.
  induction l as [|b l IH]; intros I L H; [destruct I|]. cbn [map]. change (qsum (?a :: ?b)) with (a + qsum b). destruct I as [->|I].
  - pose proof (sum_le f g l (fun c J => H c (or_intror J))). lra.
  - pose proof (IH I L (fun c J => H c (or_intror J))). pose proof (H b (or_introl eq_refl)). lra.
Qed.
Definition tight (m : nm) (p : plan) : plan :=
  mkPlan (p_gen p) (fun k i j n => match nth_error (nm_units m k) n with Some u => unit_cost m j u (p_gen p k i j n) | None => 0 end) (p_store p) (p_pump p) (p_flow p) (p_loss p) (p_lc p) (p_gc p) (p_angle p).
Lemma tight_rules m p : opf_rules m p -> opf_rules m (tight m p).
Proof.
  intros H i j I J. destruct (H i j I J) as (A & B). split.
  - destruct A as [A1 A2 A3 A4]. constructor; auto. intros k n u E. cbn [tight p_cost p_gen]. rewrite E. split; [apply unit_cost_pos|]. intros a b X. now apply unit_cost_piece.
  - intros k K. destruct (B k K) as [B1 B2 B3 B4 B5 B6]. constructor; auto.
Qed.
Lemma tight_least m p i j k n u : opf_rules m p -> (i < nm_days m)%nat -> (j < nm_times m)%nat -> nth_error (nm_units m k) n = Some u -> p_cost (tight m p) k i j n <= p_cost p k i j n.
Proof. intros H I J E. destruct (H i j I J) as (A & _). destruct (pr_cost m p i j A k n u E) as (Z & X). cbn [tight p_cost]. rewrite E. now apply unit_cost_least. Qed.
Lemma tight_cheaper m p i j k n u : opf_rules m p -> (forall j, (j < nm_times m)%nat -> 0 < nm_hours m j) -> (i < nm_days m)%nat -> (j < nm_times m)%nat -> nth_error (nm_units m k) n = Some u ->
  p_cost (tight m p) k i j n < p_cost p k i j n -> plan_cost m (tight m p) (fun _ => 1) 100000000 < plan_cost m p (fun _ => 1) 100000000.
Proof.
  intros H HP I J E L. unfold plan_cost, over_periods.
  set (A := fun (r : plan) i j => qsum (map (fun k => total (nm_units m k) (fun n _ => p_cost r k i j n)) kinds)).
  set (B := fun i j => nm_base m * total (nm_pumps m) (fun n c => snd c * p_pump p i j n)). set (C := fun i j => if nm_feas m then 100000000 * qsum (map (fun k => total (nm_buses m) (fun n _ => p_lc p i j k n + p_gc p i j k n)) (seq 0 (cases m))) else 0).
  assert (AL : forall i j, (i < nm_days m)%nat -> (j < nm_times m)%nat -> A (tight m p) i j <= A p i j).
  { intros i' j' I' J'. apply sum_le. intros g _. unfold total. apply sum_le. intros (o & v) X. apply in_enum in X. cbn [fst snd]. now apply (tight_least m p i' j' g o v). }
  assert (AS : A (tight m p) i j < A p i j).
  { apply (sum_lt _ _ kinds k); [apply in_kinds| |intros g _; unfold total; apply sum_le; intros (o & v) X; apply in_enum in X; cbn [fst snd]; now apply (tight_least m p i j g o v)].
    unfold total. apply (sum_lt _ _ _ (n, u)); [now apply in_enum|exact L|]. intros (o & v) X. apply in_enum in X. cbn [fst snd]. now apply (tight_least m p i j k o v). }
  assert (TL : forall i j, (i < nm_days m)%nat -> (j < nm_times m)%nat -> 1 * nm_hours m j * (A (tight m p) i j - B i j + C i j) <= 1 * nm_hours m j * (A p i j - B i j + C i j)).
  { intros i' j' I' J'. pose proof (AL i' j' I' J'). rewrite !Qmult_1_l. apply Qmult_le_l; [now apply HP|]. lra. }
  apply (sum_lt _ _ _ i); [apply in_seq; lia| |].
  - apply (sum_lt _ _ _ j); [apply in_seq; lia| |].
    + change (1 * nm_hours m j * (A (tight m p) i j - B i j + C i j) < 1 * nm_hours m j * (A p i j - B i j + C i j)). rewrite !Qmult_1_l. apply Qmult_lt_l; [now apply HP|]. lra.
    + intros j' J'. apply in_seq in J'. apply (TL i j'); lia.
  - intros i' I'. apply in_seq in I'. apply sum_le. intros j' J'. apply in_seq in J'. apply (TL i' j'); lia.
Qed.

(** C237: in every answer of least objective the cost of every unit in every day and time is its highest piece times the hours, and not below 0. *)
Theorem C237_costs : forall m S x, usable m -> limits_ok m -> nm_flag m = true -> (forall j, (j < nm_times m)%nat -> 0 < nm_hours m j) -> optimisation_nm m = Ok S -> feasible S x ->
  (forall y, feasible S y -> get_objective S x <= get_objective S y) ->
  exists p, opf_rules m p /\ answers m S x = Ok (reported m p) /\
    forall k i j n u, (i < nm_days m)%nat -> (j < nm_times m)%nat -> nth_error (nm_units m k) n = Some u -> p_cost p k i j n == unit_cost m j u (p_gen p k i j n).
Proof.
  intros m S x U L FL HP E F MIN. destruct (opf_solver m U L FL) as (S' & E' & vw & A & B & C & D). rewrite E in E'. injection E' as <-. set (p := plan_of (vw x)) in *. assert (R : opf_rules m p) by (now apply A). exists p. sp; auto; [exact (B x)|].
  intros k i j n u I J X. pose proof (tight_least m p i j k n u R I J X) as LE. assert (Y : p_cost (tight m p) k i j n = unit_cost m j u (p_gen p k i j n)) by (cbn [tight p_cost]; now rewrite X). rewrite Y in LE. apply Qle_antisym; [|exact LE]. apply Qnot_lt_le. intros LT.
  rewrite <- Y in LT. pose proof (tight_cheaper m p i j k n u R HP I J X LT) as CH. destruct (D (tight m p)) as (y & FY & _ & OY). pose proof (MIN y (FY (tight_rules m p R))) as M. rewrite OY, (C x) in M. fold p in M. lra.
Qed.
Print Assumptions C237_costs.

(** The output of the unit is fixed to 2, at a cost of 7 for every hour, and the time has 2 hours. *)
Definition ex_fixed : nm := mkNm 1 1 (fun k => match k with Thermal => [mkUnit 1 2 2 [(3, 1)] 0 true] | _ => [] end) [] [] (fun _ => 2) (fun _ _ _ => 1) 0 [ex_bus1; ex_bus2] [ex_line] None (fun _ _ _ => 1) None false 100 true.
Lemma ex_fixed_ok : usable ex_fixed /\ limits_ok ex_fixed /\ opf_rules ex_fixed ex_plan.
Proof.
  sp.
  - constructor; cbn; try discriminate; try lia; auto; try tauto.
    + intros [] u H; cbn in H; try tauto. destruct H as [<-|[]]. discriminate.
    + intros l [<-|[]]. cbn. lia.
    + intros l [<-|[]] E. discriminate E.
  - constructor; cbn; try discriminate; try tauto. intros [] n u i j I J H; try (destruct n; discriminate H). apply single in H as (-> & ->). intros _. cbn. lra.
  - intros i j I J. split.
    + constructor.
      * intros [] n u H; try (destruct n; discriminate H). apply single in H as (-> & ->). q.
      * intros [] n u H; try (destruct n; discriminate H). apply single in H as (-> & ->). split; [q|]. intros a b [E|[]]. injection E as <- <-. q.
      * intros n c H. destruct n; discriminate H.
      * intros n c H. destruct n; discriminate H.
    + intros k K. assert (k = 0%nat) as -> by (unfold cases in K; cbn in K; lia). constructor.
      * intros n l H O. apply single in H as (-> & ->). discriminate O.
      * intros n l H O. apply single in H as (-> & ->). split; q.
      * intros c n l N. discriminate N.
      * intros N. discriminate N.
      * intros n b H T. apply double in H as [(-> & ->)|(-> & ->)]; [q|discriminate T].
      * intros n b H T. assert (j = 0%nat) as -> by (cbn in J; lia). apply double in H as [(-> & ->)|(-> & ->)]; q.
Qed.
Lemma ex_fixed_cost p y : plan_cost ex_fixed p (fun _ => 1) y == 2 * p_cost p Thermal 0 0 0.
Proof.
  unfold plan_cost, over_periods, total. cbn [ex_fixed nm_days nm_times nm_units nm_pumps nm_hours nm_base nm_feas kinds map seq enum combine List.length fst snd]. repeat change (qsum (?a :: ?b)) with (a + qsum b). repeat change (qsum []) with 0. ring.
Qed.

(** C237 (the objective is the cost of running the units) is false: the cost of a unit is over all hours of the time, and the objective counts the hours again. *)
Theorem C237_refuted : exists m S x p, usable m /\ limits_ok m /\ nm_flag m = true /\ (forall j, 0 < nm_hours m j) /\ nm_pumps m = [] /\ nm_feas m = false /\ optimisation_nm m = Ok S /\ feasible S x /\ (forall y, feasible S y -> get_objective S x <= get_objective S y) /\
  opf_rules m p /\ answers m S x = Ok (reported m p) /\ running_cost m p == 14 /\ get_objective S x == 28.
Proof.
  destruct ex_fixed_ok as (U & L & R). destruct (opf_solver ex_fixed U L eq_refl) as (S & E & vw & A & B & C & D). destruct (D ex_plan) as (x & X & Y & Z). specialize (X R). assert (O : get_objective S x == 28) by (rewrite Z; reflexivity).
  exists ex_fixed, S, x, ex_plan. sp; auto; try reflexivity. intros y F. rewrite O, (C y), ex_fixed_cost. apply A in F. destruct (F 0%nat 0%nat ltac:(cbn; lia) ltac:(cbn; lia)) as (PR & _).
  pose proof (pr_unit _ _ _ _ PR Thermal 0%nat _ eq_refl) as G. pose proof (proj2 (pr_cost _ _ _ _ PR Thermal 0%nat _ eq_refl) 3 1 (or_introl eq_refl)) as K. cbn [unit_rule] in G. set (g := p_gen (plan_of (vw y)) Thermal 0 0 0) in *. set (c := p_cost (plan_of (vw y)) Thermal 0 0 0) in *.
  assert (G' : 2 <= g <= 2) by exact G. assert (K' : 2 * (3 * g + 1) <= c) by exact K. lra.
Qed.
Print Assumptions C237_refuted.
Example C237_witness : usable ex_fixed /\ limits_ok ex_fixed /\ nm_flag ex_fixed = true /\ (forall j, 0 < nm_hours ex_fixed j) /\ opf_rules ex_fixed ex_plan.
Proof. destruct ex_fixed_ok as (U & L & R). sp; auto; reflexivity. Qed.

(* ------------------------------------------------------------------------------------------------------------------ *)
(** ** C238 *)

Close Scope Q_scope.
Lemma common_nodup m : NoDup (map fst (flat_map (common_cols m) (periods m))).
Proof. pose proof (vcols_nodup m) as H. unfold vcols in H. rewrite map_app in H. now apply NoDup_app_l in H. Qed.
Definition curtail_cols (m : nm) : list (name * nat) := flat_map (fun p => [(lcs_name (fst p) (snd p), 1); (gcs_name (fst p) (snd p), 1)]) (periods m).
Lemma curtail_cols_nodup m : NoDup (map fst (flat_map (common_cols m) (periods m) ++ curtail_cols m)).
Proof.
  apply (two_parts _ _ _ (fun n => fst n <> "LCS"%string /\ fst n <> "GCS"%string)); [apply common_nodup| | |].
  - unfold curtail_cols. rewrite map_flat. apply (NoDup_keyed snd key2); [apply NoDup_periods|intros; now apply key2_inj| |].
    + intros (i & j) _. cbn. constructor; [intros [E|[]]; discriminate E|apply NoDup_one].
    + intros (i & j) n _ [<-|[<-|[]]]; reflexivity.
  - intros (n & c) I. apply in_flat_map in I as ((i & j) & _ & I). unfold common_cols in I. apply filter_In in I as (I & _). cbn in I. repeat (destruct I as [I|I]; [injection I as <- <-; split; discriminate|]). destruct I.
  - intros (n & c) I (X & Y). apply in_flat_map in I as ((i & j) & _ & [E|[E|[]]]); injection E as <- <-; [now apply X|now apply Y].
Qed.

(** C238 (the economic dispatch is solved) is false: for all data it ends with an AttributeError, for the method it calls does not exist. *)
Theorem C238_refuted : forall m, nm_flag m = false -> optimisation_nm m = Err AttributeError.
Proof.
  intros m FL. unfold optimisation_nm. rewrite FL. set (e := if nm_feas m then curtail_cols m else []).
  assert (V : variables_ed m = flat_map part_cmds [mkPart (flat_map (common_cols m) (periods m)) (flat_map (common_bounds m) (periods m)) [] []; mkPart e [] [] []]).
  { unfold variables_ed, variables_common. cbn [flat_map]. rewrite !part_cols. cbn [map]. rewrite !app_nil_r. unfold e. destruct (nm_feas m); reflexivity. }
  destruct (run_before (variables_ed m)) as (S & -> & _); [|reflexivity]. rewrite V. apply fine_parts; cbn [flat_map pt_rows pt_cols List.app]; rewrite ?app_nil_r.
  - constructor.
  - unfold e. destruct (nm_feas m); [apply curtail_cols_nodup|]. rewrite app_nil_r. apply common_nodup.
  - intros n k [[]|I]. apply in_app_or in I as [I|I].
    + apply in_flat_map in I as ((i & j) & _ & I). unfold common_cols in I. apply filter_In in I as (_ & I). now apply Nat.ltb_lt in I.
    + unfold e in I. destruct (nm_feas m); [|destruct I]. apply in_flat_map in I as (p & _ & [E|[E|[]]]); injection E as _ <-; lia.
  - cbn [sound_parts pt_cb pt_cols pt_rows pt_sp List.app]. sp; try (intros s X; exact (False_ind _ X)); try (intros q b X; exact (False_ind _ X)); try exact I.
    intros q b H. apply in_flat_map in H as ((i & j) & J & H). apply in_periods in J. unfold common_bounds in H. apply in_app_or in H as [H|H].
    + apply in_flat_map in H as (k & _ & H). apply in_map_iff in H as ((n & u) & E & H). cbn [fst snd] in E. injection E as <- _. apply in_enum, enum_lt in H. exists (List.length (nm_units m k)). split; [|exact H]. apply in_flat_map. exists (i, j). split; [now apply in_periods|]. unfold common_cols. apply filter_In. split; [apply in_or_app; left; apply in_map_iff; exists k; split; [reflexivity|apply in_kinds]|]. cbn [snd]. apply Nat.ltb_lt. lia.
    + apply in_map_iff in H as ((n & u) & E & H). cbn [fst snd] in E. injection E as <- _. apply in_enum, enum_lt in H. exists (List.length (nm_pumps m)). split; [|exact H]. apply in_flat_map. exists (i, j). split; [now apply in_periods|]. unfold common_cols. apply filter_In. split; [apply in_or_app; right; apply in_or_app; right; right; now left|]. cbn [snd]. apply Nat.ltb_lt. lia.
Qed.
Print Assumptions C238_refuted.
Example C238_witness : let m := mkNm 1 2 (nm_units ex_net) [] [] (fun _ => 2%Q) (fun _ _ _ => 1%Q) 0 [ex_bus1; ex_bus2] [ex_line] None (fun _ _ _ => 1%Q) None true 100 false in nm_flag m = false /\ usable m /\ optimisation_nm m = Err AttributeError.
Proof.
  cbn zeta. split; [reflexivity|]. split; [|vm_compute; reflexivity]. constructor; cbn; try discriminate; try lia; auto; try tauto.
  - intros [] u H; cbn in H; try tauto. destruct H as [<-|[]]. discriminate.
  - intros l [<-|[]]. cbn. lia.
  - intros l [<-|[]] E. discriminate E.
Qed.

(* ------------------------------------------------------------------------------------------------------------------ *)
(** ** C239 *)

(** C239: a network the optimal power flow can be built from is solved exactly if its limits are in order; otherwise the program ends with an AssertionError. *)
Theorem C239_limits : forall m, usable m -> nm_flag m = true -> (limits_ok m /\ exists S, optimisation_nm m = Ok S) \/ (~ limits_ok m /\ optimisation_nm m = Err AssertionError).
Proof.
  intros m U FL. destruct (opf_run m U FL) as (l & S & E & R & SO & _). unfold optimisation_nm. rewrite FL, E, bind_ok, R, bind_ok. unfold simplex. destruct (solvable S) eqn:Z.
  - left. split; [apply proper_limits; now apply SO|]. exists S. reflexivity.
  - right. split; [|reflexivity]. intros L. assert (X : false = true) by (apply SO; now apply limits_proper). discriminate X.
Qed.
Print Assumptions C239_limits.

(** No demand at the first time: the limits of curtailment are both 0. *)
Definition ex_quiet : nm := mkNm 1 2 (nm_units ex_net) [] [] (fun _ => 2%Q) (fun _ _ _ => 1%Q) 0 [ex_bus1; ex_bus2] [ex_line] None (fun _ j _ => if j =? 0 then 0%Q else 1%Q) None true 100 true.
Lemma ex_quiet_usable : usable ex_quiet.
Proof.
  constructor; cbn; try discriminate; try lia; auto; try tauto.
  - intros [] u H; cbn in H; try tauto. destruct H as [<-|[]]. discriminate.
  - intros l [<-|[]]. cbn. lia.
  - intros l [<-|[]] E. discriminate E.
Qed.
(** C239 (a network with a plan that meets the rules is solved) is false: with curtailment, a bus with demand and a multiplier of 0 stops the program. *)
Theorem C239_refuted : (forall m i j n b, usable m -> nm_flag m = true -> nm_feas m = true -> i < nm_days m -> j < nm_times m -> nth_error (nm_buses m) n = Some b -> (0 < bs_demand b)%Q -> (nm_mult m i j n == 0)%Q -> optimisation_nm m = Err AssertionError) /\
  exists m p, usable m /\ nm_flag m = true /\ opf_rules m p /\ optimisation_nm m = Err AssertionError.
Proof.
  assert (G : forall m i j n b, usable m -> nm_flag m = true -> nm_feas m = true -> i < nm_days m -> j < nm_times m -> nth_error (nm_buses m) n = Some b -> (0 < bs_demand b)%Q -> (nm_mult m i j n == 0)%Q -> optimisation_nm m = Err AssertionError).
  { intros m i j n b U FL FE I J E D Z. destruct (C239_limits m U FL) as [(L & _)|(_ & X)]; [|exact X]. pose proof (li_mult m L FE n b i j I J E D). lra. }
  split; [exact G|]. exists ex_quiet, (mkPlan (fun _ _ j _ => if j =? 0 then 0 else 2)%Q (fun _ _ _ _ => 14%Q) (fun _ _ _ => 0%Q) (fun _ _ _ => 0%Q) (fun _ j _ _ => if j =? 0 then 0 else 2)%Q (fun _ _ _ _ => 0%Q) (fun _ _ _ _ => 0%Q) (fun _ _ _ _ => 0%Q) (fun _ j _ n => if j =? 0 then 0 else if n =? 0 then 0 else - (2))%Q).
  split; [exact ex_quiet_usable|]. split; [reflexivity|]. split; [|apply (G ex_quiet 0 0 1 ex_bus2 ex_quiet_usable); try reflexivity; cbn; lia].
  intros i j I J. assert (JJ : j = 0 \/ j = 1) by (cbn in J; lia). split.
  - constructor.
    + intros [] n u H; try (destruct n; discriminate H). apply single in H as (-> & ->). destruct JJ as [-> | ->]; q.
    + intros [] n u H; try (destruct n; discriminate H). apply single in H as (-> & ->). split; [q|]. intros a b [E|[]]. injection E as <- <-. destruct JJ as [-> | ->]; q.
    + intros n c H. destruct n; discriminate H.
    + intros n c H. destruct n; discriminate H.
  - intros k K. assert (k = 0) as -> by (unfold cases in K; cbn in K; lia). constructor.
    + intros n l H O. apply single in H as (-> & ->). discriminate O.
    + intros n l H O. apply single in H as (-> & ->). destruct JJ as [-> | ->]; split; q.
    + intros c n l N. discriminate N.
    + intros _ n b H. destruct JJ as [-> | ->]; apply double in H as [(-> & ->)|(-> & ->)]; (split; [q|split; [q|intros _; q]]).
    + intros n b H T. apply double in H as [(-> & ->)|(-> & ->)]; [|discriminate T]. destruct JJ as [-> | ->]; q.
    + intros n b H T. destruct JJ as [-> | ->]; apply double in H as [(-> & ->)|(-> & ->)]; q.
Qed.
Print Assumptions C239_refuted.
Example C239_witness : usable ex_net /\ nm_flag ex_net = true /\ limits_ok ex_net /\ usable ex_quiet /\ ~ limits_ok ex_quiet.
Proof. sp; [exact ex_usable|reflexivity|exact ex_limits|exact ex_quiet_usable|]. intros L. pose proof (li_mult ex_quiet L eq_refl 1 ex_bus2 0 0) as X. cbn in X. specialize (X ltac:(lia) ltac:(lia) eq_refl ltac:(lra)). lra. Qed.

(* ------------------------------------------------------------------------------------------------------------------ *)
(** ** C240 *)

(** C240 (storage devices, and lines between any two buses, can be given) is false: with more devices than cases and a second time the program ends with an IndexError; with one device and a contingency
    it ends with a RuntimeError, for the balance of the second case is written over that of the first; and so it does with a line from a bus to itself. *)
Theorem C240_refuted :
  (forall m, nm_flag m = true -> 0 < nm_days m -> 1 < nm_times m -> cases m < List.length (nm_stores m) -> (exists b, In b (nm_buses m) /\ bs_type b <> 4) -> optimisation_nm m = Err IndexError) /\
  (exists m, nm_flag m = true /\ List.length (nm_stores m) = 1 /\ nm_conts m = 1 /\ optimisation_nm m = Err RuntimeError) /\
  (exists m l, nm_flag m = true /\ nm_stores m = [] /\ nm_lines m = [ex_line; l] /\ ln_from l = ln_to l /\ optimisation_nm m = Err RuntimeError).
Proof.
  split; [|split].
  - intros m FL D T L (b & I & N). unfold optimisation_nm. rewrite FL. unfold definition_opf, node_balance. assert (S1 : existsb (fun p => stored m (snd p)) (periods m) = true).
    { apply existsb_exists. exists (0, 1). split; [apply in_periods; lia|]. unfold stored. cbn [snd]. apply andb_true_iff. split; apply Nat.ltb_lt; lia. }
    assert (S2 : existsb (fun b => negb (bs_type b =? 4)) (nm_buses m) = true) by (apply existsb_exists; exists b; split; [exact I|]; apply Nat.eqb_neq in N; now rewrite N). apply Nat.ltb_lt in L. now rewrite S1, S2, L.
  - exists (mkNm 1 2 (nm_units ex_net) [] [1%Q] (fun _ => 2%Q) (fun _ _ _ => 1%Q) 1 [ex_bus1; ex_bus2] [ex_line; mkLine 1 2 0 1 1 1 5 0 (fun k => k =? 0)] None (fun _ _ _ => 1%Q) None true 100 true). sp; vm_compute; reflexivity.
  - exists (mkNm 1 2 (nm_units ex_net) [] [] (fun _ => 2%Q) (fun _ _ _ => 1%Q) 0 [ex_bus1; ex_bus2] [ex_line; mkLine 2 2 1 1 1 1 5 0 (fun k => true)] None (fun _ _ _ => 1%Q) None true 100 true). exists (mkLine 2 2 1 1 1 1 5 0 (fun k => true)). sp; vm_compute; reflexivity.
Qed.
Print Assumptions C240_refuted.
Example C240_witness : let m := mkNm 1 2 (nm_units ex_net) [] [1; 1]%Q (fun _ => 2%Q) (fun _ _ _ => 1%Q) 0 [ex_bus1; ex_bus2] [ex_line] None (fun _ _ _ => 1%Q) None true 100 true in nm_flag m = true /\ 1 < nm_times m /\ cases m < List.length (nm_stores m) /\ In ex_bus1 (nm_buses m).
Proof. cbn. sp; auto. Qed.

(** C240, what is left of the balance with storage devices: for every bus after the first, the coefficients of the outputs of all units go to the row of one case, the number of devices less 1, whichever case is built. *)
Lemma bus_outputs m i j k n b r o g u x : In (Entry r o (gen_name g i j) u x) (fst (bus_cmds m i j k n b)) -> stored m j = true -> o = n /\ r = node_row i j k.
Proof.
  unfold bus_cmds. intros H ST. destruct (bs_type b =? 4); [destruct H|]. cbn [fst] in H. rewrite ST in H. rewrite !in_app_iff in H. destruct H as [H|[H|H]].
  - apply in_map_iff in H as (t & E & _). injection E. auto.
  - unfold stale_terms in H. apply in_map_iff in H as (t & E & _). destruct g; discriminate E.
  - exfalso. unfold row_cmds in H. apply in_app_or in H as [H|[H|[]]]; [|discriminate H]. unfold rs_terms, rs_place in H. cbn [fst snd] in H. apply in_map_iff in H as ((q & y) & E & H). assert (E1 : fst q = gen_name g i j) by (unfold row_entry in E; cbn [fst snd] in E; congruence). clear E. rewrite !in_app_iff in H. destruct H as [H|[H|[H|H]]].
    + unfold pump_terms in H. apply in_flat_map in H as (v & _ & H). destruct (Qle_bool (fst (snd v)) 0); [destruct H|]. destruct H as [H|[]]. injection H as <- _. destruct g; discriminate E1.
    + unfold flow_terms in H. apply in_flat_map in H as (v & _ & H). apply in_app_or in H as [H|H]; (destruct (Nat.eqb _ _); [|destruct H]); destruct H as [H|[]]; injection H as <- _; destruct g; discriminate E1.
    + unfold loss_terms in H. destruct (nm_losses m); [|destruct H]. apply in_flat_map in H as (v & _ & H). destruct (orb _ _); [|destruct H]. destruct H as [H|[]]. injection H as <- _. destruct g; discriminate E1.
    + unfold curtail_terms in H. destruct (nm_feas m); [|destruct H]. destruct H as [H|[H|[]]]; injection H as <- _; destruct g; discriminate E1.
Qed.
Theorem C240_outputs : forall m i j k n n0 b0 r g u x, stored m j = true -> n0 < n -> nth_error (nm_buses m) n0 = Some b0 -> bs_type b0 <> 4 ->
  In (Entry r n (gen_name g i j) u x) (buses_cmds m i j k (enum (nm_buses m))) -> r = node_row i j (List.length (nm_stores m) - 1).
Proof.
  intros m i j k n n0 b0 r g u x ST L B T. unfold enum. set (s := List.length (nm_stores m) - 1).
  assert (KEEP : forall l, In (Entry r n (gen_name g i j) u x) (buses_cmds m i j s l) -> r = node_row i j s).
  { induction l as [|(a & b) l IH]; [intros []|]. cbn [buses_cmds]. intros H. apply in_app_or in H as [H|H]; [now apply bus_outputs in H as (_ & H)|]. assert (E : snd (bus_cmds m i j s a b) = s) by (unfold bus_cmds; rewrite ST; destruct (bs_type b =? 4); reflexivity). rewrite E in H. auto. }
  assert (G : forall l a n1, a + n1 < n -> nth_error l n1 = Some b0 -> In (Entry r n (gen_name g i j) u x) (buses_cmds m i j k (combine (seq a (List.length l)) l)) -> r = node_row i j s).
  { induction l as [|b l IH]; intros a n1 LT NT H; [destruct H|]. cbn [List.length seq combine buses_cmds] in H. apply in_app_or in H as [H|H]; [apply bus_outputs in H as (H & _); auto; lia|].
    unfold bus_cmds at 1 in H. rewrite ST in H. destruct (Nat.eqb_spec (bs_type b) 4) as [F|F]; cbn [snd] in H; [|now apply KEEP in H]. destruct n1 as [|n1]; [injection NT as ->; contradiction|]. apply (IH (S a) n1); auto. lia. }
  apply (G (nm_buses m) 0 n0); auto.
Qed.
Print Assumptions C240_outputs.
(** Two devices and one contingency: the output of a unit at the second bus is written to the rows of the second case twice. *)
Example C240_outputs_witness : let m := mkNm 1 2 (fun k => match k with Thermal => [mkUnit 2 0 10 [(3, 1)]%Q 0 true] | _ => [] end) [] [1; 1]%Q (fun _ => 2%Q) (fun _ _ _ => 1%Q) 1 [ex_bus1; ex_bus2] [ex_line] None (fun _ _ _ => 1%Q) None true 100 true in
  stored m 1 = true /\ In (Entry (node_row 0 1 1) 1 (gen_name Thermal 0 1) 0 1%Q) (buses_cmds m 0 1 0 (enum (nm_buses m))).
Proof. split; [reflexivity|]. vm_compute. do 5 right. tauto. Qed.
