(** Totals of the reports: types of loads, pumps and the balance of energy. *)
From Coq Require Import List Bool Arith ZArith QArith Lia Lqa.
From Verif Require Import Base GraphData GraphDataProofs Cases CasesProofs ConverterOpen HydroSpec HydroTables ScreeningProofs Linear LinearProofs Devices Joint JointSpec JointEnergy JointCost Reports ReportsSpec ReportsProofs.
From Verif Require Power PowerSpec PowerTables PowerBalance PowerLimits PowerUnits EnergyTree Hydro.
Import ListNotations.
Open Scope nat_scope.
Open Scope list_scope.

Local Ltac sp := repeat match goal with |- _ /\ _ => split end.

(** ** Types *)

Lemma load_type_at n types i : typed n types -> i < n -> exists ts, load_types n types = Ok ts /\ at_ ts i = Ok (TNumber (if is_rural types i then 1 else 0)).
Proof.
  intros (N & L & F) Li. destruct types as [|a [|b types]].
  - exists (repeat (TNumber 0) n). split; [reflexivity|]. apply at_nth. rewrite nth_repeat by exact Li. cbn [is_rural]. destruct i; reflexivity.
  - exists (repeat (TNumber 0) n). assert (a <> 1) by congruence. cbn [load_types is_rural]. destruct (Nat.eqb_spec a 1); [contradiction|]. split; [reflexivity|]. now apply at_nth, nth_repeat.
  - unfold load_types. destruct (Nat.ltb_spec n (List.length (a :: b :: types))) as [G|_]; [lia|]. eexists. split; [reflexivity|]. apply at_nth. set (l := a :: b :: types) in *. change (is_rural l i) with (nth i l 0 =? 1). destruct (Nat.lt_ge_cases i (List.length l)) as [Ll|Ll].
    + rewrite nth_error_app1 by now rewrite map_length. destruct (nth_error l i) as [x|] eqn:Nx; [|apply nth_error_None in Nx; lia]. rewrite (map_nth_error TNumber _ _ Nx), (nth_error_nth _ _ 0 Nx). rewrite Forall_forall in F. specialize (F x (nth_error_In _ _ Nx)). destruct x as [|[|x]]; [reflexivity|reflexivity|lia].
    + rewrite nth_error_app2 by now rewrite map_length. rewrite map_length, nth_repeat by lia. rewrite nth_overflow by lia. reflexivity.
Qed.
(** The part of a sum over the buses of one type. *)
Definition of_type (types : list nat) (rural : bool) (q : nat -> Q) (l : list nat) : Q := qsum (map (fun n => if Bool.eqb (is_rural types n) rural then q n else 0%Q) l).
Lemma add_to_ok values b q : exists r, add_to values (TNumber (if b : bool then 1 else 0)) q = Ok r /\ (fst r == fst values + if b then 0 else q)%Q /\ (snd r == snd values + if b then q else 0)%Q.
Proof. destruct b; cbn [add_to]; eexists; (split; [reflexivity|]); cbn [fst snd]; split; ring. Qed.
Section Types.
Variables (n : nat) (types : list nat) (g : nat -> res Q) (q : nat -> Q) (l : list nat).
Hypothesis T : typed n types.
Hypothesis L : Forall (fun i => i < n) l.
Hypothesis G : forall i, In i l -> exists r, g i = Ok r /\ (r == q i)%Q.
Lemma demand_fold : exists r, foldM (fun st i => do a <- g i; do ts <- load_types n types; do t <- at_ ts i; do vs <- add_to (snd st) t a; Ok (fst st + a, vs)%Q) l (0, (0, 0))%Q = Ok r /\
  (fst r == qsum (map q l))%Q /\ (fst (snd r) == of_type types false q l)%Q /\ (snd (snd r) == of_type types true q l)%Q.
Proof.
  assert (X : forall st, exists r, foldM (fun st i => do a <- g i; do ts <- load_types n types; do t <- at_ ts i; do vs <- add_to (snd st) t a; Ok (fst st + a, vs)%Q) l st = Ok r /\
    (fst r == fst st + qsum (map q l))%Q /\ (fst (snd r) == fst (snd st) + of_type types false q l)%Q /\ (snd (snd r) == snd (snd st) + of_type types true q l)%Q).
  { revert L G. induction l as [|i m IH]; intros Lm Gm st; [exists st; sp; [reflexivity| | |]; unfold of_type; cbn; ring|]. apply Forall_cons_iff in Lm as (Li & Lm). destruct (Gm i (or_introl eq_refl)) as (a & Ea & Qa). destruct (load_type_at n types i T Li) as (ts & Et & At). cbn [foldM]. rewrite Ea, bind_ok, Et, bind_ok, At, bind_ok. destruct (add_to_ok (snd st) (is_rural types i) a) as (vs & Ev & F & S). rewrite Ev, bind_ok, bind_ok.
    destruct (IH Lm (fun j I => Gm j (or_intror I)) (fst st + a, vs)%Q) as (r & Er & R1 & R2 & R3). exists r. split; [rewrite Et in Er; exact Er|]. cbn [fst snd] in R1, R2, R3. unfold of_type. cbn [map]. change (qsum (?u :: ?v)) with (u + qsum v)%Q. fold (of_type types false q m) (of_type types true q m). clear Er Ev. destruct (is_rural types i); cbn [Bool.eqb]; (split; [rewrite R1, Qa; ring|split; [rewrite R2, F; try rewrite Qa; ring|rewrite R3, S; try rewrite Qa; ring]]). }
  destruct (X (0, (0, 0))%Q) as (r & E & R1 & R2 & R3). exists r. cbn [fst snd] in *. sp; [exact E| | |]; [rewrite R1|rewrite R2|rewrite R3]; ring.
Qed.
Lemma curtailment_fold : exists r, foldM (fun vs i => do a <- g i; do ts <- load_types n types; do t <- at_ ts i; add_to vs t a) l (0, 0)%Q = Ok r /\
  (fst r == of_type types false q l)%Q /\ (snd r == of_type types true q l)%Q.
Proof.
  assert (X : forall st, exists r, foldM (fun vs i => do a <- g i; do ts <- load_types n types; do t <- at_ ts i; add_to vs t a) l st = Ok r /\ (fst r == fst st + of_type types false q l)%Q /\ (snd r == snd st + of_type types true q l)%Q).
  { revert L G. induction l as [|i m IH]; intros Lm Gm st; [exists st; sp; [reflexivity| |]; unfold of_type; cbn; ring|]. apply Forall_cons_iff in Lm as (Li & Lm). destruct (Gm i (or_introl eq_refl)) as (a & Ea & Qa). destruct (load_type_at n types i T Li) as (ts & Et & At). cbn [foldM]. rewrite Ea, bind_ok, Et, bind_ok, At, bind_ok. destruct (add_to_ok st (is_rural types i) a) as (vs & Ev & F & S). rewrite Ev, bind_ok.
    destruct (IH Lm (fun j I => Gm j (or_intror I)) vs) as (r & Er & R2 & R3). exists r. split; [rewrite Et in Er; exact Er|]. unfold of_type. cbn [map]. change (qsum (?u :: ?v)) with (u + qsum v)%Q. fold (of_type types false q m) (of_type types true q m). clear Er Ev. destruct (is_rural types i); cbn [Bool.eqb]; (split; [rewrite R2, F; try rewrite Qa; ring|rewrite R3, S; try rewrite Qa; ring]). }
  destruct (X (0, 0)%Q) as (r & E & R2 & R3). exists r. cbn [fst snd] in *. sp; [exact E| |]; [rewrite R2|rewrite R3]; ring.
Qed.
Lemma types_sum : (of_type types false q l + of_type types true q l == qsum (map q l))%Q.
Proof. unfold of_type. rewrite <- qsum_add. apply qsum_ext. intros i _. destruct (is_rural types i); cbn [Bool.eqb]; ring. Qed.
End Types.

(** ** Pumps at different buses *)

Lemma below_single n k (f : nat -> Q) : k < n -> (forall i, i < n -> i <> k -> (f i == 0)%Q) -> (below n f == f k)%Q.
Proof.
  induction n as [|n IH]; intros L H; [lia|]. rewrite below_S. destruct (Nat.eq_dec k n) as [->|N].
  - rewrite below_zero; [ring|]. intros i Li. apply H; lia.
  - rewrite IH, (H n); [ring|lia|lia|lia|]. intros i Li Ni. apply H; lia.
Qed.
Lemma pumps_sum W (x : nat -> Q) : apart W -> Forall (fun p => exists i, slot (Power.n_bus W) (Power.pu_bus p) = Ok i) (Power.w_pumps W) ->
  (below (Power.n_bus W) (fun n => match PowerSpec.pump_at W n with Some p => x p | None => 0 end) == below (Power.n_pump W) x)%Q.
Proof.
  intros AP F. set (row p n := PowerSpec.at_row (Power.n_bus W) (nth p (map Power.pu_bus (Power.w_pumps W)) 0) n).
  transitivity (below (Power.n_bus W) (fun n => below (Power.n_pump W) (fun p => if row p n then x p else 0%Q)))%Q.
  - apply below_ext. intros n Ln. unfold PowerSpec.pump_at. fold (row). change (find (fun p => PowerSpec.at_row (Power.n_bus W) (nth p (map Power.pu_bus (Power.w_pumps W)) 0) n)) with (find (fun p => row p n)). destruct (find (fun p => row p n) (rev (seq 0 (Power.n_pump W)))) as [p|] eqn:Fd.
    + apply find_some in Fd as (Ip & Rp). apply in_rev, in_seq in Ip. destruct Ip as (_ & Lp). cbn in Lp. rewrite (below_single _ p); [now rewrite Rp|exact Lp|]. intros q Lq Nq. destruct (row q n) eqn:Rq; [exfalso|reflexivity]. destruct (Nat.lt_gt_cases p q) as (C & _). destruct (C ltac:(lia)) as [C'|C'].
      * assert (Z := AP p q n ltac:(lia) Rp). unfold row in Rq. congruence.
      * assert (Z := AP q p n ltac:(lia) Rq). unfold row in Rp. congruence.
    + symmetry. apply below_zero. intros p Lp. pose proof (find_none _ _ Fd p) as Z. cbv beta in Z. rewrite Z; [reflexivity|]. apply in_rev. rewrite rev_involutive. apply in_seq. lia.
  - unfold below at 1 2. rewrite qsum_swap. fold (below (Power.n_pump W) (fun p => qsum (map (fun n => if row p n then x p else 0%Q) (seq 0 (Power.n_bus W))))). apply below_ext. intros p Lp. fold (below (Power.n_bus W) (fun n => if row p n then x p else 0%Q)).
    destruct (nth_error (Power.w_pumps W) p) as [r|] eqn:Nr; [|apply nth_error_None in Nr; unfold Power.n_pump in Lp; lia]. rewrite Forall_forall in F. destruct (F r (nth_error_In _ _ Nr)) as (i & Si). assert (B : nth p (map Power.pu_bus (Power.w_pumps W)) 0 = Power.pu_bus r) by (apply nth_error_nth, map_nth_error; exact Nr).
    pose proof (PowerTables.slot_row _ _ _ Si) as SR. rewrite (below_single _ i).
    + unfold row. rewrite B, SR, Nat.eqb_refl. reflexivity.
    + now apply PowerTables.slot_lt in Si.
    + intros n Ln Nn. unfold row. rewrite B, SR. destruct (Nat.eqb_spec i n); [congruence|reflexivity].
Qed.

(** ** The balance of energy *)

Section Totals.
Variable cf : list Q -> nat -> res (list Q).
Variables (pow53 root pow23 : Q -> Q).
Variables (J : settings) (K : joint) (inputs : list (list Q)) (v : nat -> EnergyTree.soc) (s : var -> Q).
Hypothesis I : ready cf pow53 root pow23 J K.
Hypothesis A : answer J K inputs v s.
Notation W := (q_power K).
Notation M := (q_model K).
Notation net := (fun x => s (JNet x)).
Variables (f : list Q) (o : options).
Hypothesis OK : askable K f o.

Lemma generation_all : exists r, all_generation K f s AllUnits o = Ok r /\ (r == energy K f o (fun h t => below (Power.n_gen W) (PowerSpec.output W net h t)))%Q.
Proof.
  unfold all_generation, numbers_of. destruct (add_all_ok (fun g => get_generation K f s g o) (fun g => energy K f o (fun h t => PowerSpec.output W net h t g)) (seq 0 (Power.n_gen W))) as (r & E & R).
  - intros g Ig. apply in_seq in Ig. apply (generation_ok cf pow53 root pow23 J K s I f o OK). lia.
  - exists r. split; [exact E|]. rewrite R. apply energy_sum.
Qed.
Lemma pumps_all : exists r, all_pumps K f s o = Ok r /\ (r == energy K f o (fun h t => below (Power.n_pump W) (PowerSpec.pump_power W net h t)))%Q.
Proof.
  unfold all_pumps. destruct (add_all_ok (fun p => get_pump K f s (p + 1) o) (fun p => energy K f o (fun h t => PowerSpec.pump_power W net h t p)) (seq 0 (Power.n_pump W))) as (r & E & R).
  - intros p Ip. apply in_seq in Ip. apply (pump_report cf pow53 root pow23 J K s I f o OK). lia.
  - exists r. split; [exact E|]. rewrite R. apply energy_sum.
Qed.
Lemma below_list_lt n : Forall (fun i => i < n) (seq 0 n).
Proof. apply Forall_forall. intros i Ii. apply in_seq in Ii. lia. Qed.
Lemma functional_below (P : nat -> (nat -> nat -> Q) -> Prop) n : (forall i, i < n -> exists q, P i q) -> exists q, forall i, i < n -> P i (q i).
Proof.
  induction n as [|n IH]; intros H; [exists (fun _ _ _ => 0%Q); intros i L; lia|]. destruct IH as (q & Hq); [intros i L; apply H; lia|]. destruct (H n) as (x & Hx); [lia|]. exists (fun i => if i =? n then x else q i). intros i L. destruct (Nat.eqb_spec i n) as [->|]; [exact Hx|apply Hq; lia].
Qed.
Lemma demand_all : Power.w_nodem W <> 0 -> typed (Power.n_bus W) (j_types J) -> exists r q, all_demand J K f None o = Ok r /\ (forall n, n < Power.n_bus W -> each K o (fun h t => PowerSpec.load_at W n t h (q n h t))) /\
  (fst r == energy K f o (fun h t => below (Power.n_bus W) (fun n => q n h t)))%Q /\
  (fst (snd r) == of_type (j_types J) false (fun n => energy K f o (q n)) (seq 0 (Power.n_bus W)))%Q /\ (snd (snd r) == of_type (j_types J) true (fun n => energy K f o (q n)) (seq 0 (Power.n_bus W)))%Q.
Proof.
  intros ND T. destruct (functional_below (fun n q => each K o (fun h t => PowerSpec.load_at W n t h (q h t)) /\ exists r, get_demand K f (n + 1) o = Ok r /\ (r == energy K f o q)%Q) (Power.n_bus W)) as (q & Hq).
  { intros n Ln. destruct (demand_ok cf pow53 root pow23 J K inputs v s I A f o OK n Ln ND) as (r & q & E & L & R). exists q. split; [exact L|eauto]. }
  unfold all_demand, asked_buses. destruct (demand_fold (Power.n_bus W) (j_types J) (fun n => get_demand K f (n + 1) o) (fun n => energy K f o (q n)) (seq 0 (Power.n_bus W)) T (below_list_lt _)) as (r & E & R1 & R2 & R3).
  { intros n In_. apply in_seq in In_. apply Hq. lia. }
  exists r, q. sp; [exact E|intros n Ln; now apply Hq| |exact R2|exact R3]. rewrite R1. apply energy_sum.
Qed.
Lemma curtailment_all : Power.w_feas W = true -> typed (Power.n_bus W) (j_types J) -> exists r, all_curtailment J K f s None o = Ok r /\
  (fst r == energy K f o (fun h t => below (Power.n_bus W) (PowerSpec.curtailed W net h t)))%Q /\ (fst r == fst (snd r) + snd (snd r))%Q /\
  (snd (snd r) == of_type (j_types J) true (fun n => energy K f o (fun h t => PowerSpec.curtailed W net h t n)) (seq 0 (Power.n_bus W)))%Q.
Proof.
  intros FE T. unfold all_curtailment, asked_buses. rewrite FE. destruct (curtailment_fold (Power.n_bus W) (j_types J) (fun n => get_curtailment K f s n o) (fun n => energy K f o (fun h t => PowerSpec.curtailed W net h t n)) (seq 0 (Power.n_bus W)) T (below_list_lt _)) as (r & E & R2 & R3).
  { intros n In_. apply in_seq in In_. apply (curtailment_ok cf pow53 root pow23 J K s I f o OK); [lia|exact FE]. }
  rewrite E, bind_ok. eexists. split; [reflexivity|]. cbn [fst snd]. sp; [|reflexivity|exact R3]. rewrite R2, R3, types_sum. apply energy_sum.
Qed.

(** Generation covers the loads, the pumps and the losses. *)
Definition losses h t : Q := below (Power.n_bra W) (PowerSpec.branch_loss W net h t 0).
Lemma network_reports : Power.w_flag W = true -> Power.w_secflag W = false -> Power.w_feas W = true -> Power.w_nodem W <> 0 -> typed (Power.n_bus W) (j_types J) -> apart W ->
  exists g d p c, all_generation K f s AllUnits o = Ok g /\ all_demand J K f None o = Ok d /\ all_pumps K f s o = Ok p /\ all_curtailment J K f s None o = Ok c /\
  (g + fst c == PowerSpec.load_factor W * fst d + p + energy K f o losses)%Q.
Proof.
  intros FL NF FE ND T AP. destruct generation_all as (g & Eg & Rg). destruct pumps_all as (p & Ep & Rp). destruct (demand_all ND T) as (d & q & Ed & Lq & Rd & _). destruct (curtailment_all FE T) as (c & Ec & Rc & _). exists g, d, p, c. sp; auto. rewrite Rg, Rp, Rd, Rc, <- energy_add, <- energy_scale, <- !energy_add. apply energy_ext.
  intros h t Ih It. pose proof (asked_scen K f o OK h Ih) as Lh. pose proof (asked_step K f o OK t It) as Lt. rewrite <- (scenarios cf pow53 root pow23 J K I) in Lh. pose proof (made_power cf pow53 root pow23 J K I) as PI. pose proof (answer_power J K inputs v s A) as PA.
  destruct (PowerBalance.total_balance cf W M net PI PA NF FL t 0 h Lt ltac:(lia) Lh) as (q' & Lq' & B). rewrite B. assert (PS : (below (Power.n_bus W) (PowerSpec.pumped W net h t) == below (Power.n_pump W) (PowerSpec.pump_power W net h t))%Q). { apply (pumps_sum W (PowerSpec.pump_power W net h t) AP). destruct (PowerTables.initialise_inv _ _ _ PI) as (gs & _ & _ & _ & _ & _ & EP & _). apply PowerTables.pump_table_total. eauto. }
  rewrite PS. assert (QS : (below (Power.n_bus W) q' == below (Power.n_bus W) (fun n => q n h t))%Q). { apply below_ext. intros n Ln. apply (load_unique K n t h); [now apply Lq'|now apply Lq]. } rewrite QS. reflexivity.
Qed.
(** Without network and with load at one bus. *)
Lemma single_count l : PowerSpec.count l = 1 -> exists k, k < List.length l /\ nth k l false = true /\ PowerSpec.count (firstn k l) = 0 /\ forall i, i <> k -> nth i l false = false.
Proof.
  unfold PowerSpec.count. induction l as [|b l IH]; cbn; [discriminate|]. destruct b; cbn.
  - intros E. exists 0. sp; [lia|reflexivity|reflexivity|]. intros [|i] N; [congruence|]. destruct (nth i l false) eqn:B; [|reflexivity]. assert (Il : i < List.length l) by (destruct (Nat.lt_ge_cases i (List.length l)); [auto|rewrite nth_overflow in B by auto; discriminate]). assert (X : In true (filter (fun b => b) l)) by (apply filter_In; split; [rewrite <- B; now apply nth_In|reflexivity]). destruct (filter (fun b => b) l); [destruct X|cbn in E; lia].
  - intros E. destruct (IH E) as (k & Lk & Nk & Ck & Ok_). exists (S k). cbn. sp; [lia|exact Nk|exact Ck|]. intros [|i] N; [reflexivity|]. apply Ok_. lia.
Qed.
Lemma single_reports : Power.w_flag W = false -> Power.w_feas W = true -> PowerSpec.count (PowerSpec.loaded W) = 1 -> Power.w_nodem W <> 0 -> typed (Power.n_bus W) (j_types J) ->
  exists g d p c, all_generation K f s AllUnits o = Ok g /\ all_demand J K f None o = Ok d /\ all_pumps K f s o = Ok p /\ all_curtailment J K f s None o = Ok c /\
  (g + fst c == PowerSpec.load_factor W * fst d + p)%Q.
Proof.
  intros FL FE ONE ND T. destruct generation_all as (g & Eg & Rg). destruct pumps_all as (p & Ep & Rp). destruct (demand_all ND T) as (d & q & Ed & Lq & Rd & _). destruct (curtailment_all FE T) as (c & Ec & Rc & _). exists g, d, p, c. sp; auto. rewrite Rg, Rp, Rd, Rc, <- energy_add, <- energy_scale, <- !energy_add. apply energy_ext.
  intros h t Ih It. pose proof (asked_scen K f o OK h Ih) as Lh. pose proof (asked_step K f o OK t It) as Lt. rewrite <- (scenarios cf pow53 root pow23 J K I) in Lh. pose proof (made_power cf pow53 root pow23 J K I) as PI. pose proof (answer_power J K inputs v s A) as PA.
  destruct (PowerLimits.one_bus_balance cf W M net PI PA FL t h Lt Lh) as (q' & Lq' & B). unfold PowerLimits.spilled in B. rewrite FE in B. assert (QS : (below (Power.n_bus W) q' == below (Power.n_bus W) (fun n => q n h t))%Q). { apply below_ext. intros n Ln. apply (load_unique K n t h); [now apply Lq'|now apply Lq]. } rewrite <- QS, <- B.
  apply Qplus_comp; [reflexivity|]. destruct (single_count _ ONE) as (k & Lk & Nk & Ck & Zk). rewrite (below_single _ k); [|unfold PowerSpec.loaded in Lk; now rewrite map_length in Lk|].
  - unfold PowerSpec.curtailed. rewrite Nk, Ck, ONE. replace (h * 1 + 0) with h by lia. reflexivity.
  - intros i Li Ni. unfold PowerSpec.curtailed. rewrite Zk by auto. reflexivity.
Qed.
End Totals.
