(** C13 - C29, what does not hold: concrete well-formed problems on which the search of the
    faithful model violates the stated property. *)
From Coq Require Import List String Bool ZArith QArith Arith Lia.
From Verif Require Import Base Container ContainerSpec Planner PlannerSpec PlannerRows PlannerProofs PlannerInv PlannerMain PlannerFacts PlannerSolution PlannerSolutionProofs Properties_Planner.
Import ListNotations.
Open Scope nat_scope.
Open Scope string_scope.
Open Scope list_scope.

Local Ltac sp := repeat match goal with |- _ /\ _ => split end.

(** Well-formedness is decidable on concrete problems. *)
Fixpoint deepb (P : problem) (f : nat) (n : node) : bool :=
  match f with
  | O => false
  | S f' => existsb (Nat.eqb n) (p_nodes P) &&
      match adj_find n (p_graph P) with
      | Some l => forallb (fun m => negb (Nat.eqb m 0) && deepb P f' m) l
      | None => false
      end
  end.

Lemma deepb_deep P f : forall n, deepb P f n = true -> deep P f n.
Proof.
  induction f as [|f IH]; simpl; [discriminate|]. intros n H. apply andb_true_iff in H as [H1 H2].
  apply existsb_exists in H1 as (x & I & E). apply Nat.eqb_eq in E. subst x. split; auto.
  destruct (adj_find n (p_graph P)) as [l|] eqn:El; [|discriminate]. exists l. split; auto.
  intros m J. rewrite forallb_forall in H2. specialize (H2 m J). apply andb_true_iff in H2 as [A B].
  split; [|now apply IH]. intros ->. discriminate.
Qed.

Lemma problem_well_formed g yrs pool opf f : deepb (problem_on g yrs pool opf) f 0 = true ->
  f <= List.length yrs -> NoDup (map fst pool) -> well_formed (problem_on g yrs pool opf) f 0.
Proof.
  intros D L N. unfold well_formed. sp; auto; [now apply deepb_deep|]. simpl. intros H. discriminate H.
Qed.

Ltac wf := apply problem_well_formed; [reflexivity|simpl; lia|repeat constructor; simpl; intuition discriminate].

(** Root-to-leaf paths, enumerated. *)
Fixpoint leaf_paths (P : problem) (f : nat) (n : node) : list (list node) :=
  match f with
  | O => []
  | S f' => match adj_find n (p_graph P) with
            | Some [] => [[n]]
            | Some l => map (cons n) (flat_map (leaf_paths P f') l)
            | None => []
            end
  end.

Lemma ends_in_leaf_cons P a b ns : ends_in_leaf P (a :: b :: ns) <-> ends_in_leaf P (b :: ns).
Proof.
  unfold ends_in_leaf. simpl. split; intros (x & H & L); exists x; split; auto;
  destruct (rev ns ++ [b]) as [|y r] eqn:E; auto; try (destruct (rev ns); discriminate).
Qed.

Lemma leaf_paths_spec P f : forall n ns, deep P f n ->
  (In ns (leaf_paths P f n) <-> path_from P n ns /\ ends_in_leaf P ns).
Proof.
  induction f as [|f IH]; intros n ns D; [destruct D|]. destruct D as (_ & l & S & H). simpl.
  unfold successors in S. rewrite S. destruct l as [|c l].
  - simpl. split.
    + intros [<-|[]]. split; [split; [reflexivity|exact I]|]. exists n. split; auto.
    + intros [[E L] (x & Ex & LF)]. destruct ns as [|a ns]; [discriminate|]. injection E as ->.
      destruct ns as [|b ns]; auto. destruct L as ((l & S' & J) & _). unfold successors in S'. rewrite S in S'.
      injection S' as <-. destruct J.
  - assert (NE : c :: l <> []) by discriminate. remember (c :: l) as chs eqn:Ec. clear Ec c l. rewrite in_map_iff. split.
    + intros (m & <- & J). apply in_flat_map in J as (b & J & K). destruct (H b J) as [_ Db].
      apply IH in K as [[E L] F]; auto. destruct m as [|b' m]; [discriminate|]. injection E as ->. split.
      * split; auto. split; auto. exists chs. auto.
      * now apply (ends_in_leaf_cons P n b m).
    + intros [[E L] F]. destruct ns as [|a ns]; [discriminate|]. injection E as ->. destruct ns as [|b ns].
      * exfalso. destruct F as (x & Ex & LF). injection Ex as <-. unfold is_leaf, successors in LF. rewrite S in LF. congruence.
      * destruct L as ((l & S' & J) & L). unfold successors in S'. rewrite S in S'. injection S' as <-.
        exists (b :: ns). split; auto. apply in_flat_map. exists b. split; auto. destruct (H b J) as [_ Db].
        apply IH; auto. split; [split; auto|]. exact (proj1 (ends_in_leaf_cons P n b ns) F).
Qed.

(** Discounted cost of running path [ns] when [assign n] is selected at node [n] and the OPF
    answers at stage [j] for the interventions selected so far. *)
Definition chosen (assign : node -> @items BV) (ns : list node) : list (@items BV) := map assign ns.
Definition answers (P : problem) (assign : node -> @items BV) (ns : list node) : list (bool * Q) :=
  map (fun j => p_opf P [] (nth j ns 0) (map snd (List.concat (firstn (S j) (chosen assign ns))))) (seq 0 (List.length ns)).
Definition path_cost (P : problem) (assign : node -> @items BV) (ns : list node) : Q :=
  (discounted P (map stage_cost (chosen assign ns)) + discounted P (map (fun a => snd a * 365) (answers P assign ns)))%Q.
(** The assignment selects pool interventions, none twice on a path, and is feasible. *)
Definition feasible_on (P : problem) (assign : node -> @items BV) (ns : list node) : Prop :=
  NoDup (map fst (List.concat (chosen assign ns))) /\ incl (List.concat (chosen assign ns)) (p_pool P) /\
  Forall (fun a => fst a = true) (answers P assign ns).

(* ------------------------------------------------------------------ *)

(** A problem with a slow intervention: dear, two years to build, one year between stages. *)
Definition slow_costs : list opf_call -> node -> list BV -> bool * Q := fun _ n act =>
  (true, match n, act with O, _ => 1%Q | S O, _ => 7%Q | _, [] => 9%Q | _, _ => 1%Q end).
Definition slow := problem_on fork [0; 1]%Z [("0", line 100 2)] slow_costs.

Lemma slow_well_formed : well_formed slow 2 0.
Proof. wf. Qed.
Lemma slow_sorted : years_sorted slow.
Proof. intros i j L H. simpl in H. destruct i as [|[|i]], j as [|[|j]]; try lia; cbn; lia. Qed.

Definition slow_stage : list stage := [mkStage 0 [("0", (line 100 2, 2%Z))] 1].
Definition slow_mid : info :=
  mkInfo empty_plan (cand_of slow_stage) no_new empty_plan empty_plan 1 1 false false
    [mkCall 0 [] [[("0", line 100 2)]]] (true, 1%Q).

Lemma slow_call : call slow 0 1 slow_mid slow_stage.
Proof.
  destruct slow_well_formed as (_ & _ & R & N & NA). unfold call. sp; auto. split; simpl; auto.
  - split; auto. exists []. split; [reflexivity|]. intros m [].
  - split; [reflexivity|]. simpl. split; [|exact I]. exists [1; 2]. split; [reflexivity|simpl; auto].
  - split.
    + right. split; [reflexivity|exact I].
    + intros x [<-|[]]. simpl. auto.
    + repeat constructor. simpl. tauto.
    + intros [|[|j]] st E; simpl in E; try discriminate. injection E as <-.
      exists [], [], []. split; reflexivity.
  - intros _ [|[|j]] st k b t E I; simpl in E; try discriminate. injection E as <-. simpl in I.
    destruct I as [I|[]]. injection I as <- <- <-. cbn. lia.
  - exists [], [], []. sp; auto; try (constructor; fail); try (intros H; congruence). constructor; [|constructor]. split; simpl.
    + intros x [].
    + intros _ [|[|j]] l k b E I; simpl in E; try discriminate. injection E as <-. destruct I as [I|[]].
      injection I as <- <-. cbn. lia.
    + intros [_ H]. specialize (H _ (or_introl eq_refl)). cbn in H. lia.
    + intros x [<-|[]]. simpl. auto.
    + repeat constructor. simpl. tauto.
Qed.

(** C13.  A call of [solve] (here at leaf 1, one year after the root) leaves a lower remaining
    construction time behind: the caller's intervention comes a year closer to service for
    the sibling explored next. *)
Theorem C13_times_not_restored_refuted : exists P root f s l b s',
  call P root f s l /\ solve P f s = Ok (b, s') /\
  c_time (cnd s) = [("0", [("0", 2%Z)])] /\ c_time (cnd s') = [("0", [("0", 1%Z)])].
Proof.
  exists slow, 0, 1, slow_mid, slow_stage. destruct (solve slow 1 slow_mid) as [[b s']|] eqn:E; [|vm_compute in E; discriminate].
  exists b, s'. split; [exact slow_call|]. split; auto. split; [reflexivity|].
  vm_compute in E. injection E as _ <-. reflexivity.
Qed.
Print Assumptions C13_times_not_restored_refuted.

(** C14.  In a run from the root with sorted years the OPF is run with an intervention in
    service whose installation time exceeds the years since its selection. *)
Theorem C14_early_service_refuted : exists P f root b s, well_formed P f root /\ years_sorted P /\
  solve P f (start root) = Ok (b, s) /\
  exists c j sel k v, In c (log s) /\ nth_error (oc_selected c) j = Some sel /\ In (k, v) sel /\ In v (oc_active c) /\
    (year P (List.length (oc_selected c) - 1) - year P j < bv_time v)%Z.
Proof.
  exists slow, 2, 0. destruct (solve slow 2 (start 0)) as [[b s]|] eqn:E; [|vm_compute in E; discriminate].
  exists b, s. split; [exact slow_well_formed|]. split; [exact slow_sorted|]. split; auto.
  exists (mkCall 2 [line 100 2] [[("0", line 100 2)]; []]), 0, [("0", line 100 2)], "0", (line 100 2).
  vm_compute in E. injection E as _ <-. sp; vm_compute; auto 10.
Qed.
Print Assumptions C14_early_service_refuted.

(** C17.  In the same run a stored plan is charged for an intervention it does not list. *)
Theorem C17_charged_but_not_listed_refuted : exists P f root b s, well_formed P f root /\
  solve P f (start root) = Ok (b, s) /\
  exists k r, stored_row s k r /\ List.concat (map snd (r_int r)) = [] /\
    ~ (r_inv r == discounted P (map stage_cost (map snd (r_int r))))%Q.
Proof.
  exists slow, 2, 0. destruct (solve slow 2 (start 0)) as [[b s]|] eqn:E; [|vm_compute in E; discriminate].
  exists b, s. split; [exact slow_well_formed|]. split; auto.
  set (i0 := match nth_error (pl_inv (complete s)) 0 with Some x => snd x | None => 0%Q end).
  set (i1 := match nth_error (pl_inv (complete s)) 1 with Some x => snd x | None => 0%Q end).
  set (o0 := match nth_error (pl_op (complete s)) 0 with Some x => snd x | None => 0%Q end).
  set (o1 := match nth_error (pl_op (complete s)) 1 with Some x => snd x | None => 0%Q end).
  exists "0", (mkRow (path_of [0; 1]) (path_of [[]; []]) i0 o0).
  split; [|split; [reflexivity|]].
  - exists [("0", mkRow (path_of [0; 1]) (path_of [[]; []]) i0 o0);
            ("1", mkRow (path_of [0; 2]) (path_of [[("0", line 100 2)]; []]) i1 o1)].
    split; [|simpl; auto]. right. right. subst i0 i1 o0 o1. vm_compute in E. injection E as _ <-. reflexivity.
  - subst i0 i1 o0 o1. vm_compute in E. injection E as _ <-. vm_compute. discriminate.
Qed.
Print Assumptions C17_charged_but_not_listed_refuted.

(** C19.  Distinct incumbent keys need not stay distinct: eliminating the offspring of path
    0-1 from plans "0","1","2" keeps plans under keys "0" and "2", and renumbering gives
    both the key "0". *)
Definition gap_plans : @items row :=
  [("0", leaf_row [0; 2; 5] 1); ("1", leaf_row [0; 1; 4] 2); ("2", leaf_row [0; 3; 6] 3)].
Theorem C19_renumbering_duplicates_keys_refuted : exists s R s' R', inc s = plan_of R /\ NoDup (map fst R) /\
  c_path (cnd s) = path_of [0; 1] /\ eliminate_offsprings s = Ok (tt, s') /\ inc s' = plan_of R' /\
  ~ NoDup (map fst R') /\ ~ NoDup (map fst (pl_paths (inc s'))).
Proof.
  exists (set_inc (plan_of gap_plans) with_three), gap_plans.
  destruct (eliminate_offsprings (set_inc (plan_of gap_plans) with_three)) as [[u s']|] eqn:E; [|vm_compute in E; discriminate].
  destruct u. exists s', [("0", leaf_row [0; 2; 5] 1); ("0", leaf_row [0; 3; 6] 3)].
  assert (inc s' = plan_of [("0", leaf_row [0; 2; 5] 1); ("0", leaf_row [0; 3; 6] 3)]) as Es.
  { vm_compute in E. injection E as <-. reflexivity. }
  sp; auto.
  - repeat constructor; simpl; intuition discriminate.
  - simpl. intros H. inversion H; subst. simpl in *. tauto.
  - rewrite Es. simpl. intros H. inversion H; subst. simpl in *. tauto.
Qed.
Print Assumptions C19_renumbering_duplicates_keys_refuted.

(** C23.  Immediate interventions, OPF answers independent of history: the reported tree
    selects nothing at the root for leaves 3 and 4 and line "0" at the same root for leaf 2. *)
Definition mixed_costs : list opf_call -> node -> list BV -> bool * Q := fun _ n act =>
  let has c := existsb (fun b => Qeq_bool (bv_cost b) c) act in
  (true, match n, has 1%Q, has 1000%Q with
   | 0, false, false => 10%Q | 0, true, false => 7%Q | 0, false, true => 8%Q | 0, true, true => 0%Q
   | 1, false, false => 6%Q | 1, true, false => 1%Q | 1, false, true => 4%Q | 1, true, true => 5%Q
   | 2, false, false => 8%Q | 2, true, false => 6%Q | 2, false, true => 10%Q | 2, true, true => 4%Q
   | 3, false, false => 6%Q | 3, true, false => 8%Q | 3, false, true => 7%Q | 3, true, true => 8%Q
   | _, false, false => 3%Q | _, true, false => 7%Q | _, false, true => 0%Q | _, true, true => 8%Q
   end).
Definition mixed := problem_on [(0, [1; 2]); (1, [3; 4]); (2, []); (3, []); (4, [])] [0; 1; 2]%Z
  [("0", line 1 0); ("1", line 1000 0)] mixed_costs.

Lemma mixed_immediate : immediate mixed.
Proof.
  split.
  - intros i j L H. simpl in H. destruct i as [|[|[|i]]], j as [|[|[|j]]]; try lia; cbn; lia.
  - intros it [<-|[<-|[]]]; cbn; lia.
Qed.

Theorem C23_reported_plans_anticipate_refuted : exists P f root b s,
  well_formed P f root /\ immediate P /\ (forall h h' n a, p_opf P h n a = p_opf P h' n a) /\
  solve P f (start root) = Ok (b, s) /\
  exists k k' ns ns' sel sel' j n,
    In (k, path_of ns) (pl_paths (complete s)) /\ In (k, path_of sel) (pl_int (complete s)) /\
    In (k', path_of ns') (pl_paths (complete s)) /\ In (k', path_of sel') (pl_int (complete s)) /\
    nth_error ns j = Some n /\ nth_error ns' j = Some n /\ firstn (S j) sel <> firstn (S j) sel'.
Proof.
  exists mixed, 3, 0. destruct (solve mixed 3 (start 0)) as [[b s]|] eqn:E; [|vm_compute in E; discriminate].
  exists b, s. split; [wf|]. split; [exact mixed_immediate|]. split; [reflexivity|]. split; auto.
  exists "0", "2", [0; 1; 3], [0; 2], [[]; [("0", line 1 0)]; []], [[("0", line 1 0)]; []], 0, 0.
  vm_compute in E. injection E as _ <-. sp; try reflexivity; try (vm_compute; auto; fail). discriminate.
Qed.
Print Assumptions C23_reported_plans_anticipate_refuted.

(** C25.  The planner reports a complete tree although selecting line "0" at the root and
    nothing else is feasible, non-anticipative and cheaper. *)
Definition deep_tree pool := problem_on fork2 [0; 1; 2]%Z pool saving.
Definition at_root : node -> @items BV := fun n => match n with 0 => [("0", line 1 0)] | _ => [] end.

Theorem C25_reported_tree_not_optimal_refuted : exists P f root b s assign,
  well_formed P f root /\ (forall h h' n a, p_opf P h n a = p_opf P h' n a) /\
  (forall it, In it (p_pool P) -> bv_time (snd it) = 0%Z) /\
  solve P f (start root) = Ok (b, s) /\ pl_paths (complete s) <> [] /\
  exists paths, NoDup paths /\ (forall ns, In ns paths <-> path_from P root ns /\ ends_in_leaf P ns) /\
    Forall (feasible_on P assign) paths /\
    (sumQ (map (path_cost P assign) paths) < total_cost (complete s))%Q.
Proof.
  exists (deep_tree [("0", line 1 0)]), 3, 0.
  destruct (solve (deep_tree [("0", line 1 0)]) 3 (start 0)) as [[b s]|] eqn:E; [|vm_compute in E; discriminate].
  assert (W : well_formed (deep_tree [("0", line 1 0)]) 3 0) by wf.
  exists b, s, at_root. split; auto. split; [reflexivity|]. split; [intros it [<-|[]]; reflexivity|].
  split; auto. split; [vm_compute in E; injection E as _ <-; discriminate|].
  exists (leaf_paths (deep_tree [("0", line 1 0)]) 3 0). split; [|split; [|split]].
  - repeat constructor; simpl; intuition discriminate.
  - intros ns. apply leaf_paths_spec. apply W.
  - repeat apply Forall_cons; try apply Forall_nil; (split; [repeat constructor; simpl; intuition discriminate|split]);
    try (intros x [<-|[]]; simpl; auto; fail); repeat constructor.
  - vm_compute in E. injection E as _ <-. vm_compute. reflexivity.
Qed.
Print Assumptions C25_reported_tree_not_optimal_refuted.

(** C26, C27.  On a three-stage tree that is feasible at every node with whatever is in
    service, the planner without interventions reports no tree and answers False. *)
Theorem C26_feasible_but_no_plan_refuted : exists P f root b s,
  well_formed P f root /\ (forall h n a, fst (p_opf P h n a) = true) /\
  solve P f (start root) = Ok (b, s) /\ complete s = empty_plan.
Proof.
  exists (deep_tree []), 3, 0. destruct (solve (deep_tree []) 3 (start 0)) as [[b s]|] eqn:E; [|vm_compute in E; discriminate].
  exists b, s. split; [wf|]. split; [reflexivity|]. split; auto. vm_compute in E. injection E as _ <-. reflexivity.
Qed.
Print Assumptions C26_feasible_but_no_plan_refuted.

(** C27.  Even when a complete tree is found and stored the answer may be False. *)
Theorem C27_false_although_feasible_refuted : exists P f root s,
  well_formed P f root /\ (forall h n a, fst (p_opf P h n a) = true) /\
  solve P f (start root) = Ok (false, s) /\ pl_paths (complete s) = [("0", path_of [0; 1]); ("1", path_of [0; 2])].
Proof.
  exists (problem_on fork [0; 1]%Z [] saving), 2, 0.
  destruct (solve (problem_on fork [0; 1]%Z [] saving) 2 (start 0)) as [[b s]|] eqn:E; [|vm_compute in E; discriminate].
  vm_compute in E. injection E as Eb <-. subst b. eexists. split; [wf|]. split; [reflexivity|]. split; reflexivity.
Qed.
Print Assumptions C27_false_although_feasible_refuted.

(** C29.  With non_anticipative=False the program returns no tables, and the base planner's
    [solve] raises NameError at the first leaf and, whatever the problem, fuel and state,
    never stores a plan. *)
Theorem C29_anticipative_planner_stores_nothing_refuted : exists P f,
  deep P f 0 /\ (forall h n a, fst (p_opf P h n a) = true) /\ p_nonant P = false /\
  (forall scen yr g, main_access P scen yr g = Ok None) /\
  base_solve P f (start 0) = Err NameError /\
  (forall P' g s s', base_solve P' g s = Ok (tt, s') -> inc s' = inc s).
Proof.
  exists (mkProblem fork [0; 1; 2] [0; 1]%Z 0 two_lines false saving), 2. split; [|split; [|split; [|split; [|split]]]].
  - apply deepb_deep. reflexivity.
  - reflexivity.
  - reflexivity.
  - reflexivity.
  - vm_compute. reflexivity.
  - intros P' g s s' E. exact (base_solve_stores_nothing P' g s tt s' E).
Qed.
Print Assumptions C29_anticipative_planner_stores_nothing_refuted.
