(** C09 - C29, what holds: properties of the investment planner.
    [call P root f s l] says that [solve] is called with fuel [f] in a state [s] the search can
    be in: stages [l] selected so far form a path from [root] to the father of the current
    node and everything stored was obtained by earlier runs of the search; [start root] is
    the state in which the user calls it ([C12_the_first_call]). *)
From Coq Require Import List String Bool ZArith QArith Arith Lia Permutation Sorted.
From Verif Require Import Base Container ContainerSpec Planner PlannerSpec PlannerRows PlannerProofs PlannerInv PlannerMain PlannerLeaf PlannerFacts PlannerSolution PlannerSolutionProofs.
Import ListNotations.
Open Scope nat_scope.
Open Scope string_scope.
Open Scope list_scope.

Local Ltac sp := repeat match goal with |- _ /\ _ => split end.

(* ------------------------------------------------------------------ *)
(** ** problems used by the examples *)

Definition line (c : Q) (t : Z) : BV := mkBV "" c (One c) "line" "branch" t (One 0).
Definition problem_on g yrs pool opf : problem := mkProblem g (map fst g) yrs 0 pool true opf.
Definition fork : list (node * list node) := [(0, [1; 2]); (1, []); (2, [])].
Definition fork2 : list (node * list node) := [(0, [1; 2]); (1, [3; 4]); (2, [5; 6]); (3, []); (4, []); (5, []); (6, [])].
(** Feasible everywhere; each intervention in service saves 1 per day. *)
Definition saving : list opf_call -> node -> list BV -> bool * Q :=
  fun _ _ act => (true, 10 - (Z.of_nat (List.length act) # 1))%Q.
Definition two_lines := [("0", line 1 0); ("1", line 100 0)].
Definition small := problem_on fork [2020; 2030]%Z two_lines saving.

Lemma small_well_formed : well_formed small 2 0.
Proof.
  unfold well_formed. sp; auto.
  - simpl. split; auto. exists [1; 2]. split; [reflexivity|]. intros m [<-|[<-|[]]]; (split; [discriminate|]);
    (split; [auto|]); exists []; (split; [reflexivity|]); intros m [].
  - intros H. discriminate H.
  - simpl. repeat constructor; simpl; intuition discriminate.
Qed.

Lemma small_immediate : immediate small.
Proof.
  split.
  - intros i j L H. simpl in H. destruct i as [|[|i]], j as [|[|j]]; try lia; cbn; lia.
  - intros it [<-|[<-|[]]]; cbn; lia.
Qed.

(* ------------------------------------------------------------------ *)

(** C09.  The pool created from the configured groups has keys "0","1",... without
    repetition; its entries are, group after group, the rows (cost, position, time,
    capacity) of the group up to its shortest column. *)
Theorem C09_pool_numbers_each_intervention_once : forall groups : list bv_group,
  map fst (create_pool groups) = map str_nat (seq 0 (List.length (create_pool groups))) /\
  NoDup (map fst (create_pool groups)) /\
  exists per_group, map snd (create_pool groups) = List.concat per_group /\
    Forall2 (fun g rows => List.length rows = Nat.min (Nat.min (List.length (g_costs g)) (List.length (g_positions g)))
                                               (Nat.min (List.length (g_times g)) (List.length (g_caps g))) /\
       forall i b, nth_error rows i = Some b <->
         exists c p t q, nth_error (g_costs g) i = Some c /\ nth_error (g_positions g) i = Some p /\
           nth_error (g_times g) i = Some t /\ nth_error (g_caps g) i = Some q /\
           b = mkBV "" c p (g_type g) (g_name g) t q) groups per_group.
Proof. exact pool_numbered. Qed.
Print Assumptions C09_pool_numbers_each_intervention_once.

Example C09_witness :
  create_pool [mkGroup "line" "a" [1; 2; 3]%Q [One 7; One 8] [0; 4]%Z [One 0; One 0; One 0];
               mkGroup "line" "b" [5]%Q [One 9] [1]%Z [One 2]] =
  [("0", mkBV "" 1 (One 7) "line" "a" 0 (One 0)); ("1", mkBV "" 2 (One 8) "line" "a" 4 (One 0));
   ("2", mkBV "" 5 (One 9) "line" "b" 1 (One 2))].
Proof. reflexivity. Qed.

(** C10.  The interventions on offer are, in pool order, the pool entries neither selected in
    an earlier stage nor newly selected. *)
Theorem C10_available_are_the_unused : forall P s, NoDup (map fst (p_pool P)) ->
  incl (List.concat (map snd (c_int (cnd s)))) (p_pool P) -> incl (n_int (new s)) (p_pool P) ->
  subseq (available P s) (p_pool P) /\
  forall it, In it (available P s) <->
    In it (p_pool P) /\ ~ In it (List.concat (map snd (c_int (cnd s))) ++ n_int (new s)).
Proof. exact available_exact. Qed.
Print Assumptions C10_available_are_the_unused.

(** C10, consequence for whole runs: neither the selections handed to the OPF nor any stored
    plan uses an intervention twice or one from outside the pool. *)
Theorem C10_no_intervention_twice : forall P f root, well_formed P f root ->
  exists b s, solve P f (start root) = Ok (b, s) /\
  (forall c, In c (log s) -> NoDup (map fst (List.concat (oc_selected c))) /\ incl (List.concat (oc_selected c)) (p_pool P)) /\
  (forall k r, stored_row s k r ->
     NoDup (map fst (List.concat (map snd (r_int r)))) /\ incl (List.concat (map snd (r_int r))) (p_pool P)).
Proof.
  intros P f root W. destruct (run_ok P f root W) as (b & s & E & I & _). exists b, s. sp; auto.
  - intros c J. pose proof (Inv_log_ok _ _ _ _ I J) as [_ _ _ X Y]. auto.
  - intros k r J. eapply good_row_once. eapply stored_good; eauto.
Qed.
Print Assumptions C10_no_intervention_twice.

Example C10_witness : well_formed small 2 0 /\
  (let s := set_new (mkNew [("1", line 100 0)] [("1", 0%Z)]) initial_info in available small s = [("0", line 1 0)]) /\
  match solve small 2 (start 0) with Ok (_, s) => List.length (log s) = 22 | Err _ => False end.
Proof. split; [apply small_well_formed|split; vm_compute; reflexivity]. Qed.

(** C11.  The combinations tried are the non-empty sub-selections, each once, smaller ones
    first, [2^n - 1] of them. *)
Theorem C11_every_nonempty_subset_once : forall (A : Type) (l : list A),
  (forall c, In c (all_combinations l) <-> subseq c l /\ c <> []) /\
  (NoDup l -> NoDup (all_combinations l)) /\
  List.length (all_combinations l) = 2 ^ List.length l - 1 /\
  StronglySorted (fun a b => List.length a <= List.length b) (all_combinations l).
Proof.
  intros A l. sp; [apply all_combinations_spec|apply all_combinations_NoDup|apply all_combinations_length|apply combinations_by_size].
Qed.
Print Assumptions C11_every_nonempty_subset_once.

Example C11_witness : all_combinations ["a"; "b"; "c"] =
  [["a"]; ["b"]; ["c"]; ["a"; "b"]; ["a"; "c"]; ["b"; "c"]; ["a"; "b"; "c"]].
Proof. reflexivity. Qed.

(** C12.  A call of [solve] restores candidate path, interventions, operating costs and
    current node, clears the new interventions and lowers the level by one. *)
Theorem C12_search_backtracks : forall P root f s l, call P root f s l ->
  exists b s', solve P f s = Ok (b, s') /\
    c_path (cnd s') = c_path (cnd s) /\ c_int (cnd s') = c_int (cnd s) /\ c_op (cnd s') = c_op (cnd s) /\
    cur s' = cur s /\ new s' = no_new /\ level s' = (level s - 1)%Z.
Proof.
  intros P root f s l H. pose proof H as (_ & _ & _ & PR). destruct (call_ok _ _ _ _ _ H) as (b & s' & E & (d & _ & Ec & Eu & _) & Nw & Lv & _).
  exists b, s'. rewrite Ec, (pr_cnd _ _ _ _ _ _ PR). unfold cand_of. cbn [c_path c_int c_op].
  sp; auto; f_equal; unfold shift_all, nodes, sels, costs; rewrite map_map; apply map_ext; intros st; auto.
  unfold st_ints, shift_stage. simpl. rewrite vmap_vmap. now apply vmap_ext.
Qed.
Print Assumptions C12_search_backtracks.

Theorem C12_the_first_call : forall P f root, well_formed P f root -> call P root f (start root) [].
Proof. exact call_start. Qed.
Print Assumptions C12_the_first_call.

(** A call in the middle of a search: the root of [small] was run with line "0" selected, and
    the search moves on to node 2. *)
Definition mid_stage : list stage := [mkStage 0 [("0", (line 1 0, 0%Z))] 9].
Definition mid : info :=
  mkInfo empty_plan (cand_of mid_stage) no_new empty_plan empty_plan 2 1 false false
    [mkCall 0 [line 1 0] [[("0", line 1 0)]]] (true, 9%Q).

Lemma mid_call : call small 0 1 mid mid_stage.
Proof.
  destruct small_well_formed as (_ & _ & R & N & NA). unfold call. sp; auto. split; simpl; auto.
  - split; auto. exists []. split; [reflexivity|]. intros m [].
  - split; [reflexivity|]. simpl. split; [|exact I]. exists [1; 2]. split; [reflexivity|simpl; auto].
  - split.
    + right. split; [reflexivity|exact I].
    + intros x [<-|[]]. simpl. auto.
    + repeat constructor. simpl. tauto.
    + intros [|[|j]] st E; simpl in E; try discriminate. injection E as <-.
      exists [line 1 0], [], []. split; reflexivity.
  - intros _ [|[|j]] st k b t E I; simpl in E; try discriminate. injection E as <-. simpl in I.
    destruct I as [I|[]]. injection I as <- <- <-. cbn. lia.
  - exists [], [], []. sp; auto; try (constructor; fail); try (intros H; congruence). constructor; [|constructor]. split; simpl.
    + intros x [<-|[]]. simpl. auto.
    + intros _ [|[|j]] l k b E I _; simpl in E; try discriminate. injection E as <-. destruct I as [I|[]].
      injection I as <- <-. simpl. auto.
    + reflexivity.
    + intros x [<-|[]]. simpl. auto.
    + repeat constructor. simpl. tauto.
Qed.

Example C12_witness : call small 0 1 mid mid_stage /\
  match solve small 1 mid with Ok (_, s) => List.length (log s) = 3 /\ level s = 0%Z | Err _ => False end.
Proof. split; [exact mid_call|vm_compute; auto]. Qed.

(** C13, partial.  What remains true of the construction times: a call lowers the remaining
    time of all earlier selections by one common amount (never raises them when the planning
    years are sorted), so "restored" is missing; see [C13_times_not_restored_refuted]. *)
Theorem C13_times_shift_together_partial : forall P root f s l, call P root f s l ->
  exists b s' d, solve P f s = Ok (b, s') /\ (years_sorted P -> (d <= 0)%Z) /\
    c_time (cnd s') = map (fun st => (fst st, map (fun t => (fst t, (snd t + d)%Z)) (snd st))) (c_time (cnd s)).
Proof.
  intros P root f s l H. pose proof H as (_ & _ & _ & PR). destruct (call_ok _ _ _ _ _ H) as (b & s' & E & (d & D & Ec & _) & _).
  exists b, s', d. sp; auto. rewrite Ec, (pr_cnd _ _ _ _ _ _ PR). unfold cand_of. cbn [c_time].
  change (map (fun st => (fst st, map (fun t => (fst t, (snd t + d)%Z)) (snd st))) (path_of (map st_times l)))
    with (vmap (fun x : @items Z => vmap (fun t => (t + d)%Z) x) (path_of (map st_times l))).
  rewrite <- path_of_map. f_equal. unfold shift_all. rewrite !map_map. apply map_ext. intros st.
  unfold st_times, shift_stage. simpl. rewrite !vmap_vmap. reflexivity.
Qed.
Print Assumptions C13_times_shift_together_partial.

Example C13_witness : call small 0 1 mid mid_stage /\ c_time (cnd mid) = [("0", [("0", 0%Z)])].
Proof. split; [exact mid_call|vm_compute; reflexivity]. Qed.

(** C14, partial.  For every OPF run of a search: only selected interventions are in service;
    with sorted years none is late; and with no construction times the interventions in
    service are exactly the selected ones.  Missing: none is early, which is false, see
    [C14_early_service_refuted]. *)
Theorem C14_in_service_when_due_partial : forall P f root, well_formed P f root ->
  exists b s, solve P f (start root) = Ok (b, s) /\ forall c, In c (log s) ->
    incl (oc_active c) (map snd (List.concat (oc_selected c))) /\
    (years_sorted P -> forall j l k b, nth_error (oc_selected c) j = Some l -> In (k, b) l ->
       (bv_time b <= year P (List.length (oc_selected c) - 1) - year P j)%Z -> In b (oc_active c)) /\
    (immediate P -> oc_active c = map snd (List.concat (oc_selected c))).
Proof.
  intros P f root W. destruct (run_ok P f root W) as (b & s & E & I & _). exists b, s. split; auto.
  intros c J. destruct (Inv_log_ok _ _ _ _ I J). sp; auto.
Qed.
Print Assumptions C14_in_service_when_due_partial.

Example C14_witness : well_formed small 2 0 /\ immediate small /\
  match solve small 2 (start 0) with Ok (_, s) => In (mkCall 2 [line 1 0; line 100 0] [[("0", line 1 0)]; [("1", line 100 0)]]) (log s) | Err _ => False end.
Proof. split; [apply small_well_formed|split; [apply small_immediate|vm_compute; tauto]]. Qed.

(** C15.  All stored plans are paths of the control tree from the start node to a leaf. *)
Theorem C15_stored_plans_are_root_to_leaf_paths : forall P f root, well_formed P f root ->
  exists b s, solve P f (start root) = Ok (b, s) /\ forall k r, stored_row s k r ->
    exists ns, r_path r = path_of ns /\ path_from P root ns /\ ends_in_leaf P ns.
Proof.
  intros P f root W. destruct (run_ok P f root W) as (b & s & E & I & _). exists b, s. split; auto.
  intros k r J. eapply good_row_paths, stored_good; eauto.
Qed.
Print Assumptions C15_stored_plans_are_root_to_leaf_paths.

Example C15_witness : well_formed small 2 0 /\
  match solve small 2 (start 0) with
  | Ok (_, s) => pl_paths (complete s) = [("0", path_of [0; 1]); ("1", path_of [0; 2])]
  | Err _ => False end.
Proof. split; [apply small_well_formed|vm_compute; reflexivity]. Qed.

(** C16.  With no construction times, every stored plan was checked by the OPF at each node
    of its path with exactly the interventions selected up to that stage in service. *)
Theorem C16_stored_plans_were_feasible : forall P f root, well_formed P f root -> immediate P ->
  exists b s, solve P f (start root) = Ok (b, s) /\ forall k r, stored_row s k r ->
    exists ns sel, r_path r = path_of ns /\ r_int r = path_of sel /\ List.length sel = List.length ns /\
    forall j n, nth_error ns j = Some n ->
      exists q, ran_feasible P (log s) n (map snd (List.concat (firstn (S j) sel))) (firstn (S j) sel) q.
Proof.
  intros P f root W IM. destruct (run_ok P f root W) as (b & s & E & I & _). exists b, s. split; auto.
  intros k r J. eapply good_row_feasible; eauto using stored_good.
Qed.
Print Assumptions C16_stored_plans_were_feasible.

Example C16_witness : well_formed small 2 0 /\ immediate small /\
  match solve small 2 (start 0) with
  | Ok (_, s) => pl_int (complete s) = [("0", path_of [two_lines; []]); ("1", path_of [two_lines; []])]
  | Err _ => False end.
Proof. split; [apply small_well_formed|split; [apply small_immediate|vm_compute; reflexivity]]. Qed.

(** C17, partial.  The stored operation cost is the discounted sum of 365 times the daily
    costs the OPF reported on the path; with no construction times the stored investment
    cost is the discounted sum of the costs of the stored interventions.  Missing: the
    investment cost with construction times, see [C17_charged_but_not_listed_refuted]. *)
Theorem C17_costs_are_discounted_sums_partial : forall P f root, well_formed P f root ->
  exists b s, solve P f (start root) = Ok (b, s) /\ forall k r, stored_row s k r ->
    exists ns sel qs, r_path r = path_of ns /\ List.length qs = List.length ns /\ List.length sel = List.length ns /\
    (forall j n q, nth_error ns j = Some n -> nth_error qs j = Some q ->
      exists act, ran_feasible P (log s) n act (firstn (S j) sel) q) /\
    (r_op r == discounted P (map (fun q => q * 365) qs))%Q /\
    (immediate P -> r_int r = path_of sel /\ r_inv r == discounted P (map stage_cost sel))%Q.
Proof.
  intros P f root W. destruct (run_ok P f root W) as (b & s & E & I & _). exists b, s. split; auto.
  intros k r J. destruct W as (D & L & R & _). eapply good_row_operation; eauto using stored_good.
  intros ns PF _. pose proof (path_length P f root ns D PF). lia.
Qed.
Print Assumptions C17_costs_are_discounted_sums_partial.

Example C17_witness : well_formed small 2 0 /\ immediate small /\
  match solve small 2 (start 0) with
  | Ok (_, s) => map (fun x => Qred (snd x)) (pl_inv (complete s)) = [101; 101]%Q /\
                 map (fun x => Qred (snd x)) (pl_op (complete s)) = [5840; 5840]%Q
  | Err _ => False end.
Proof. split; [apply small_well_formed|split; [apply small_immediate|vm_compute; auto]]. Qed.

(** C18.  On a well-formed problem the search ends without an exception and the four
    columns of each table of plans list the same keys in the same order. *)
Theorem C18_search_terminates_with_aligned_tables : forall P f root, well_formed P f root ->
  exists b s, solve P f (start root) = Ok (b, s) /\ aligned (inc s) /\ aligned (partial s) /\ aligned (complete s).
Proof.
  intros P f root W. destruct (run_ok P f root W) as (b & s & E & I & _). exists b, s. split; auto.
  now apply (Inv_aligned P root).
Qed.
Print Assumptions C18_search_terminates_with_aligned_tables.

(** C18: the result does not depend on how much fuel the model is given. *)
Theorem C18_enough_fuel : forall P f root g, well_formed P f root -> f <= g ->
  solve P g (start root) = solve P f (start root).
Proof.
  intros P f root g W L. destruct (run_ok P f root W) as (b & s & E & _). rewrite E. now apply (solve_mono P f g L).
Qed.
Print Assumptions C18_enough_fuel.

Example C18_witness : well_formed small 2 0 /\
  match solve small 2 (start 0) with Ok (_, s) => map fst (pl_paths (complete s)) = ["0"; "1"] | Err _ => False end.
Proof. split; [apply small_well_formed|vm_compute; reflexivity]. Qed.

(** C20.  Eliminating the offspring of candidate path [ns] from an incumbent with distinct
    keys drops exactly the plans whose path extends [ns]; the others keep path,
    interventions and costs (their key and order may change).  The flag that admits complete
    trees is cleared exactly when nothing is left and no leaf was reached last. *)
Theorem C20_elimination_is_exact : forall s R Pt ns,
  inc s = plan_of R -> partial s = plan_of Pt -> NoDup (map fst R) -> c_path (cnd s) = path_of ns ->
  exists s' R' keep, eliminate_offsprings s = Ok (tt, s') /\ inc s' = plan_of R' /\
    Permutation (map snd R') (map snd keep) /\ subseq keep R /\
    (forall x m, In x R -> r_path (snd x) = path_of m -> (In x keep <-> ~ is_prefix ns m)) /\
    complete s' = complete s /\ (R' = [] -> last s = false -> allow s' = false) /\ (R' <> [] \/ last s = true -> allow s' = allow s).
Proof. exact elimination_exact. Qed.
Print Assumptions C20_elimination_is_exact.

Definition leaf_row (ns : list node) (c : Q) : row := mkRow (path_of ns) (path_of (map (fun _ => []) ns)) 0 c.
Definition three_plans : @items row :=
  [("0", leaf_row [0; 1; 3] 1); ("1", leaf_row [0; 1; 4] 2); ("2", leaf_row [0; 2; 5] 3)].
Definition with_three : info :=
  set_cnd (mkCand (path_of [0; 1]) (path_of [[]; []]) (path_of [[]; []]) (path_of [1; 1]%Q))
    (set_inc (plan_of three_plans) initial_info).

Example C20_witness : NoDup (map fst three_plans) /\
  match eliminate_offsprings with_three with
  | Ok (_, s) => inc s = plan_of [("0", leaf_row [0; 2; 5] 3)]
  | Err _ => False end.
Proof. split; [repeat constructor; simpl; intuition discriminate|vm_compute; reflexivity]. Qed.

(** C21.  A stored complete tree visits every node of the control tree. *)
Theorem C21_reported_tree_covers_every_node : forall P f root, well_formed P f root ->
  exists b s, solve P f (start root) = Ok (b, s) /\
  (pl_paths (complete s) <> [] -> forall n, In n (p_nodes P) ->
     exists k path, In (k, path) (pl_paths (complete s)) /\ In n (map snd path)).
Proof.
  intros P f root W. destruct (run_ok P f root W) as (b & s & E & I & _). exists b, s. split; auto.
  now apply (Inv_covers P root).
Qed.
Print Assumptions C21_reported_tree_covers_every_node.

Example C21_witness : well_formed small 2 0 /\
  match solve small 2 (start 0) with Ok (_, s) => List.length (pl_paths (complete s)) = 2 | Err _ => False end.
Proof. split; [apply small_well_formed|vm_compute; reflexivity]. Qed.

(** C22.  Over any call of [solve] a stored complete tree is kept or replaced by one that is
    not dearer. *)
Theorem C22_reported_cost_never_increases : forall P root f s l, call P root f s l ->
  exists b s', solve P f s = Ok (b, s') /\
  (pl_paths (complete s) <> [] ->
     pl_paths (complete s') <> [] /\ (total_cost (complete s') <= total_cost (complete s))%Q).
Proof.
  intros P root f s l H. destruct (call_ok _ _ _ _ _ H) as (b & s' & E & (d & _ & _ & _ & _ & A) & _).
  exists b, s'. split; auto. apply A.
Qed.
Print Assumptions C22_reported_cost_never_increases.

(** C24.  At a leaf entered with an empty incumbent, with no construction times: the OPF is
    run once for the empty selection and once for each non-empty selection of unused
    interventions, in that order. *)
Theorem C24_leaf_tries_every_selection : forall P root f s l, immediate P -> call P root (S f) s l ->
  is_leaf P (cur s) -> inc s = empty_plan ->
  exists b s' calls, solve P (S f) s = Ok (b, s') /\ log s' = log s ++ calls /\
    map oc_selected calls =
      map (fun c => sels l ++ [c]) ([] :: all_combinations (filter (unused (List.concat (sels l))) (p_pool P))) /\
    Forall (fun c => oc_node c = cur s) calls.
Proof.
  intros P root f s l IM (N & R & NA & PR) LF E0.
  destruct (leaf_tried P root N R NA IM f s l LF PR E0) as (b & s' & E & calls & bnd & EL & ES & EN & _).
  exists b, s', calls. auto.
Qed.
Print Assumptions C24_leaf_tries_every_selection.

(** C24.  If moreover the OPF answer depends only on node and interventions in service, the
    plan stored for the leaf costs no more than that with any feasible selection [c] of
    unused interventions at the leaf. *)
Theorem C24_leaf_decision_is_optimal : forall P root f s l c q,
  immediate P -> (forall h h' n a, p_opf P h n a = p_opf P h' n a) ->
  call P root (S f) s l -> is_leaf P (cur s) -> inc s = empty_plan ->
  subseq c (filter (unused (List.concat (sels l))) (p_pool P)) ->
  p_opf P [] (cur s) (map snd (List.concat (sels l ++ [c]))) = (true, q) ->
  exists b s' r, solve P (S f) s = Ok (b, s') /\ inc s' = plan_of [("0", r)] /\
    r_path r = path_of (nodes l ++ [cur s]) /\
    (r_inv r + r_op r <= discounted P (map stage_cost (sels l ++ [c])) + discounted P (costs l ++ [q * 365]))%Q.
Proof. exact leaf_optimal. Qed.
Print Assumptions C24_leaf_decision_is_optimal.

Example C24_witness : call small 0 1 mid mid_stage /\ is_leaf small (cur mid) /\ inc mid = empty_plan /\
  (forall h h' n a, p_opf small h n a = p_opf small h' n a) /\
  filter (unused (List.concat (sels mid_stage))) (p_pool small) = [("1", line 100 0)].
Proof. split; [exact mid_call|]. sp; reflexivity. Qed.

(** C27, partial.  If [solve] answers True for the current node, then a selection at that
    node and at every node below it exists for which the OPF was feasible.  Missing: the
    converse, which is false, see [C27_false_although_feasible_refuted]. *)
Theorem C27_true_means_feasible_below_partial : forall P root f s l, call P root f s l ->
  exists b s', solve P f s = Ok (b, s') /\ (b = true -> served P f (log s') (sels l) (cur s)).
Proof.
  intros P root f s l H. destruct (call_ok _ _ _ _ _ H) as (b & s' & E & _ & _ & _ & S). exists b, s'. auto.
Qed.
Print Assumptions C27_true_means_feasible_below_partial.

Example C27_witness : call small 0 1 mid mid_stage /\
  match solve small 1 mid with Ok (b, _) => b = true | Err _ => False end.
Proof. split; [exact mid_call|vm_compute; reflexivity]. Qed.

(** C28, partial.  For a table of plans with distinct numbers whose leaves serve disjoint
    scenarios, get_solution answers two cost tables with one row per scenario, sorted: the
    cost of the plan whose leaf serves the scenario; and lists exactly the lines of the
    plans.  Missing: a proof that the planner's final table always has distinct numbers. *)
Theorem C28_one_cost_per_scenario_partial : forall scen yr R,
  reportable scen yr R -> NoDup (flat_map (fun x => leaf_scenarios scen (snd x)) R) ->
  exists L I O, get_solution scen yr (plan_of R) = Ok (L, I, O) /\
  NoDup (map fst I) /\ NoDup (map fst O) /\
  (forall s c, In (s, c) I <-> exists k r, In (k, r) R /\ In s (leaf_scenarios scen r) /\ c = Some (r_inv r)) /\
  (forall s c, In (s, c) O <-> exists k r, In (k, r) R /\ In s (leaf_scenarios scen r) /\ c = Some (r_op r)) /\
  Sorted (fun a b => fst a <= fst b) I /\ Sorted (fun a b => fst a <= fst b) O /\
  (forall s y pos, In (mkLine s y pos) L <-> exists k r lev n st kb b sc, In (k, r) R /\
     In (lev, n) (r_path r) /\ l_get lev (r_int r) = Some st /\ In (kb, b) st /\
     bv_type b = "line" /\ bv_pos b = pos /\ scen n = Some sc /\ In s sc /\ yr n = Some y).
Proof.
  intros scen yr R RP ND. destruct (get_solution_spec scen yr R RP ND) as (L & I & O & E & PL & PI & PO & SI & SO).
  exists L, I, O. destruct (table_one_cost scen r_inv R I ND PI). destruct (table_one_cost scen r_op R O ND PO).
  assert (G : forall T, Sorted (fun a b => cost_leb a b = true) T -> Sorted (fun a b : cost_row => fst a <= fst b) T).
  { intros T. induction 1 as [|x T S IS H']; constructor; auto. destruct H'; constructor. apply Nat.leb_le. exact H3. }
  sp; auto. intros s y pos. split.
  - intros J. apply (Permutation_in _ PL) in J. apply in_flat_map in J as ([k r] & J & K). simpl in K.
    apply (rows_of_plan_iff scen yr R k r s y pos RP J) in K as (lev & n & st & kb & b & sc & K).
    exists k, r, lev, n, st, kb, b, sc. tauto.
  - intros (k & r & lev & n & st & kb & b & sc & J & K). apply (Permutation_in _ (Permutation_sym PL)).
    apply in_flat_map. exists (k, r). split; auto. simpl. apply (rows_of_plan_iff scen yr R k r s y pos RP J).
    exists lev, n, st, kb, b, sc. exact K.
Qed.
Print Assumptions C28_one_cost_per_scenario_partial.

(** The plans of [small] after the search, with two scenarios at leaf 1 and one at leaf 2. *)
Example C28_witness :
  let scen n := match n with 0 => Some [0; 1; 2] | 1 => Some [2; 0] | 2 => Some [1] | _ => None end in
  let yr n := match n with 0 => Some 2020%Z | _ => Some 2030%Z end in
  let R := [("0", mkRow (path_of [0; 1]) (path_of [[("0", line 1 0)]; []]) 1 20);
            ("1", mkRow (path_of [0; 2]) (path_of [[("0", line 1 0)]; [("1", line 100 0)]]) 101 10)] in
  reportable scen yr R /\ NoDup (flat_map (fun x => leaf_scenarios scen (snd x)) R) /\
  match get_solution scen yr (plan_of R) with
  | Ok (_, inv, op) => inv = [(0, Some 1%Q); (1, Some 101%Q); (2, Some 1%Q)] /\ op = [(0, Some 20%Q); (1, Some 10%Q); (2, Some 20%Q)]
  | Err _ => False end.
Proof.
  cbn zeta. sp.
  - split; [repeat constructor; simpl; intuition discriminate|]. intros k r [E|[E|[]]]; injection E as <- <-; split;
    try (eexists; split; [reflexivity|discriminate]); intros lev n [E|[E|[]]]; injection E as <- <-; sp; discriminate.
  - simpl. repeat constructor; simpl; intuition discriminate.
  - vm_compute. auto.
Qed.

(** A state in which a dear complete tree is stored when [solve] is called at the root. *)
Definition free : Q := 0.00000000000000000000%Q.
Definition operated : Q := 7300.00000000000000000000%Q.
Definition dear_tree : @items row :=
  [("0", mkRow (path_of [0; 1]) (path_of [[]; []]) free operated); ("1", mkRow (path_of [0; 2]) (path_of [[]; []]) free operated)].
Definition dear : info :=
  mkInfo empty_plan (cand_of []) no_new (plan_of dear_tree) empty_plan 0 0 false false
    [mkCall 0 [] [[]]; mkCall 1 [] [[]; []]; mkCall 2 [] [[]; []]] (true, 10%Q).

Lemma dear_call : call small 0 2 dear [].
Proof.
  destruct small_well_formed as (D & L & R & N & NA). unfold call. sp; auto. split; simpl; auto.
  - split; reflexivity.
  - split; simpl; [now left|intros x []|constructor|]. intros [|j] st E; discriminate.
  - intros _ [|j] st k b t E; discriminate.
  - assert (C : forall n st, In n [1; 2] -> st = [mkStage 0 [] 10; mkStage n [] 10] -> good_cand small 0 (log dear) st).
    { intros n st I ->. split; simpl.
      - right. split; [reflexivity|]. simpl. split; [|exact Logic.I]. exists [1; 2]. split; [reflexivity|exact I].
      - intros x [].
      - constructor.
      - intros [|[|[|j]]] st E; simpl in E; try discriminate; injection E as <-; exists [].
        + exists [], [mkCall 1 [] [[]; []]; mkCall 2 [] [[]; []]]. split; reflexivity.
        + destruct I as [<-|[<-|[]]].
          * exists [mkCall 0 [] [[]]], [mkCall 2 [] [[]; []]]. split; reflexivity.
          * exists [mkCall 0 [] [[]]; mkCall 1 [] [[]; []]], []. split; reflexivity. }
    assert (G : forall n, In n [1; 2] -> good_row small 0 (log dear) (mkRow (path_of [0; n]) (path_of [[]; []]) free operated)).
    { intros n I. exists [mkStage 0 [] 10; mkStage n [] 10], [[]; []]. sp; auto; try reflexivity.
      - eapply C; eauto.
      - exists n. split; [reflexivity|]. destruct I as [<-|[<-|[]]]; reflexivity.
      - repeat constructor. }
    exists [], dear_tree, []. sp; auto; try (constructor; fail).
    + constructor; [apply G; simpl; auto|]. constructor; [apply G; simpl; auto|constructor].
    + intros _ n [<-|[<-|[<-|[]]]]; [exists ("0", mkRow (path_of [0; 1]) (path_of [[]; []]) free operated)| |
        exists ("1", mkRow (path_of [0; 2]) (path_of [[]; []]) free operated)]; try (simpl; auto; fail).
      exists ("0", mkRow (path_of [0; 1]) (path_of [[]; []]) free operated). simpl. auto.
    + assert (E : forall n sel, Forall (fun x => x = []) sel -> log_ok small (mkCall n [] sel)).
      { intros n sel F. assert (Z : List.concat sel = []) by (induction F; simpl; subst; auto).
        split; simpl; rewrite ?Z; simpl; auto using incl_nil_l; [|constructor].
        intros _ j l k b En I. rewrite Forall_forall in F. rewrite (F l (nth_error_In _ _ En)) in I. destruct I. }
      repeat apply Forall_cons; try apply Forall_nil; apply E; repeat constructor.
Qed.

Example C22_witness : call small 0 2 dear [] /\ pl_paths (complete dear) <> [] /\
  match solve small 2 dear with Ok (_, s) => (total_cost (complete s) < total_cost (complete dear))%Q | Err _ => False end.
Proof. split; [exact dear_call|]. split; [discriminate|vm_compute; reflexivity]. Qed.

(** C88.  Whatever the recursive calls do: when the interventions at a node have been tried,
    the incumbent tree is empty only if no partial tree is stored either, and a node that has
    no intervention left answers False, keeps a non-empty incumbent tree as it is and
    otherwise takes the stored partial tree, changing nothing else. *)
Theorem C88_incumbent_restored_only_when_empty : forall P sv s b s',
  interventions_handler P sv s = Ok (b, s') ->
  (pl_paths (inc s') = [] -> pl_paths (partial s') = []) /\
  (available P s = [] -> b = false /\ partial s' = partial s /\ complete s' = complete s /\ log s' = log s /\ cnd s' = cnd s /\
     (pl_paths (inc s) <> [] -> inc s' = inc s) /\ (pl_paths (inc s) = [] -> pl_paths (partial s) <> [] -> inc s' = partial s)).
Proof.
  intros P sv s b s' E. unfold interventions_handler in E. unfold bind at 1 in E. cbn [get] in E. unfold bind at 1 in E.
  set (lp := for_acc _ _ _) in E.
  assert (G : forall s1 found, (let! s0 := get in let! e := lift (plan_is_empty (partial s0)) in
     (if negb e && Nat.eqb (List.length (pl_paths (inc s0))) 0 then modify (fun s2 => set_inc (partial s2) s2) else ret tt) ;; ret found) s1 = Ok (b, s') ->
     found = b /\ partial s' = partial s1 /\ complete s' = complete s1 /\ log s' = log s1 /\ cnd s' = cnd s1 /\
     (pl_paths (inc s1) <> [] -> inc s' = inc s1) /\ (pl_paths (inc s1) = [] -> pl_paths (partial s1) <> [] -> inc s' = partial s1) /\
     (pl_paths (inc s1) = [] -> pl_paths (partial s1) = [] -> inc s' = inc s1)).
  { intros s1 found X. unfold bind in X. cbn [get] in X. unfold lift, plan_is_empty in X.
    destruct (_ && _ && _) eqn:C in X; [|discriminate]. apply andb_true_iff in C as [C C3]. apply andb_true_iff in C as [C1 C2]. apply Nat.eqb_eq in C1, C2, C3.
    destruct (pl_paths (inc s1)) as [|p0 l0] eqn:EI.
    - cbn [List.length Nat.eqb] in X. rewrite andb_true_r in X. destruct (Nat.eqb_spec (List.length (pl_int (partial s1))) 0) as [N|N]; cbn in X; injection X as <- <-; sp; auto; try (intros; congruence).
      intros Y. destruct (pl_paths (partial s1)); [|cbn in *; lia]. congruence.
      intros _ Y. rewrite Y in C3. cbn in C3. lia.
    - cbn [List.length Nat.eqb] in X. rewrite andb_false_r in X. cbn in X. injection X as <- <-. sp; auto; intros; congruence. }
  destruct (lp s) as [[found s1]|x] eqn:EL; [|discriminate]. specialize (G s1 found E) as (-> & G1 & G2 & G3 & G4 & G5 & G6 & G7). split.
  - intros Z0. rewrite G1. destruct (pl_paths (partial s1)) as [|p l] eqn:EP; auto. exfalso. destruct (pl_paths (inc s1)) as [|q r] eqn:EQ.
    + rewrite G6 in Z0 by congruence. congruence.
    + rewrite G5 in Z0 by congruence. congruence.
  - intros AV. subst lp. rewrite AV in EL. cbn in EL. injection EL as <- <-. sp; auto.
Qed.
Print Assumptions C88_incumbent_restored_only_when_empty.

Example C88_witness :
  let P := problem_on fork [2020; 2030]%Z [] (fun _ _ _ => (true, 5%Q)) in
  let s inc0 := set_inc inc0 (set_partial (plan_of dear_tree) dear) in
  let one := plan_of [("0", mkRow (path_of [0; 1]) (path_of [[]; []]) free operated)] in
  let after inc0 := match interventions_handler P (raise KeyError) (s inc0) with Ok (b, s') => Some (b, inc s') | Err _ => None end in
  available P (s one) = [] /\ after one = Some (false, one) /\ after empty_plan = Some (false, plan_of dear_tree).
Proof. vm_compute. auto. Qed.
