(** Model of the investment planner: pyensys/Optimisers/RecursiveFunction.py,
    pyensys/Optimisers/NonAnticipativeRecursiveFunction.py and
    pyensys/managers/GeneralManager.py.

    Below "NA:a-b" cites lines of NonAnticipativeRecursiveFunction.py and
    "RF:a-b" lines of RecursiveFunction.py.

    Simplifications common to the whole file.
    - All containers used by the planner are in list mode (GeneralManager.py:18-32,
      NA:69-72, 195-199), so a container is its list of items and [l_get], [l_set],
      [l_pop], [l_append] of Container.v are its methods.  The four containers of
      [partial_tree] are never created before the first [_store_partial_tree]; a
      never-created container has length 0 and [get] returns None on it, exactly as for
      an empty list, and no other method is called on it before that point.
    - [deepcopy] is the identity; no container is shared between two places that mutate it.
    - Costs are rationals.
    - The OPF (PandaPowerManager) is an arbitrary function of the history of OPF runs, the
      node and the interventions put in service; it returns (feasible, cost per day).
    - Printing and the write-only tables _number_opf_per_node / _successful_opf_per_node
      are dropped, except that NA:333 raises KeyError for a node missing from nodes_data. *)
From Coq Require Import List String Bool ZArith QArith.
From Verif Require Import Base Container.
Import ListNotations.
Open Scope nat_scope.
Open Scope list_scope.

Definition node := nat.

(* ------------------------------------------------------------------ *)
(** ** data *)

(** A configured position or capacity: a number, or a list of numbers (a cluster of
    branches, as built by cases.py:build_json). *)
Inductive pyval := One (q : Q) | Many (l : list Q).

Fixpoint list_Qeqb (a b : list Q) : bool :=
  match a, b with
  | [], [] => true
  | x :: a', y :: b' => Qeq_bool x y && list_Qeqb a' b'
  | _, _ => false
  end.

(** Python's [==] on such values. *)
Definition pyval_eqb (a b : pyval) : bool :=
  match a, b with
  | One x, One y => Qeq_bool x y
  | Many x, Many y => list_Qeqb x y
  | _, _ => false
  end.

(** RF:73-81, class BinaryVariable. *)
Record BV := mkBV {
  bv_id : string; bv_cost : Q; bv_pos : pyval; bv_type : string;
  bv_name : string; bv_time : Z; bv_cap : pyval }.

(** RF:83-88, BinaryVariable.__eq__; installation_time is not compared. *)
Definition bv_eqb (a b : BV) : bool :=
  String.eqb (bv_id a) (bv_id b) && Qeq_bool (bv_cost a) (bv_cost b) &&
  pyval_eqb (bv_pos a) (bv_pos b) && String.eqb (bv_type a) (bv_type b) &&
  String.eqb (bv_name a) (bv_name b) && pyval_eqb (bv_cap a) (bv_cap b).

(** ReaderDataClasses.py, OptimisationBinaryVariables: one configured group. *)
Record bv_group := mkGroup {
  g_type : string; g_name : string; g_costs : list Q; g_positions : list pyval;
  g_times : list Z; g_caps : list pyval }.

(** RF:15-24, InvestmentPlanData; also used for the four incumbent containers of
    InterIterationInformation (RF:41-48). *)
Record plan := mkPlan {
  pl_paths : @items (@items node);
  pl_int : @items (@items (@items BV));
  pl_inv : @items Q;
  pl_op : @items Q }.

Definition empty_plan := mkPlan [] [] [] [].

(** RF:49-57, the candidate_* containers. *)
Record cand := mkCand {
  c_path : @items node;
  c_int : @items (@items BV);
  c_time : @items (@items Z);
  c_op : @items Q }.

(** RF:58-62. *)
Record newi := mkNew { n_int : @items BV; n_time : @items Z }.
Definition no_new := mkNew [] [].

(** One OPF run: node and interventions put in service (NA:386-389).  [oc_selected] is a
    ghost (no counterpart in the code): the interventions selected at each stage of the
    candidate, the current one last. *)
Record opf_call := mkCall { oc_node : node; oc_active : list BV; oc_selected : list (@items BV) }.

(** RF:39-70, InterIterationInformation, together with the OPF state of the planner
    object: the history of OPF runs and the last result. *)
Record info := mkInfo {
  inc : plan; cnd : cand; new : newi; complete : plan; partial : plan;
  cur : node; level : Z; allow : bool; last : bool;
  log : list opf_call; opf_res : bool * Q }.

Definition set_inc x s := mkInfo x (cnd s) (new s) (complete s) (partial s) (cur s) (level s) (allow s) (last s) (log s) (opf_res s).
Definition set_cnd x s := mkInfo (inc s) x (new s) (complete s) (partial s) (cur s) (level s) (allow s) (last s) (log s) (opf_res s).
Definition set_new x s := mkInfo (inc s) (cnd s) x (complete s) (partial s) (cur s) (level s) (allow s) (last s) (log s) (opf_res s).
Definition set_complete x s := mkInfo (inc s) (cnd s) (new s) x (partial s) (cur s) (level s) (allow s) (last s) (log s) (opf_res s).
Definition set_partial x s := mkInfo (inc s) (cnd s) (new s) (complete s) x (cur s) (level s) (allow s) (last s) (log s) (opf_res s).
Definition set_cur x s := mkInfo (inc s) (cnd s) (new s) (complete s) (partial s) x (level s) (allow s) (last s) (log s) (opf_res s).
Definition set_level x s := mkInfo (inc s) (cnd s) (new s) (complete s) (partial s) (cur s) x (allow s) (last s) (log s) (opf_res s).
Definition set_allow x s := mkInfo (inc s) (cnd s) (new s) (complete s) (partial s) (cur s) (level s) x (last s) (log s) (opf_res s).
Definition set_last x s := mkInfo (inc s) (cnd s) (new s) (complete s) (partial s) (cur s) (level s) (allow s) x (log s) (opf_res s).
Definition set_opf l r s := mkInfo (inc s) (cnd s) (new s) (complete s) (partial s) (cur s) (level s) (allow s) (last s) l r.

(** What the planner object holds after [initialise] (NA:182-192).  [p_graph] is the
    adjacency of the control graph (networkx DiGraph: nodes in insertion order, successors
    in insertion order), [p_nodes] the keys of nodes_data, [p_years] optimisation_years,
    [p_rate] return_rate_in_percentage, [p_nonant] problem_settings.non_anticipative. *)
Record problem := mkProblem {
  p_graph : list (node * list node);
  p_nodes : list node;
  p_years : list Z;
  p_rate : Q;
  p_pool : @items BV;
  p_nonant : bool;
  p_opf : list opf_call -> node -> list BV -> bool * Q }.

(* ------------------------------------------------------------------ *)
(** ** state-and-exception monad *)

Definition M (A : Type) := info -> res (A * info).
Definition ret {A} (a : A) : M A := fun s => Ok (a, s).
Definition bind {A B} (m : M A) (k : A -> M B) : M B :=
  fun s => match m s with Ok (a, s') => k a s' | Err e => Err e end.
Definition raise {A} (e : exn) : M A := fun _ => Err e.
Definition get : M info := fun s => Ok (s, s).
Definition modify (f : info -> info) : M unit := fun s => Ok (tt, f s).
Definition lift {A} (r : res A) : M A := fun s => match r with Ok a => Ok (a, s) | Err e => Err e end.

Notation "'let!' x ':=' m 'in' k" := (bind m (fun x => k))
  (at level 200, x pattern, m at level 100, k at level 200, right associativity).
Notation "m ;; k" := (bind m (fun _ => k)) (at level 199, right associativity).

(** A [for] loop without [break]. *)
Fixpoint for_each {A} (l : list A) (body : A -> M unit) : M unit :=
  match l with
  | [] => ret tt
  | a :: r => body a ;; for_each r body
  end.

(** A [for] loop that accumulates a value in a local variable. *)
Fixpoint for_acc {A B} (l : list A) (b : B) (body : B -> A -> M B) : M B :=
  match l with
  | [] => ret b
  | a :: r => let! b' := body b a in for_acc r b' body
  end.

(* ------------------------------------------------------------------ *)
(** ** incumbent bookkeeping *)

(** [candidate in path] for paths: RF:102, NA:25 through AbstractDataContainer.py:86-91. *)
Definition path_in (candidate path : @items node) : bool := compare_lists Nat.eqb path candidate.

(** NA:22-27. *)
Definition find_keys_of_offsprings (paths : @items (@items node)) (candidate : @items node) : list string :=
  map fst (filter (fun it => path_in candidate (snd it)) paths).

(** Popping one key from each of four tables, in the order of NA:32-35 and NA:38-41. *)
Definition pop_row (k : string) (p : plan)
  : res ((@items (@items BV) * @items node * Q * Q) * plan) :=
  do (i, ti) <- l_pop k (pl_int p);
  do (g, tg) <- l_pop k (pl_paths p);
  do (o, to) <- l_pop k (pl_op p);
  do (v, tv) <- l_pop k (pl_inv p);
  Ok ((i, g, o, v), mkPlan tg ti tv to).

(** NA:30-41, _delete_offsprings_from_incumbent. *)
Definition delete_offsprings (keys : list string) : M unit :=
  for_each keys (fun k =>
    let! s := get in
    let! (_, i') := lift (pop_row k (inc s)) in
    modify (set_inc i') ;;
    let! s := get in
    if allow s && negb (last s) &&
       match l_get k (pl_int (partial s)) with Some _ => true | None => false end
    then let! (_, p') := lift (pop_row k (partial s)) in modify (set_partial p')
    else ret tt).

(** [list.remove(x)]: first occurrence. *)
Fixpoint remove_first (k : string) (l : list string) : list string :=
  match l with
  | [] => []
  | x :: r => if String.eqb x k then r else x :: remove_first k r
  end.

Definition str_in (k : string) (l : list string) : bool := existsb (String.eqb k) l.

(** NA:53-64, _determine_keys_to_be_renumbered. *)
Definition keys_to_renumber (ks : list string) : list string :=
  let keep := filter (fun k => str_in k ks) (map str_nat (seq 0 (List.length ks))) in
  fold_left (fun rem k => if str_in k rem then remove_first k rem else rem) keep ks.

(** One iteration of NA:46-50: pop under [key], append under [str(num)], table by table. *)
Definition renumber_row (num : nat) (key : string) (p : plan) : res plan :=
  do (i, ti) <- l_pop key (pl_int p);
  do (g, tg) <- l_pop key (pl_paths p);
  do (o, to) <- l_pop key (pl_op p);
  do (v, tv) <- l_pop key (pl_inv p);
  Ok (mkPlan (l_append (str_nat num) g tg) (l_append (str_nat num) i ti)
             (l_append (str_nat num) v tv) (l_append (str_nat num) o to)).

(** NA:44-50, _renumber_keys_in_incumbent. *)
Fixpoint renumber_from (num : nat) (keys : list string) (p : plan) : res plan :=
  match keys with
  | [] => Ok p
  | k :: r => do p' <- renumber_row num k p; renumber_from (S num) r p'
  end.

Definition renumber (p : plan) : res plan :=
  renumber_from 0 (keys_to_renumber (map fst (pl_paths p))) p.

(** NA:14-19, _eliminate_offsprings_of_candidate_in_incumbent. *)
Definition eliminate_offsprings : M unit :=
  let! s := get in
  delete_offsprings (find_keys_of_offsprings (pl_paths (inc s)) (c_path (cnd s))) ;;
  let! s := get in
  let! i' := lift (renumber (inc s)) in
  modify (set_inc i') ;;
  let! s := get in
  if Nat.eqb (List.length (pl_int (inc s))) 0 && negb (last s)
  then modify (set_allow false) else ret tt.

(* ------------------------------------------------------------------ *)
(** ** interventions *)

(** RF:184: zip of the four columns of a group. *)
Fixpoint zip4 {A B C D} (a : list A) (b : list B) (c : list C) (d : list D) : list (A * B * C * D) :=
  match a, b, c, d with
  | x :: a', y :: b', z :: c', w :: d' => (x, y, z, w) :: zip4 a' b' c' d'
  | _, _, _, _ => []
  end.

Definition group_rows (g : bv_group) : list BV :=
  map (fun '(cost, pos, time, cap) => mkBV "" cost pos (g_type g) (g_name g) time cap)
      (zip4 (g_costs g) (g_positions g) (g_times g) (g_caps g)).

(** RF:176-188, _create_pool_interventions. *)
Fixpoint pool_rows (counter : nat) (l : list BV) (pool : @items BV) : nat * @items BV :=
  match l with
  | [] => (counter, pool)
  | b :: r => pool_rows (S counter) r (l_append (str_nat counter) b pool)
  end.

Definition create_pool (groups : list bv_group) : @items BV :=
  snd (fold_left (fun acc g => pool_rows (fst acc) (group_rows g) (snd acc)) groups (0%nat, [])).

(** NA:67-82, _add_new_interventions_from_combinations; both branches of the length test
    do the same. *)
Definition add_new_interventions (comb : list (string * BV)) : M unit :=
  modify (set_new no_new) ;;
  for_each comb (fun '(k, v) =>
    let! s := get in
    modify (set_new (mkNew (l_append k v (n_int (new s)))
                           (l_append k (bv_time v) (n_time (new s)))))).

(** NA:89-92: for each key in turn, read the first value under it, add the period, and
    write it back (to every item with that key). *)
Definition shift_times (period : Z) (t : @items Z) : @items Z :=
  fold_left (fun acc k =>
    match l_get k acc with Some v => l_set k (v + period)%Z acc | None => acc end) (map fst t) t.

(** NA:85-95, update_remaining_construction_time. *)
Definition update_times (period : Z) : M unit :=
  modify (fun s =>
    set_new (mkNew (n_int (new s)) (shift_times period (n_time (new s))))
      (set_cnd (mkCand (c_path (cnd s)) (c_int (cnd s))
                       (map (fun it => (fst it, shift_times period (snd it))) (c_time (cnd s)))
                       (c_op (cnd s))) s)).

(** NA:101-106: pop from the stage [step] every key whose time is still positive. *)
Definition drop_unbuilt (ints : @items (@items BV)) (st : string * @items Z) : res (@items (@items BV)) :=
  let late := map fst (filter (fun it => (0 <? snd it)%Z) (snd st)) in
  foldM (fun acc k =>
           match l_get (fst st) acc with
           | None => Err AttributeError
           | Some stage => do (_, stage') <- l_pop k stage; Ok (l_set (fst st) stage' acc)
           end) late ints.

(** NA:98-107, _get_already_build_interventions. *)
Definition already_built (c : cand) : res (@items (@items BV)) := foldM drop_unbuilt (c_time c) (c_int c).

(** NA:110-117.  [interventions[key]] is None for a missing key; the later
    _create_data_to_update_status_of_parameter (RF:107-120) then raises TypeError. *)
Definition constructed_of_stage (times : @items Z) (ints : @items BV) : res (list BV) :=
  mapM (fun it => match l_get (fst it) ints with Some b => Ok b | None => Err TypeError end)
       (filter (fun it => (snd it <=? 0)%Z) times).

Definition constructed_from_candidate (c : cand) : res (list BV) :=
  do l <- mapM (fun '(t, i) => constructed_of_stage (snd t) (snd i)) (combine (c_time c) (c_int c));
  Ok (List.concat l).

(** NA:120-126. *)
Definition constructed_from_new (n : newi) : list BV :=
  map (fun it => snd (snd it))
      (filter (fun it => (snd (fst it) <=? 0)%Z) (combine (n_time n) (n_int n))).

(** NA:129-132. *)
Definition ready_to_operate (s : info) : res (list BV) :=
  do l <- constructed_from_candidate (cnd s); Ok (l ++ constructed_from_new (new s)).

(** RF:283-292, _calculate_available_interventions. *)
Definition available (P : problem) (s : info) : @items BV :=
  difference_lists bv_eqb
    (fold_left (fun av prev => difference_lists bv_eqb av (snd prev)) (c_int (cnd s)) (p_pool P))
    (n_int (new s)).

(** NA:354-360, _get_available_interventions_for_current_year. *)
Definition available_for_current_year (P : problem) (s : info) : res (@items BV) :=
  foldM (fun acc it => if (0 <? bv_time (snd it))%Z
                       then do (_, acc') <- l_pop (fst it) acc; Ok acc' else Ok acc)
        (available P s) (available P s).

(** itertools.combinations(l, r) (RF:296): sub-sequences of length [r], in the order of
    the Python standard library (lexicographic in the positions). *)
Fixpoint combinations {A} (l : list A) (r : nat) : list (list A) :=
  match r with
  | O => [[]]
  | S r' => match l with
            | [] => []
            | x :: t => map (cons x) (combinations t r') ++ combinations t r
            end
  end.

(** The double loop header NA:238,241 and NA:317-318. *)
Definition all_combinations {A} (l : list A) : list (list A) :=
  flat_map (combinations l) (seq 1 (List.length l)).

(* ------------------------------------------------------------------ *)
(** ** costs *)

(** NA:149-154, _calculate_total_planning_cost. *)
Definition total_planning_cost (inv op : @items Q) : Q :=
  fold_left (fun cost p => cost + (snd (fst p) + snd (snd p)))%Q (combine inv op) 0%Q.

(** 1 / ((1 - rate/100) ** d) (NA:461-462, 474-475).  A zero base raises in Python for
    d < 0 (0.0 to a negative power) and for d > 0 (division by zero). *)
Definition discount (rate : Q) (d : Z) : res Q :=
  let base := (1 - rate / 100)%Q in
  if Qeq_bool base 0 && negb (d =? 0)%Z then Err ZeroDivisionError
  else Ok (1 / (Qpower base d))%Q.

(** NA:459-460, 472-473. *)
Definition years_difference (P : problem) (lev : nat) : res Z :=
  do a <- py_index (p_years P) (Z.of_nat lev);
  do b <- py_index (p_years P) 0;
  Ok (a - b)%Z.

(** NA:444-464, _calculate_investment_cost. *)
Fixpoint investment_cost_from (P : problem) (lev : nat) (l : @items (@items BV)) (total : Q) : res Q :=
  match l with
  | [] => Ok total
  | (_, ints) :: r =>
      let partial_cost := fold_left (fun c it => c + bv_cost (snd it))%Q ints 0%Q in
      match lev with
      | O => do f <- discount (p_rate P) 0; investment_cost_from P 1 r (total + f * partial_cost)%Q
      | S _ => do d <- years_difference P lev;
               do f <- discount (p_rate P) d;
               investment_cost_from P (S lev) r (total + f * partial_cost)%Q
      end
  end.

Definition investment_cost (P : problem) (l : @items (@items BV)) : res Q := investment_cost_from P 0 l 0%Q.

(** NA:466-477, _calculate_opteration_cost. *)
Fixpoint operation_cost_from (P : problem) (lev : nat) (l : @items Q) (total : Q) : res Q :=
  match l with
  | [] => Ok total
  | (_, c) :: r =>
      match lev with
      | O => operation_cost_from P 1 r c
      | S _ => do d <- years_difference P lev;
               do f <- discount (p_rate P) d;
               operation_cost_from P (S lev) r (total + f * c)%Q
      end
  end.

Definition operation_cost (P : problem) (l : @items Q) : res Q := operation_cost_from P 0 l 0%Q.

(* ------------------------------------------------------------------ *)
(** ** the search *)

(** RF:26-32, InvestmentPlanData.is_empty with its assertion. *)
Definition plan_is_empty (p : plan) : res bool :=
  let n := List.length (pl_int p) in
  if Nat.eqb n (List.length (pl_op p)) && Nat.eqb (List.length (pl_op p)) (List.length (pl_inv p))
     && Nat.eqb (List.length (pl_inv p)) (List.length (pl_paths p))
  then Ok (Nat.eqb n 0) else Err AssertionError.

Section Search.
Variable P : problem.

(** networkx_wrapper.py:19-20: DiGraph.neighbors raises NetworkXError for an unknown node. *)
Fixpoint adj_find (n : node) (g : list (node * list node)) : option (list node) :=
  match g with
  | [] => None
  | (m, l) :: r => if Nat.eqb m n then Some l else adj_find n r
  end.

Definition neighbours (n : node) : res (list node) :=
  match adj_find n (p_graph P) with Some l => Ok l | None => Err NetworkXError end.

(** NA:331-334 with RF:229-235 and NA:386-389: put the constructed interventions in
    service, run the OPF, count it (KeyError for an unknown node), report feasibility. *)
Definition check_feasibility : M bool :=
  let! s := get in
  let! active := lift (ready_to_operate s) in
  let r := p_opf P (log s) (cur s) active in
  modify (set_opf (log s ++ [mkCall (cur s) active (map snd (c_int (cnd s)) ++ [n_int (new s)])]) r) ;;
  if existsb (Nat.eqb (cur s)) (p_nodes P) then ret (fst r) else raise KeyError.

(** RF:267-281 with RF:320-321, _construction_of_solution. *)
Definition construction_of_solution : M unit :=
  modify (fun s =>
    let c := cnd s in
    let k := str_Z (level s) in
    set_cnd (mkCand (l_append (str_nat (List.length (c_path c))) (cur s) (c_path c))
                    (l_append k (n_int (new s)) (c_int c))
                    (l_append k (n_time (new s)) (c_time c))
                    (l_append k (snd (opf_res s) * 365)%Q (c_op c))) s).

(** RF:371-381, _return_to_previous_state. *)
Definition return_to_previous_state : M unit :=
  let! s := get in
  let c := cnd s in
  let k := str_Z (level s) in
  let! (_, i') := lift (l_pop k (c_int c)) in
  let! (_, t') := lift (l_pop k (c_time c)) in
  let! (_, o') := lift (l_pop k (c_op c)) in
  let! (_, p') := lift (l_pop (str_Z (Z.of_nat (List.length (c_path c)) - 1)) (c_path c)) in
  modify (set_cnd (mkCand p' i' t' o')) ;;
  if p_nonant P then ret tt else modify (fun s => set_level (level s - 1)%Z s).

(** RF:99-104, check_if_candidate_path_has_been_stored_in_incumbent; None is "not found". *)
Definition find_stored_path (paths : @items (@items node)) (candidate : @items node) : option string :=
  match filter (fun it => path_in candidate (snd it)) paths with
  | [] => None
  | it :: _ => Some (fst it)
  end.

(** NA:391-400, _append_candidate_in_incumbent_list. *)
Definition append_candidate (k : string) : M unit :=
  let! s := get in
  let! built := lift (already_built (cnd s)) in
  let! inv := lift (investment_cost P (c_int (cnd s))) in
  let! op := lift (operation_cost P (c_op (cnd s))) in
  let i := inc s in
  modify (set_inc (mkPlan (l_append k (c_path (cnd s)) (pl_paths i)) (l_append k built (pl_int i))
                          (l_append k inv (pl_inv i)) (l_append k op (pl_op i)))).

(** NA:411-418, _replace_solution_in_incumbent_list. *)
Definition replace_solution (k : string) : M unit :=
  let! s := get in
  let! built := lift (already_built (cnd s)) in
  let! inv := lift (investment_cost P built) in
  let! op := lift (operation_cost P (c_op (cnd s))) in
  let i := inc s in
  modify (set_inc (mkPlan (l_set k (c_path (cnd s)) (pl_paths i)) (l_set k built (pl_int i))
                          (l_set k inv (pl_inv i)) (l_set k op (pl_op i)))).

(** [info.x[key]] on a list container: None for a missing key, and None + cost raises
    TypeError. *)
Definition get_cost (k : string) (t : @items Q) : res Q :=
  match l_get k t with Some q => Ok q | None => Err TypeError end.

Definition Qgt_bool (a b : Q) : bool := negb (Qle_bool a b).

(** NA:402-409, _replace_incumbent_if_candidate_is_better. *)
Definition replace_if_better (k : string) : M unit :=
  let! s := get in
  let! built := lift (already_built (cnd s)) in
  let! inv := lift (investment_cost P built) in
  let! op := lift (operation_cost P (c_op (cnd s))) in
  let! i0 := lift (get_cost k (pl_inv (inc s))) in
  let! o0 := lift (get_cost k (pl_op (inc s))) in
  if Qgt_bool (i0 + o0) (inv + op) then replace_solution k else ret tt.

(** NA:436-442, _determine_remaining_nodes_to_be_explored. *)
Fixpoint remove_node (n : node) (l : list node) : list node :=
  match l with
  | [] => []
  | x :: r => if Nat.eqb x n then r else x :: remove_node n r
  end.

Definition remaining_nodes (paths : @items (@items node)) : list node :=
  fold_left (fun rem p => fold_left (fun rem it =>
      if existsb (Nat.eqb (snd it)) rem then remove_node (snd it) rem else rem) (snd p) rem)
    paths (p_nodes P).

(** NA:164-173, _replacement_of_investments_for_whole_tree, and NA:157-161. *)
Definition replacement_for_whole_tree : M unit :=
  let! s := get in
  let! e := lift (plan_is_empty (complete s)) in
  if e then modify (fun s => set_complete (inc s) s)
  else if Qgt_bool (total_planning_cost (pl_inv (complete s)) (pl_op (complete s)))
                   (total_planning_cost (pl_inv (inc s)) (pl_op (inc s)))
       then modify (fun s => set_complete (inc s) s) else ret tt.

(** NA:420-428, _optimality_check_with_non_empty_incumbent, with NA:430-434. *)
Definition optimality_check_nonempty : M unit :=
  let! s := get in
  match find_stored_path (pl_paths (inc s)) (c_path (cnd s)) with
  | None => append_candidate (str_nat (List.length (pl_paths (inc s))))
  | Some k => replace_if_better k
  end ;;
  let! s := get in
  if Nat.eqb (List.length (remaining_nodes (pl_paths (inc s)))) 0
  then modify (set_allow true) ;; replacement_for_whole_tree
  else ret tt.

(** RF:323-328, _optimality_check. *)
Definition optimality_check : M unit :=
  let! s := get in
  (if Nat.eqb (List.length (pl_paths (inc s))) 0 then append_candidate "0" else optimality_check_nonempty) ;;
  return_to_previous_state.

(** NA:314-329, _optimise_interventions_in_last_node. *)
Definition optimise_last_node : M bool :=
  let! s := get in
  let! av := lift (available_for_current_year P s) in
  for_acc (all_combinations av) false (fun found comb =>
    add_new_interventions comb ;;
    let! feasible := check_feasibility in
    (if feasible then construction_of_solution ;; optimality_check else ret tt) ;;
    modify (set_new no_new) ;;
    ret (if feasible then true else found)).

(** Equality of two list containers of paths (AbstractDataContainer.py:49-58). *)
Definition path_eqb : @items node -> @items node -> bool := list_eqb Nat.eqb.
Definition paths_eqb : @items (@items node) -> @items (@items node) -> bool := list_eqb path_eqb.

(** NA:265-285, _store_partial_tree. *)
Definition store_partial_tree : M unit :=
  let! s := get in
  let! e := lift (plan_is_empty (partial s)) in
  if e then modify (fun s => set_partial (inc s) s)
  else if Nat.ltb (List.length (pl_paths (partial s))) (List.length (pl_paths (inc s)))
  then modify (fun s => set_partial (inc s) s)
  else if paths_eqb (pl_paths (partial s)) (pl_paths (inc s))
  then if Qgt_bool (total_planning_cost (pl_inv (partial s)) (pl_op (partial s)))
                   (total_planning_cost (pl_inv (inc s)) (pl_op (inc s)))
       then modify (fun s => set_partial (inc s) s) else ret tt
  else ret tt.

Section Recursion.
Variable solve : M bool.

(** NA:302-312, _exploration_of_successors: the loop with its [break]. *)
Fixpoint explore_list (l : list node) : M bool :=
  match l with
  | [] => ret true
  | n :: r =>
      modify (fun s => set_cur n (set_level (level s + 1)%Z s)) ;;
      let! ok := solve in
      if ok then explore_list r else ret false
  end.

Definition exploration_of_successors : M bool :=
  let! s := get in
  let! l := lift (neighbours (cur s)) in
  let! ok := explore_list l in
  modify (set_cur (cur s)) ;;
  ret ok.

(** NA:296-300, _graph_exploration. *)
Definition graph_exploration : M bool :=
  let! ok := exploration_of_successors in
  let! s := get in
  (if negb ok || allow s then eliminate_offsprings else ret tt) ;;
  ret ok.

(** NA:287-294, _exploration_of_current_solution. *)
Definition exploration_of_current_solution : M bool :=
  let! feasible := check_feasibility in
  if feasible then
    construction_of_solution ;;
    let! ok := graph_exploration in
    return_to_previous_state ;;
    ret ok
  else ret false.

(** NA:221-226 and NA:248-253: store the partial tree, and at a branching node eliminate
    the offsprings and reset last_node_reached. *)
Definition close_exploration : M unit :=
  let! s := get in
  (if last s then store_partial_tree else ret tt) ;;
  let! s := get in
  let! l := lift (neighbours (cur s)) in
  if Nat.ltb 1 (List.length l) && last s
  then eliminate_offsprings ;; modify (set_last false) else ret tt.

(** NA:233-263, _interventions_handler. *)
Definition interventions_handler : M bool :=
  let! s := get in
  let! found := for_acc (all_combinations (available P s)) false (fun found comb =>
    add_new_interventions comb ;;
    let! ok := exploration_of_current_solution in
    close_exploration ;;
    modify (set_new no_new) ;;
    ret (if ok then true else found)) in
  let! s := get in
  let! e := lift (plan_is_empty (partial s)) in
  (if negb e && Nat.eqb (List.length (pl_paths (inc s))) 0
   then modify (fun s => set_inc (partial s) s) else ret tt) ;;
  ret found.

(** NA:194-231, solve; [solve] above is the recursive call. *)
Definition solve_body : M bool :=
  modify (set_new no_new) ;;
  let! s := get in
  let! adj := (if Nat.eqb (cur s) 0 then ret (-1)%Z
               else let! a := lift (py_index (p_years P) (level s)) in
                    let! b := lift (py_index (p_years P) (level s - 1)) in
                    update_times (- (a - b)) ;; ret (a - b)%Z) in
  let! l := lift (neighbours (cur s)) in
  match l with
  | [] =>
      modify (set_last true) ;;
      let! feasible := check_feasibility in
      (if feasible then construction_of_solution ;; optimality_check else ret tt) ;;
      let! found := optimise_last_node in
      modify (fun s => set_level (level s - 1)%Z s) ;;
      ret (if feasible then true else found)
  | _ :: _ =>
      let! _ := exploration_of_current_solution in
      close_exploration ;;
      let! found := interventions_handler in
      let! s := get in
      (if Nat.eqb (cur s) 0 then ret tt else update_times adj) ;;
      modify (fun s => set_level (level s - 1)%Z s) ;;
      ret found
  end.
End Recursion.

(** [solve] with a bound on the recursion depth. *)
Fixpoint solve (fuel : nat) : M bool :=
  match fuel with
  | O => raise OutOfFuel
  | S f => solve_body (solve f)
  end.

(** GeneralManager.py:18-32. *)
Definition initial_info : info :=
  mkInfo empty_plan (mkCand [] [] [] []) no_new empty_plan empty_plan 0 0 false false [] (false, 0%Q).
End Search.
