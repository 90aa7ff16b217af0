(** Model of what surrounds the search: the solution tables
    (NonAnticipativeRecursiveFunction.py:479-517, "NA:"), the anticipative planner
    (RecursiveFunction.py:190-405, "RF:") and the entry point (GeneralManager.py:10-34). *)
From Coq Require Import List String Bool ZArith QArith.
From Verif Require Import Base Container Planner.
Import ListNotations.
Open Scope nat_scope.
Open Scope list_scope.

(* ------------------------------------------------------------------ *)
(** ** solution tables *)

(** Rows of the three DataFrames of NA:482-484.  A cost is None when the key is missing
    (a list container returns None, NA:500 and 504). *)
Record line_row := mkLine { ln_scenario : nat; ln_year : Z; ln_position : pyval }.
Definition cost_row := (nat * option Q)%type.

Definition opt_Qeqb (a b : option Q) : bool :=
  match a, b with Some x, Some y => Qeq_bool x y | None, None => true | _, _ => false end.
Definition cost_row_eqb (a b : cost_row) : bool := Nat.eqb (fst a) (fst b) && opt_Qeqb (snd a) (snd b).

(** DataFrame.drop_duplicates (NA:511, 514): the first of equal rows stays. *)
Fixpoint drop_duplicates_from (seen l : list cost_row) : list cost_row :=
  match l with
  | [] => []
  | x :: r => if existsb (cost_row_eqb x) seen then drop_duplicates_from seen r
              else x :: drop_duplicates_from (x :: seen) r
  end.
Definition drop_duplicates := drop_duplicates_from [].

(** DataFrame.sort_values (NA:510, 512, 515), as a stable sort; pandas may permute rows
    with equal keys when sorting by one column. *)
Section Sort.
Context {A : Type} (leb : A -> A -> bool).
Fixpoint insert (x : A) (l : list A) : list A :=
  match l with
  | [] => [x]
  | y :: r => if leb x y then x :: l else y :: insert x r
  end.
Definition sort_values (l : list A) : list A := fold_right insert [] l.
End Sort.

Definition line_leb (a b : line_row) : bool :=
  Nat.ltb (ln_scenario a) (ln_scenario b) ||
  (Nat.eqb (ln_scenario a) (ln_scenario b) && (ln_year a <=? ln_year b)%Z).
Definition cost_leb (a b : cost_row) : bool := Nat.leb (fst a) (fst b).

Section Solution.
(** nodes_data[node][0].scenarios and the year of map_node_to_data_power_system[node]
    (NA:491-492, 497); None is a KeyError. *)
Variable scenarios : node -> option (list nat).
Variable year_of : node -> option Z.

Definition lookup {A} (o : option A) (e : exn) : res A := match o with Some a => Ok a | None => Err e end.

(** NA:491-496. *)
Definition line_rows (n : node) (b : BV) : res (list line_row) :=
  if String.eqb (bv_type b) "line" then
    do sc <- lookup (scenarios n) KeyError;
    mapM (fun s => do y <- lookup (year_of n) KeyError; Ok (mkLine s y (bv_pos b))) sc
  else Ok [].

(** NA:487-496: the loop over one path.  A missing solution number or stage gives None,
    and subscripting or iterating None raises TypeError. *)
Definition path_lines (p : plan) (k : string) (path : @items node) : res (list line_row) :=
  do l <- mapM (fun it : string * node =>
    do ints <- lookup (l_get k (pl_int p)) TypeError;
    do st <- lookup (l_get (fst it) ints) TypeError;
    do rows <- mapM (fun b : string * BV => line_rows (snd it) (snd b)) st;
    Ok (List.concat rows)) path;
  Ok (List.concat l).

(** NA:486-488: [last_node] is -1 for an empty path, which is no key of nodes_data. *)
Fixpoint last_node (path : @items node) : option node :=
  match path with
  | [] => None
  | [(_, n)] => Some n
  | _ :: r => last_node r
  end.

(** NA:497-505. *)
Definition path_costs (t : @items Q) (k : string) (path : @items node) : res (list cost_row) :=
  do n <- lookup (last_node path) KeyError;
  do sc <- lookup (scenarios n) KeyError;
  Ok (map (fun s => (s, l_get k t)) sc).

(** NA:479-517, get_solution. *)
Definition get_solution (p : plan) : res (list line_row * list cost_row * list cost_row) :=
  do ls <- mapM (fun it : string * @items node =>
             do l <- path_lines p (fst it) (snd it);
             do i <- path_costs (pl_inv p) (fst it) (snd it);
             do o <- path_costs (pl_op p) (fst it) (snd it);
             Ok (l, i, o)) (pl_paths p);
  let lines := flat_map (fun x => fst (fst x)) ls in
  let inv := flat_map (fun x => snd (fst x)) ls in
  let op := flat_map snd ls in
  Ok (sort_values line_leb lines, sort_values cost_leb (drop_duplicates inv),
      sort_values cost_leb (drop_duplicates op)).
End Solution.

(* ------------------------------------------------------------------ *)
(** ** the anticipative planner *)

(** The planner RecursiveFunction.  The network updates of RF:237-254 only happen when
    there are new interventions; the OPF oracle is given what they put in service. *)
Section Anticipative.
Variable P : problem.

(** RF:229-254, 317-318. *)
Definition base_check : M bool :=
  let! s := get in
  let active := if Nat.eqb (List.length (n_int (new s))) 0 then []
                else List.concat (map (fun st => map snd (snd st)) (c_int (cnd s))) ++ map snd (n_int (new s)) in
  let r := p_opf P (log s) (cur s) active in
  modify (set_opf (log s ++ [mkCall (cur s) active (map snd (c_int (cnd s)) ++ [n_int (new s)])]) r) ;;
  ret (fst r).

(** RF:383-397: whatever the loop computes, line 396 reads the undefined name [error].
    The loop itself may divide by zero first (return rate 100 %). *)
Definition base_investment_cost (l : @items (@items BV)) : res Q :=
  do _ <- foldM (fun (i : Z) (_ : string * @items BV) =>
            do _ <- discount (p_rate P) i; Ok (i + 1)%Z) l 0%Z;
  Err NameError.

(** RF:399-405. *)
Definition base_operation_cost (l : @items Q) : res Q :=
  do r <- foldM (fun (acc : Z * Q) (it : string * Q) =>
            do f <- discount (p_rate P) (fst acc); Ok ((fst acc + 1)%Z, (snd acc + f * snd it)%Q)) l (0%Z, 0%Q);
  Ok (snd r).

(** RF:358-369. *)
Definition base_append (k : string) : M unit :=
  let! s := get in
  let i := inc s in
  modify (set_inc (mkPlan (l_append k (c_path (cnd s)) (pl_paths i)) (pl_int i) (pl_inv i) (pl_op i))) ;;
  let! s := get in
  let i := inc s in
  modify (set_inc (mkPlan (pl_paths i) (l_append k (c_int (cnd s)) (pl_int i)) (pl_inv i) (pl_op i))) ;;
  let! inv := lift (base_investment_cost (c_int (cnd s))) in
  let! op := lift (base_operation_cost (c_op (cnd s))) in
  let! s := get in
  let i := inc s in
  modify (set_inc (mkPlan (pl_paths i) (pl_int i) (l_append k inv (pl_inv i)) (l_append k op (pl_op i)))).

(** RF:338-356. *)
Definition base_replace (k : string) : M unit :=
  let! s := get in
  let! inv := lift (base_investment_cost (c_int (cnd s))) in
  let! op := lift (base_operation_cost (c_op (cnd s))) in
  let! i0 := lift (get_cost k (pl_inv (inc s))) in
  let! o0 := lift (get_cost k (pl_op (inc s))) in
  if Qgt_bool (i0 + o0) (inv + op) then
    let i := inc s in
    modify (set_inc (mkPlan (l_set k (c_path (cnd s)) (pl_paths i)) (l_set k (c_int (cnd s)) (pl_int i))
                            (l_set k inv (pl_inv i)) (l_set k op (pl_op i))))
  else ret tt.

(** RF:323-336. *)
Definition base_optimality_check : M unit :=
  let! s := get in
  (if Nat.eqb (List.length (pl_paths (inc s))) 0 then base_append "0"
   else match find_stored_path (pl_paths (inc s)) (c_path (cnd s)) with
        | None => base_append (str_nat (List.length (pl_paths (inc s))))
        | Some k => base_replace k
        end) ;;
  return_to_previous_state P.

(** RF:214-219: the elements of a combination are (key, value) tuples, which
    AbstractDataContainer.extend rejects with TypeError (AbstractDataContainer.py:124-133). *)
Definition base_add_new (comb : list (string * BV)) : M unit :=
  modify (fun s => set_new (mkNew [] (n_time (new s))) s) ;;
  match comb with [] => ret tt | _ :: _ => raise TypeError end.

Section Recursion.
Variable solve : M unit.

(** RF:221-227. *)
Definition base_graph_exploration : M unit :=
  let! s := get in
  let! l := lift (neighbours P (cur s)) in
  for_each l (fun n => modify (fun s => set_cur n (set_level (level s + 1)%Z s)) ;; solve) ;;
  modify (set_cur (cur s)).

(** RF:202-212. *)
Definition base_interventions_handler : M unit :=
  let! s := get in
  base_graph_exploration ;;
  for_each (all_combinations (available P s)) (fun comb => base_add_new comb ;; base_graph_exploration).

(** RF:190-200. *)
Definition base_solve_body : M unit :=
  let! feasible := base_check in
  if feasible then
    construction_of_solution ;;
    let! s := get in
    let! l := lift (neighbours P (cur s)) in
    match l with
    | [] => base_optimality_check
    | _ :: _ => base_interventions_handler
    end
  else ret tt.
End Recursion.

Fixpoint base_solve (fuel : nat) : M unit :=
  match fuel with
  | O => raise OutOfFuel
  | S f => base_solve_body (base_solve f)
  end.
End Anticipative.

(** GeneralManager.py:10-34: the result is None (no tables) in the anticipative case,
    which never calls [solve]. *)
Definition main_access (P : problem) (scenarios : node -> option (list nat)) (year_of : node -> option Z)
  (fuel : nat) : res (option (list line_row * list cost_row * list cost_row)) :=
  if p_nonant P then
    match solve P fuel initial_info with
    | Err e => Err e
    | Ok (_, s) => do t <- get_solution scenarios year_of (complete s); Ok (Some t)
    end
  else Ok None.
