(** Vocabulary for the planner properties: paths of the control tree, well-formed problems,
    discounted sums, evidence of OPF runs, plans as rows. *)
From Coq Require Import List String Bool ZArith QArith.
From Verif Require Import Base Container ContainerSpec Planner.
Import ListNotations.
Open Scope nat_scope.
Open Scope list_scope.

Section Spec.
Variable P : problem.

(** Edges and leaves of the control tree. *)
Definition successors (a : node) (l : list node) : Prop := adj_find a (p_graph P) = Some l.
Definition is_edge (a b : node) : Prop := exists l, successors a l /\ In b l.
Definition is_leaf (a : node) : Prop := successors a [].

(** Consecutive nodes are joined by edges. *)
Fixpoint linked (ns : list node) : Prop :=
  match ns with
  | a :: ((b :: _) as r) => is_edge a b /\ linked r
  | _ => True
  end.

(** A path from [root] along edges; it is complete when it ends in a leaf. *)
Definition path_from (root : node) (ns : list node) : Prop := hd_error ns = Some root /\ linked ns.
Definition ends_in_leaf (ns : list node) : Prop := exists a, hd_error (rev ns) = Some a /\ is_leaf a.

(** Every path from [n] has at most [f] nodes, all of them known nodes of the control
    graph, and node 0 is nobody's successor. *)
Fixpoint deep (f : nat) (n : node) : Prop :=
  match f with
  | O => False
  | S f' => In n (p_nodes P) /\ exists l, successors n l /\ forall m, In m l -> m <> 0 /\ deep f' m
  end.

(** A well-formed problem searched from node [root]: finite depth [f], a planning year per
    stage, a return rate other than 100 %, distinct pool keys. *)
Definition well_formed (f : nat) (root : node) : Prop :=
  deep f root /\ f <= List.length (p_years P) /\ ~ (1 - p_rate P / 100 == 0)%Q /\
  NoDup (map fst (p_pool P)) /\ p_nonant P = true.

Definition year (i : nat) : Z := nth i (p_years P) 0%Z.
Definition years_sorted : Prop :=
  forall i j, i <= j -> j < List.length (p_years P) -> (year i <= year j)%Z.

(** No intervention needs construction time. *)
Definition immediate : Prop :=
  years_sorted /\ forall it, In it (p_pool P) -> (bv_time (snd it) <= 0)%Z.

(** Present value factor of stage [i], and the discounted sum of per-stage amounts. *)
Definition factor (i : nat) : Q := (1 / Qpower (1 - p_rate P / 100) (year i - year 0))%Q.

Fixpoint discounted_from (i : nat) (l : list Q) : Q :=
  match l with
  | [] => 0
  | q :: r => (factor i * q + discounted_from (S i) r)%Q
  end.
Definition discounted := discounted_from 0.

Definition sumQ (l : list Q) : Q := fold_right Qplus 0%Q l.
Definition stage_cost (l : @items BV) : Q := sumQ (map (fun it => bv_cost (snd it)) l).

(** The history contains a feasible OPF run at [n] with [act] in service after selecting
    [sel], reporting cost [c] per day. *)
Definition ran_feasible (h : list opf_call) (n : node) (act : list BV) (sel : list (@items BV)) (c : Q) : Prop :=
  exists pre post, h = pre ++ mkCall n act sel :: post /\ p_opf P pre n act = (true, c).

End Spec.

(** The stored plans of a table of plans, row by row. *)
Record row := mkRow { r_path : @items node; r_int : @items (@items BV); r_inv : Q; r_op : Q }.

Definition plan_of (R : @items row) : plan :=
  mkPlan (map (fun x => (fst x, r_path (snd x))) R) (map (fun x => (fst x, r_int (snd x))) R)
         (map (fun x => (fst x, r_inv (snd x))) R) (map (fun x => (fst x, r_op (snd x))) R).

(** Total planning cost of a table. *)
Definition total_cost (p : plan) : Q := total_planning_cost (pl_inv p) (pl_op p).
