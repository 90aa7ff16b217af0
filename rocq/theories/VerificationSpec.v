(** Vocabulary for the properties of cluster verification. *)
From Coq Require Import List String Bool Arith ZArith QArith Permutation Sorted.
From Verif Require Import Base Graph GraphData Reader Cases CasesSpec Verification.
Import ListNotations.
Open Scope nat_scope.
Open Scope list_scope.

(** Branches that are lines, and branches that are transformers, given the taps. *)
Definition line_branches (taps : list Q) : list nat := filter (fun b => Qeq_bool (nth b taps 0%Q) 0) (seq 0 (List.length taps)).
Definition trafo_branches (taps : list Q) : list nat := filter (fun b => negb (Qeq_bool (nth b taps 0%Q) 0)) (seq 0 (List.length taps)).

(** The branch of line [k]; all branches are lines if there is no transformer. *)
Definition branch_of_line (taps : list Q) (n : vnet) (k : nat) : nat :=
  match v_trafo n with [] => k | _ => nth k (line_branches taps) 0 end.

(** A network and a cluster that belong together. *)
Definition fits (taps : list Q) (n : vnet) (c : list Q) : Prop :=
  (forall l, In l (v_lines n) -> vl_from l < List.length (v_kv n)) /\
  match v_trafo n with
  | [] => List.length c = List.length (v_lines n)
  | _ => List.length c = List.length taps /\ List.length (v_lines n) = List.length (line_branches taps) /\
         List.length (v_trafo n) = List.length (trafo_branches taps)
  end.

(** Sum over clusters of the entry of a branch. *)
Definition total_at (b : nat) (cs : list (list Q)) : Q := qsum (map (fun c => nth b c 0%Q) cs).

(** [n'] is [n] with all of the clusters [cs] added: the rating of a line grows by MVA / kV, that of a
    transformer by MVA, and nothing else changes. *)
Definition reinforced_by (taps : list Q) (cs : list (list Q)) (n n' : vnet) : Prop :=
  v_kv n' = v_kv n /\ v_loads n' = v_loads n /\ v_ext n' = v_ext n /\ v_gen n' = v_gen n /\ v_cost n' = v_cost n /\
  List.length (v_lines n') = List.length (v_lines n) /\ List.length (v_trafo n') = List.length (v_trafo n) /\
  (forall k l, nth_error (v_lines n) k = Some l -> exists l', nth_error (v_lines n') k = Some l' /\ vl_from l' = vl_from l /\
     (vl_max l' == vl_max l + total_at (branch_of_line taps n k) cs / nth (vl_from l) (v_kv n) 0)%Q) /\
  (forall k s, nth_error (v_trafo n) k = Some s -> exists s', nth_error (v_trafo n') k = Some s' /\
     (s' == s + total_at (nth k (trafo_branches taps) 0%nat) cs)%Q).

(** A sorting permutation, as numpy.argsort returns one. *)
Definition sorts (argsort : list Q -> list nat) : Prop := forall costs,
  Permutation (argsort costs) (seq 0 (List.length costs)) /\ StronglySorted (fun i j => nth i costs 0 <= nth j costs 0)%Q (argsort costs).

(** A full binary tree: year y has 2^y nodes. *)
Definition full_tree {A} (mult : list (list A)) : Prop := forall y l, nth_error mult y = Some l -> List.length l = 2 ^ y.

(** The same network except for greater or equal ratings. *)
Definition stronger (n n' : vnet) : Prop :=
  v_kv n' = v_kv n /\ v_loads n' = v_loads n /\ v_ext n' = v_ext n /\ v_gen n' = v_gen n /\ v_cost n' = v_cost n /\
  Forall2 (fun l l' => vl_from l' = vl_from l /\ vl_max l <= vl_max l')%Q (v_lines n) (v_lines n') /\
  Forall2 Qle (v_trafo n) (v_trafo n').

(** The outcome of the search at one node of the tree, whose network is [n0]: the clusters are tried
    in order, each on top of all earlier ones; the first feasible one is returned. *)
Definition searched (opf : vnet -> bool) (taps : list Q) (clusters : list (list Q)) (n0 : vnet) (found : option nat) : Prop :=
  exists nets, List.length nets = List.length clusters /\
    (forall i n', nth_error nets i = Some n' -> reinforced_by taps (firstn (S i) clusters) n0 n') /\
    match found with
    | Some i => exists n', nth_error nets i = Some n' /\ opf n' = true /\ forall j m, j < i -> nth_error nets j = Some m -> opf m = false
    | None => forall j m, nth_error nets j = Some m -> opf m = false
    end.

(** The costs attached to a unit. *)
Definition costs_for (et : string) (e : nat) (n : vnet) : list Q :=
  map vc_cost (filter (fun c => String.eqb (vc_et c) et && (vc_element c =? e)) (v_cost n)).

(** The spreadsheet of additional load covers the buses of all loads in the first [years] years. *)
Definition covered (base : vnet) (use_update : bool) (additions : nat -> res (list Q)) (years : nat) : Prop :=
  use_update = true -> years <= 4 /\ (forall d, In d (v_loads base) -> vd_bus d < List.length (v_kv base)) /\
    forall y, 0 < y < years -> exists a, additions y = Ok a /\ forall d, In d (v_loads base) -> vd_bus d < List.length a.

(** The load added at a bus. *)
Definition added (use_update : bool) (additions : nat -> res (list Q)) (year bus : nat) : Q :=
  if use_update && negb (year =? 0) then match additions year with Ok a => nth bus a 0%Q | Err _ => 0%Q end else 0%Q.

(** Same rows, other first coefficient. *)
Definition same_but_first (v : Q) (row row' : list Q) : Prop := exists x r, row = x :: r /\ row' = v :: r.

(** Cluster and cost of a tree position in the saved report: the cheapest cluster found there. *)
Definition reported_at (opf : vnet -> bool) (taps : list Q) (base : vnet) (use_update : bool) (additions : nat -> res (list Q))
    (sorted : list (list Q)) (year : nat) (m : Q) (nbus : nat) (entry : list Q * Q) : Prop :=
  exists n0 i c, node_net base use_update additions year (repeat m nbus) = Ok n0 /\ searched opf taps sorted n0 (Some i) /\
    nth_error sorted i = Some c /\ entry = (c, qsum c * 60000)%Q.

(** A setting under which a planning run is possible: one to four years, a full tree of multipliers
    and flexibilities, matching demand columns, no restriction of scenarios, no oversizing and
    candidate clusters made of catalogue sizes. *)
Definition plannable (s : setting) (w : nat) (clusters : list (list Q)) : Prop :=
  se_yrs s <> [] /\ List.length (se_yrs s) <= 4 /\ List.length (se_multiplier s) = List.length (se_yrs s) /\ List.length (se_flex s) = List.length (se_yrs s) /\
  full_tree (se_multiplier s) /\ full_tree (se_flex s) /\ se_pd s <> [] /\ List.length (se_qd s) = List.length (se_pd s) /\ se_scenarios s = [] /\ se_oversize s = 0 /\
  sorts (se_argsort s) /\ covered (se_base s) (se_update s) (se_additions s) (List.length (se_yrs s)) /\
  rectangular w clusters /\ Forall (listed (se_cat s)) clusters /\ List.length (se_cost s) = List.length (se_cat s) /\ w <= List.length (se_lengths s) /\
  Forall (fits (se_taps s) (se_base s)) clusters.

(** Multiplier of node k of year y. *)
Definition growth_at (s : setting) (y k : nat) : Q := (nth k (nth y (se_multiplier s) []) 0 * nth k (nth y (se_flex s) []) 0)%Q.
