(** Model of pyensys/wrappers/networkx_wrapper.py (NW) and of the control-graph creation in
    pyensys/Optimisers/ControlGraphsCreator.py (CG). *)
From Coq Require Import List String Bool Arith ZArith QArith.
From Verif Require Import Base.
Import ListNotations.
Open Scope nat_scope.
Open Scope list_scope.

(* ------------------------------------------------------------------ *)
(** ** directed graphs *)

(** NW:3-14, networkx DiGraph: nodes and edges in insertion order.  The successors of a node
    are listed in the order in which its edges were added, likewise its predecessors. *)
Record digraph := mkG { g_nodes : list nat; g_edges : list (nat * nat) }.

Definition empty_graph := mkG [] [].

Definition mem (n : nat) (l : list nat) : bool := existsb (Nat.eqb n) l.
Definition edge_eqb (a b : nat * nat) : bool := Nat.eqb (fst a) (fst b) && Nat.eqb (snd a) (snd b).

(** Sets of nodes: insertion without repetition. *)
Definition set_add (n : nat) (l : list nat) : list nat := if mem n l then l else l ++ [n].
Definition set_update (l add : list nat) : list nat := fold_left (fun acc n => set_add n acc) add l.

(** NW:10-14, DiGraph.add_edge/add_node: missing ends are added, a known edge is kept. *)
Definition add_node (n : nat) (g : digraph) : digraph := mkG (set_add n (g_nodes g)) (g_edges g).
Definition add_edge (a b : nat) (g : digraph) : digraph :=
  let g' := add_node b (add_node a g) in
  mkG (g_nodes g') (if existsb (edge_eqb (a, b)) (g_edges g') then g_edges g' else g_edges g' ++ [(a, b)]).

Definition succ (g : digraph) (n : nat) : list nat := map snd (filter (fun e => Nat.eqb (fst e) n) (g_edges g)).
Definition pred (g : digraph) (n : nat) : list nat := map fst (filter (fun e => Nat.eqb (snd e) n) (g_edges g)).

(** NW:19-23: NetworkXError for an unknown node. *)
Definition neighbours (g : digraph) (n : nat) : res (list nat) :=
  if mem n (g_nodes g) then Ok (succ g n) else Err NetworkXError.
Definition predecessors (g : digraph) (n : nat) : res (list nat) :=
  if mem n (g_nodes g) then Ok (pred g n) else Err NetworkXError.

(** NW:25-26: IndexError on a graph without nodes. *)
Definition get_first_node (g : digraph) : res nat :=
  match g_nodes g with n :: _ => Ok n | [] => Err IndexError end.

(** NW:32-37, _recursive_search_for_greatest_numbering. *)
Fixpoint search_greatest (fuel : nat) (g : digraph) (n greatest : nat) : res nat :=
  match fuel with
  | O => Err OutOfFuel
  | S f => do l <- neighbours g n;
           foldM (fun m x => search_greatest f g x (if m <? x then x else m)) l greatest
  end.

(** NW:28-30. *)
Definition find_greatest (fuel : nat) (g : digraph) : res nat :=
  do n <- get_first_node g; search_greatest fuel g n n.

(** networkx.is_weakly_connected: everything is reachable from the first node when edge
    directions are ignored.  [grow] adds the neighbours of a set of nodes. *)
Definition touching (g : digraph) (seen : list nat) : list nat :=
  flat_map (fun e => if mem (fst e) seen then [snd e] else if mem (snd e) seen then [fst e] else []) (g_edges g).
Fixpoint grow (n : nat) (g : digraph) (seen : list nat) : list nat :=
  match n with O => seen | S m => grow m g (set_update seen (touching g seen)) end.
Definition weakly_connected (g : digraph) : bool :=
  match g_nodes g with
  | [] => true
  | n :: _ => forallb (fun x => mem x (grow (List.length (g_nodes g)) g [n])) (g_nodes g)
  end.

(** NW:42-43, networkx.is_tree on a DiGraph: raises on the empty graph; otherwise one edge
    less than nodes and weakly connected. *)
Definition is_tree (g : digraph) : res bool :=
  match g_nodes g with
  | [] => Err NetworkXPointlessConcept
  | _ => Ok (Nat.eqb (List.length (g_nodes g)) (S (List.length (g_edges g))) && weakly_connected g)
  end.

(* ------------------------------------------------------------------ *)
(** ** nodes and edges of the scenario graph *)

(** CG:14-20, ClusterData. *)
Record cluster := mkCluster {
  cl_scenarios : list nat; cl_centroid : Q; cl_level : Z; cl_type : string; cl_var : string }.

(** A profile (OptimisationProfileData): element type, variable name and table, one row per
    stage and one column per scenario.  Row labels are assumed distinct ([.loc] of a
    repeated label would return a table) and no value is NaN. *)
Record profile := mkProfile { pr_type : string; pr_var : string; pr_rows : list (list Q) }.

(** dict.get with a float key. *)
Fixpoint find_value (v : Q) (d : list (Q * nat)) : option nat :=
  match d with
  | [] => None
  | (w, i) :: r => if Qeq_bool w v then Some i else find_value v r
  end.

Fixpoint update_nth {A} (i : nat) (f : A -> A) (l : list A) : list A :=
  match l, i with
  | [], _ => []
  | x :: r, O => f x :: r
  | x :: r, S j => x :: update_nth j f r
  end.

(** CG:39-44, the body of the loop over the columns of one row. *)
Definition place (st : list (Q * nat) * list cluster) (cell : nat * Q) : list (Q * nat) * list cluster :=
  let (d, nodes) := st in
  let (column, value) := cell in
  match find_value value d with
  | Some i => (d, update_nth i (fun c => mkCluster (cl_scenarios c ++ [column]) (cl_centroid c) (cl_level c) (cl_type c) (cl_var c)) nodes)
  | None => (d ++ [(value, List.length nodes)], nodes ++ [mkCluster [column] value (-1) "" ""])
  end.

Definition row_nodes (row : list Q) : list cluster :=
  snd (fold_left place (combine (seq 0 (List.length row)) row) ([], [])).

(** CG:35-45, _determine_nodes_in_profile. *)
Definition nodes_in_profile (p : profile) : list (list cluster) := map row_nodes (pr_rows p).

(** CG:47-57, _add_final_information_to_nodes: stage and number of each node. *)
Definition final_node (p : profile) (level : Z) (c : cluster) : cluster :=
  mkCluster (cl_scenarios c) (cl_centroid c) level (pr_type p) (pr_var p).

Fixpoint number_row (p : profile) (level : Z) (counter : Z) (l : list cluster) (acc : list (nat * cluster))
  : Z * list (nat * cluster) :=
  match l with
  | [] => (counter, acc)
  | c :: r => let k := (counter + 1)%Z in number_row p level k r (acc ++ [(Z.to_nat k, final_node p level c)])
  end.

Fixpoint number_rows (p : profile) (level : Z) (counter : Z) (rows : list (list cluster)) (acc : list (nat * cluster))
  : list (nat * cluster) :=
  match rows with
  | [] => acc
  | r :: rs => let l := (level + 1)%Z in
               let (c, acc') := number_row p l counter r acc in number_rows p l c rs acc'
  end.

(** CG:29-33, determine_graph_nodes, on a new creator. *)
Definition graph_nodes (p : profile) : list (nat * cluster) := number_rows p (-1) (-1) (nodes_in_profile p) [].

(** Dictionaries with integer keys, in insertion order. *)
Fixpoint nget {V} (k : nat) (d : list (nat * V)) : option V :=
  match d with
  | [] => None
  | (j, v) :: r => if Nat.eqb j k then Some v else nget k r
  end.
Fixpoint nset {V} (k : nat) (v : V) (d : list (nat * V)) : list (nat * V) :=
  match d with
  | [] => [(k, v)]
  | (j, w) :: r => if Nat.eqb j k then (j, v) :: r else (j, w) :: nset k v r
  end.
Definition nfetch {V} (k : nat) (d : list (nat * V)) : res V :=
  match nget k d with Some v => Ok v | None => Err KeyError end.

(** CG:83-89, _get_nodes_all_levels; levels are -1 or natural numbers, the dictionary is
    keyed by level. *)
Fixpoint zget (k : Z) (d : list (Z * list nat)) : option (list nat) :=
  match d with
  | [] => None
  | (j, v) :: r => if Z.eqb j k then Some v else zget k r
  end.
Fixpoint zpush (k : Z) (x : nat) (d : list (Z * list nat)) : list (Z * list nat) :=
  match d with
  | [] => [(k, [x])]
  | (j, v) :: r => if Z.eqb j k then (j, v ++ [x]) :: r else (j, v) :: zpush k x r
  end.
Definition nodes_all_levels (nodes : list (nat * cluster)) : list (Z * list nat) :=
  fold_left (fun d it => zpush (cl_level (snd it)) (fst it) d) nodes [].

(** CG:78-79. *)
Definition share_scenario (a b : cluster) : bool := existsb (fun s => mem s (cl_scenarios a)) (cl_scenarios b).

Definition zfetch (k : Z) (d : list (Z * list nat)) : res (list nat) :=
  match zget k d with Some v => Ok v | None => Err KeyError end.

(** CG:72-81, determine_graph_edges. *)
Definition graph_edges (nodes : list (nat * cluster)) : res (list (nat * nat)) :=
  let levels := nodes_all_levels nodes in
  foldM (fun edges level =>
    do current <- zfetch (Z.of_nat level) levels;
    foldM (fun edges a =>
      do next <- zfetch (Z.of_nat (S level)) levels;
      foldM (fun edges b =>
        do ca <- nfetch a nodes;
        do cb <- nfetch b nodes;
        Ok (if share_scenario ca cb then edges ++ [(a, b)] else edges)) next edges) current edges)
    (seq 0 (List.length levels - 1)) [].

(** CG:176-187, create_graph. *)
Definition create_graph (p : profile) : res (digraph * list (nat * cluster)) :=
  do edges <- graph_edges (graph_nodes p);
  Ok (fold_left (fun g e => add_edge (fst e) (snd e) g) edges empty_graph, graph_nodes p).

(* ------------------------------------------------------------------ *)
(** ** conversion to a tree *)

(** Python sets are enumerated in an unspecified order: [ord i l] is the order of the [i]-th
    enumeration of a set, here of the set listed in [l].  [nodes_data] keeps its values
    abstract. *)
Section Converter.
Context {V : Type}.
Variable ord : nat -> list nat -> list nat.
Variable graph : digraph.

(** CG:160-167, _recursive_search_of_last_nodes_in_graph. *)
Fixpoint search_last (fuel : nat) (n : nat) (last : list nat) : res (list nat) :=
  match fuel with
  | O => Err OutOfFuel
  | S f => do l <- neighbours graph n;
           do acc <- foldM (fun acc x => search_last f x acc) l last;
           Ok (match l with [] => set_add n acc | _ => acc end)
  end.

(** CG:156-158. *)
Definition find_last (fuel : nat) : res (list nat) := do n <- get_first_node graph; search_last fuel n [].

Definition tstate := (digraph * list (nat * V) * nat)%type.

(** CG:142-151, _recursive_duplicates_for_sucessors_of_common_node.  The loop runs over a live
    view of the successors, which the additions never touch (they leave from new nodes). *)
Fixpoint duplicate_below (fuel : nat) (n : nat) (st : tstate) : res tstate :=
  match fuel with
  | O => Err OutOfFuel
  | S f =>
    let current := snd st in
    do l <- neighbours (fst (fst st)) n;
    foldM (fun (st : tstate) s =>
      let '(tree, data, greatest) := st in
      let k := S greatest in
      let tree := add_edge current k tree in
      do v <- nfetch s data;
      duplicate_below f s (tree, nset k v data, k)) l st
  end.

(** CG:132-140, _create_duplicates_from_common_node; [preds] is the enumeration of the set of
    predecessors, the popped one first. *)
Definition duplicate_common (fuel : nat) (preds : list nat) (n : nat) (st : tstate) : res tstate :=
  match preds with
  | [] => Err KeyError
  | p :: rest =>
    let '(tree, data, greatest) := st in
    foldM (fun (st : tstate) q =>
      let '(tree, data, greatest) := st in
      let k := S greatest in
      let tree := add_edge q k tree in
      do v <- nfetch n data;
      duplicate_below fuel n (tree, nset k v data, k)) rest (add_edge p n tree, data, greatest)
  end.

(** CG:117-123, one layer; [i] counts set enumerations.  The loop stops early when no
    predecessor has been met. *)
Fixpoint layer (fuel : nat) (nodes next : list nat) (i : nat) (st : tstate) : res (list nat * nat * tstate) :=
  match nodes with
  | [] => Ok (next, i, st)
  | n :: r =>
    do l <- predecessors graph n;
    let preds := set_update [] l in
    let next := set_update next preds in
    match next with
    | [] => Ok (next, i, st)
    | _ => do st' <- duplicate_common fuel (ord i preds) n st; layer fuel r next (S i) st'
    end
  end.

(** CG:115-127, the loop over the layers. *)
Fixpoint layers (rounds fuel : nat) (current : list nat) (i : nat) (st : tstate) : res tstate :=
  match rounds with
  | O => Err OutOfFuel
  | S r =>
    do x <- layer fuel (ord i current) [] (S i) st;
    let '(next, j, st') := x in
    match next with [] => Ok st' | _ => layers r fuel next j st' end
  end.

(** CG:111-130, convert. *)
Definition convert (fuel : nat) (data : list (nat * V)) : res (digraph * list (nat * V)) :=
  do t <- is_tree graph;
  if t then Ok (graph, data)
  else
    do greatest <- find_greatest fuel graph;
    do last <- find_last fuel;
    do x <- layers fuel fuel last 0 (empty_graph, data, greatest);
    Ok (fst x).
End Converter.
