(** Model of the search for islands and isolated nodes, pyensys/engines/pyene_Analizer.py (AN),
    [PowerSystemIslandsIsolations]. *)
From Coq Require Import List ZArith QArith Bool Lia Arith.
From Verif Require Import Base Cases Parameters.
Import ListNotations.
Open Scope list_scope.

(** [list(dict.fromkeys(l))]: the first occurrence of every value. *)
Fixpoint fromkeys (l : list nat) : list nat :=
  match l with [] => [] | x :: r => x :: filter (fun y => negb (y =? x)) (fromkeys r) end.
Definition mem (a : nat) (l : list nat) : bool := existsb (Nat.eqb a) l.

(** AN:45-65 [edges_graph]: the first two bus positions of every line and transformer.  The test for the
    element of [__init__] by its reactance (AN:61) is that for an empty list. *)
Definition edges (N : net) : res (list (nat * nat)) :=
  match n_lines N, n_trafos N with
  | [], [] => Err AssertionError
  | L, T => mapM (fun s => do a <- at_ (s_pos s) 0; do b <- at_ (s_pos s) 1; Ok (a, b)) (L ++ T)
  end.
(** AN:67-80 [nodes_graph]. *)
Definition nodes (N : net) : res (list nat) :=
  match n_bus N with [] => Err AssertionError | B => Ok (map b_at B) end.
(** networkx: the nodes of the graph are those added and the ends of the edges. *)
Definition graph_nodes (V : list nat) (E : list (nat * nat)) : list nat :=
  fromkeys (V ++ flat_map (fun e => [fst e; snd e]) E).
(** networkx [isolates]: the nodes that are the end of no edge. *)
Definition isolated (E : list (nat * nat)) (n : nat) : bool := negb (existsb (fun e => (fst e =? n) || (snd e =? n)) E).
(** networkx [connected_components]: every edge joins the classes of its ends. *)
Definition join (P : list (list nat)) (e : nat * nat) : list (list nat) :=
  let touched := fun c => mem (fst e) c || mem (snd e) c in
  concat (filter touched P) :: filter (fun c => negb (touched c)) P.
Definition components (V : list nat) (E : list (nat * nat)) : list (list nat) :=
  fold_left join E (map (fun n => [n]) V).

(** AN:197-209 [__delete_disconnected_series_elements] for one kind: the network without them and the elements
    deleted. *)
Definition drop_off (k : skind) (N : net) : res (net * list series) :=
  match map s_at (filter (fun s => negb (s_on s)) (els k N)) with
  | [] => Ok (N, [])
  | pos => do off <- objects (els k N) pos; Ok (delete_series k pos N, off)
  end.

(** AN:175-195 [__delete_nodes_graph], the generators of one kind at the isolated buses. *)
Definition gens_at (k : gkind) (N : net) (B : list bus) : res (list gen) :=
  do l <- mapM (fun b => objects (gens k N) (gref k (b_pos b))) B; Ok (concat l).
(** AN:108-126 [find_isolates] with [__delete_nodes_graph] (AN:175-195): the network without the isolated buses,
    these buses, and the generators at them. *)
Definition find_isolates (N : net) : res (net * list bus * (list gen * list gen * list gen)) :=
  do V <- nodes N; do E <- edges N;
  match filter (isolated E) (graph_nodes V E) with
  | [] => Ok (N, [], ([], [], []))
  | l => let l := nsort l in
         do B <- objects (n_bus N) l;
         do C <- gens_at Conv N B; do R <- gens_at Res N B; do H <- gens_at Hydro N B;
         Ok (delete_buses l N, B, (C, R, H))
  end.

(** AN:128-140 [__add_nodes_to_island]: the bus stored at a node of the graph; an end of an edge that is no bus
    has none. *)
Definition bus_at (N : net) (n : nat) : res bus :=
  match find (fun b => b_at b =? n) (rev (n_bus N)) with Some b => Ok b | None => Err KeyError end.
(** AN:142-165, 211-215: the elements at the buses of an island, each once, then the positions in the island.
    The parameters of the network (AN:167-173) are carried along and left out. *)
Definition island (N : net) (c : list nat) : res net :=
  do B <- mapM (bus_at N) c;
  do C <- objects (n_conv N) (fromkeys (flat_map (fun b => r_conv (b_pos b)) B));
  do R <- objects (n_res N) (fromkeys (flat_map (fun b => r_res (b_pos b)) B));
  do H <- objects (n_hydro N) (fromkeys (flat_map (fun b => r_hydro (b_pos b)) B));
  do L <- objects (n_lines N) (fromkeys (flat_map (fun b => r_lines (b_pos b)) B));
  do T <- objects (n_trafos N) (fromkeys (flat_map (fun b => r_trafos (b_pos b)) B));
  Ok (update_all (mkNet B L T C R H)).
(** AN:82-107 [find_islands].  [order] is the order in which networkx gives the components and the nodes of each. *)
Definition find_islands (order : list (list nat) -> list (list nat)) (N : net) : res (list net) :=
  do V <- nodes N; do E <- edges N; mapM (island N) (order (components (graph_nodes V E) E)).

(** AN:21-28: what is stored. *)
Record analysis := mkAnalysis {
  a_islands : list net; a_isolated : list bus; a_gens : list gen * list gen * list gen; a_off : list series * list series }.
(** AN:34-43 [islands_isolations], called once.  It works on the network itself, which is put back at the end
    from a copy (AN:39, 43): the network is as before. *)
Definition islands_isolations (order : list (list nat) -> list (list nat)) (N : net) : res analysis :=
  do N1 <- drop_off Lines N; do N2 <- drop_off Trafos (fst N1);
  do N3 <- find_isolates (fst N2);
  let '(N3, B, G) := N3 in
  do J <- find_islands order N3;
  Ok (mkAnalysis J B G (snd N1, snd N2)).
