(** Rivers and nodes, independently of the tables of the model. *)
From Coq Require Import List Bool Arith ZArith QArith.
From Verif Require Import Base GraphData Hydro.
Import ListNotations.
Open Scope nat_scope.
Open Scope list_scope.

(** The numbers of the rivers with a given value of [f], in order. *)
Definition rivers_at (f : river -> nat) (rs : list river) (node : nat) : list nat :=
  map fst (filter (fun br => f (snd br) =? node) (combine (seq 0 (List.length rs)) rs)).
(** The ends of all rivers are nodes. *)
Definition nodes_ok (nodes : nat) (rs : list river) : Prop :=
  Forall (fun r => 1 <= ri_from r <= nodes /\ 1 <= ri_to r <= nodes) rs.
(** No two rivers join the same two nodes, in whichever direction. *)
Definition no_parallel (rs : list river) : Prop :=
  forall i j a b, nth_error rs i = Some a -> nth_error rs j = Some b -> i <> j ->
    ~ (ri_from a = ri_from b /\ ri_to a = ri_to b) /\ ~ (ri_from a = ri_to b /\ ri_to a = ri_from b).

(** ** Dividing a river *)

(** The rivers [l] lead one into the next, from [a] to [b]. *)
Fixpoint leads (l : list river) (a b : nat) : Prop :=
  match l with
  | [] => False
  | [r] => ri_from r = a /\ ri_to r = b
  | r :: rest => ri_from r = a /\ leads rest (ri_to r) b
  end.
(** Same bed: slope, width, depths and roughness. *)
Definition same_bed (r p : river) : Prop :=
  ri_slope p = ri_slope r /\ ri_width p = ri_width r /\ ri_dmax p = ri_dmax r /\ ri_dmin p = ri_dmin r /\ ri_manning p = ri_manning r.
(** The nodes between the pieces. *)
Definition inner (ps : list river) : list nat := map ri_to (removelast ps).
(** [ps] are [k] pieces of the river [r]: they lead from its source to its mouth, are equally long, as long as the
    river together, and the first takes its share of the water. *)
Definition pieces_of (r : river) (k : nat) (ps : list river) : Prop :=
  List.length ps = k /\ leads ps (ri_from r) (ri_to r) /\ Forall (same_bed r) ps /\
  (forall p q, In p ps -> In q ps -> ri_length p == ri_length q)%Q /\ (qsum (map ri_length ps) == ri_length r)%Q /\
  (exists p rest, ps = p :: rest /\ ri_share p = ri_share r /\ Forall (fun q => ri_share q = 1%Q) rest).
(** The number of parts of every river as set: none given is one each, one given holds for all. *)
Definition parts_set (given : list nat) (n : nat) (parts : list nat) : Prop :=
  given = [] /\ parts = repeat 1 n \/ (exists k, given = [k] /\ parts = repeat k n) \/ given = parts /\ List.length given = n /\ 1 < n.

(** ** Water at a node *)

(** The sum of [f] over the positions at which [l] names the node. *)
Definition at_node (l : list nat) (node : nat) (f : nat -> Q) : Q :=
  qsum (map (fun ix => if snd ix =? node then f (fst ix) else 0%Q) (combine (seq 0 (List.length l)) l)).
(** The sum of [f] below [n]. *)
Definition below (n : nat) (f : nat -> Q) : Q := qsum (map f (seq 0 n)).
(** The units with storage. *)
Definition with_storage (us : list unit_) (st : list Q) : list (unit_ * Q) := filter (fun u => negb (Qeq_bool (snd u) 0)) (combine us st).
(** The nodes of [extra] that are not 0 and not in [nodes] follow, each once. *)
Definition extends (nodes extra all : list nat) : Prop :=
  exists new, all = nodes ++ new /\ NoDup all /\ forall x, In x new <-> In x extra /\ x <> 0 /\ ~ In x nodes.

(** ** Settings *)

(** The largest node number of the rivers. *)
Definition max_end (rs : list river) : nat := fold_right (fun r m => Nat.max (Nat.max (ri_from r) (ri_to r)) m) 0 rs.
(** The nodes after dividing the rivers. *)
Definition all_nodes_count (E : settings) (parts : list nat) : nat := max_end (e_rivers E) + list_sum parts - List.length (e_rivers E).
(** Settings without mistakes: rivers between nodes that are numbered from 1, at least one part for each, different
    nodes for inputs, outputs and storage, and units with an efficiency and a head. *)
Definition well_set (E : settings) : Prop :=
  exists parts, parts_set (e_parts E) (List.length (e_rivers E)) parts /\ Forall (fun k => 1 <= k) parts /\
  let node x := 1 <= x <= all_nodes_count E parts in
  e_rivers E <> [] /\ Forall (fun r => 1 <= ri_from r /\ 1 <= ri_to r) (e_rivers E) /\ List.length (e_ramps E) <> 1 /\
  NoDup (e_in E) /\ Forall node (e_in E) /\ NoDup (e_out E) /\ Forall node (e_out E) /\
  Forall (fun x => x <= all_nodes_count E parts) (e_pump_from E ++ e_pump_to E) /\
  List.length (e_storage E) <= List.length (e_units E) /\ NoDup (map (fun uq => u_node (fst uq)) (with_storage (e_units E) (e_storage E))) /\
  Forall (fun uq => node (u_node (fst uq)) /\ ~ (u_eff (fst uq) == 0)%Q /\ ~ (u_head (fst uq) == 0)%Q) (with_storage (e_units E) (e_storage E)) /\
  1 <= e_time E.

(** ** Flows of a scenario *)

Definition water_in (Y : hydro) (s : var -> Q) (h t i : nat) : Q := s (HIn (h * List.length (y_in Y) + i) t).
Definition water_out (Y : hydro) (s : var -> Q) (h t i : nat) : Q := s (HOut (h * List.length (y_out Y) + i) t).
Definition up (Y : hydro) (s : var -> Q) (h t r : nat) : Q := s (HUp (h * y_rivers Y + r) t).
Definition down (Y : hydro) (s : var -> Q) (h t r : nat) : Q := s (HDown (h * y_rivers Y + r) t).
Definition content (Y : hydro) (s : var -> Q) (h t r : nat) : Q := s (HSoC (h * y_rivers Y + r) t).
Definition stored (Y : hydro) (s : var -> Q) (h t k : nat) : Q := s (HStor (h * s_no (y_stor Y) + k) t).
(** The time before, the last one before the first. *)
Definition before (time t : nat) : nat := if t =? 0 then time - 1 else t - 1.
(** The nodes of the units with storage. *)
Definition storage_nodes (E : settings) : list nat := map (fun uq => u_node (fst uq)) (with_storage (e_units E) (e_storage E)).

(** Settings from which a model is made: rivers between different nodes, no two between the same nodes, each with a
    share, no unused node number, links between scenarios that exist and a second node for every pump. *)
Definition complete (E : settings) : Prop :=
  well_set E /\ no_parallel (e_rivers E) /\ Forall (fun r => ri_from r <> ri_to r /\ ~ (ri_share r == 0)%Q) (e_rivers E) /\
  (forall x, 1 <= x <= max_end (e_rivers E) -> exists r, In r (e_rivers E) /\ (ri_from r = x \/ ri_to r = x)) /\
  e_links_from E <> [] /\ List.length (e_links_from E) <= List.length (e_links_to E) /\
  Forall (fun l => fst l < e_scen E /\ snd l <= 1) (e_links_from E) /\ Forall (fun l => fst l < e_scen E /\ snd l <= 1) (firstn (List.length (e_links_from E)) (e_links_to E)) /\
  List.length (e_pump_from E) <= List.length (e_pump_to E).
