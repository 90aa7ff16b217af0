(** What the energy tree and the power system have to meet together, written with the values of the plan and the storage. *)
From Coq Require Import List Bool Arith ZArith QArith.
From Verif Require Import Base GraphData EnergyTree Joint JointTree GlpkNetwork GlpkNetworkSpec.
Import ListNotations.
Open Scope nat_scope.
Open Scope list_scope.

(** The output of thermal and hydro units changes from a time to the next by the ramp at most. *)
Definition ramp_rules (m : nm) (p : plan) : Prop :=
  forall k i j n u, k = Thermal \/ k = Hydro -> i < nm_days m -> j + 1 < nm_times m -> nth_error (nm_units m k) n = Some u ->
    (- un_ramp u <= p_gen p k i (j + 1) n - p_gen p k i j n <= un_ramp u)%Q.
Definition ramps_ok (m : nm) : Prop :=
  0 < nm_days m -> 1 < nm_times m -> forall k u, k = Thermal \/ k = Hydro -> In u (nm_units m k) -> (0 < un_ramp u)%Q.
(** The energy of a hydro unit in a day. *)
Definition day_energy (m : nm) (p : plan) (v j : nat) : Q := qsum (map (fun k => nm_hours m k * nm_base m * p_gen p Hydro j k v)%Q (seq 0 (nm_times m))).
(** The data of a tree with other inputs and outputs, tables of nodes and vectors. *)
Definition with_water (e : energy) (I O : list (list Q)) : energy := mkEnergy (en_sizes e) (en_tree e) (en_links e) I O (en_weight e).
Definition entry (t : list (list Q)) (v n : nat) : Q := nth v (nth n t []) 0%Q.
(** What leaves the nodes of a vector: from the first node of the last level on, what the unit with the number of the vector generates in the days. *)
Definition drawn (m : nm) (p : plan) (first : nat) (O : list (list Q)) (v n : nat) : Q := if first <=? n then day_energy m p v (n - first) else entry O v n.

(** The rules of the plan and of the storage [st] of every vector. *)
Definition joint_rules (e : energy) (I O : list (list Q)) (m : nm) (first : nat) (p : plan) (st : nat -> soc) : Prop :=
  opf_rules m p /\ ramp_rules m p /\
  forall v, v < sz_vectors (en_sizes e) -> (forall j, j < nm_days m -> (0 <= day_energy m p v j)%Q) /\
    EnergyTree.feasible (fun n => nth n (en_weight e) 0%Q) (entry I v) (drawn m p first O v) (en_links e) (st v).

(** A table of nodes and vectors. *)
Definition filled (t : list (list Q)) (V N : nat) : Prop := List.length t = N /\ Forall (fun r => List.length r = V) t.
(** A tree without uncertainty and a network for the optimal power flow with a day for each node of the last level and a hydro unit for each vector; nothing enters or leaves before the first node. *)
Record coupled (V : nat) (levels : list level) (e : energy) (first : nat) (I O : list (list Q)) (m : nm) : Prop := {
  cp_some : levels <> []; cp_named : Forall level_named levels; cp_certain : Forall (fun l => lv_unc l = false) levels;
  cp_tree : energy_of V levels = Ok e; cp_last : last_level e = Ok (first, nm_days m);
  cp_in : filled I V (lk_bal (en_links e) + 1); cp_out : filled O V (lk_bal (en_links e) + 1); cp_zero : forall v, v < V -> entry I v 0 = 0%Q /\ entry O v 0 = 0%Q;
  cp_units : 0 < V <= List.length (nm_units m Hydro);
  cp_net : usable m; cp_flag : nm_flag m = true; cp_times : 0 < nm_times m }.
