(** Model of the rest of pyensys/Optimisers/ControlGraphsCreator.py (CG:221-318): the control
    graph and the load data attached to its nodes. *)
From Coq Require Import List String Bool Arith ZArith QArith.
From Verif Require Import Base Container Graph.
Import ListNotations.
Open Scope string_scope.
Open Scope nat_scope.
Open Scope list_scope.

(** A row of an optimisation_profiles_dataframes table (JSONReader.py:497-507): scenario, year
    and bus number, and the values of the other columns, in the order of [f_cols].
    Simplification: no missing values (NaN). *)
Record frow := mkFRow { fr_scenario : Z; fr_year : Z; fr_bus : Z; fr_vals : list Q }.
Record frame := mkFrame { f_cols : list string; f_rows : list frow }.

(** A row of the averaged table (CG:277-280, 302-316): year, bus_index, column means. *)
Record trow := mkT { tb_year : Z; tb_bus : Z; tb_vals : list Q }.

(** A clustered profile with its column labels "<name> <number>" and row labels parsed
    (CG:284-293: [int(scenario.split(" ")[1])] and [int(year)]). *)
Record clustered := mkClustered { cp_profile : profile; cp_columns : list Z; cp_index : list Z }.

(** Series.mean. *)
Definition qsum (l : list Q) : Q := fold_right Qplus 0%Q l.
Definition mean (l : list Q) : Q := (qsum l / inject_Z (Z.of_nat (List.length l)))%Q.

(** Series.unique: order of first appearance. *)
Definition unique (l : list Z) : list Z :=
  fold_left (fun acc z => if existsb (Z.eqb z) acc then acc else acc ++ [z]) l [].

Fixpoint position (c : string) (l : list string) : option nat :=
  match l with
  | [] => None
  | x :: r => if String.eqb x c then Some 0 else option_map S (position c r)
  end.

(** [df[c].mean()]; KeyError for a missing column. *)
Definition column_mean (fr : frame) (c : string) (rows : list frow) : res Q :=
  match position c (f_cols fr) with
  | Some i => Ok (mean (map (fun r => nth i (fr_vals r) 0%Q) rows))
  | None => Err KeyError
  end.

(** CG:271-272 and 296-297: the rows of the scenarios of the node in the year of its stage. *)
Definition related (fr : frame) (scen years : list Z) (c : cluster) : res (Z * list frow) :=
  do wanted <- mapM (fun s => py_index scen (Z.of_nat s)) (cl_scenarios c);
  do year <- py_index years (cl_level c);
  Ok (year, filter (fun r => existsb (Z.eqb (fr_scenario r)) wanted && Z.eqb (fr_year r) year) (f_rows fr)).

Definition at_bus (b : Z) (rows : list frow) : list frow := filter (fun r => Z.eqb (fr_bus r) b) rows.

(** CG:270-282, _adapt_information_buses. *)
Definition bus_columns : list string := ["p_mw"; "q_mvar"].
Definition adapt_buses (fr : frame) (scen years : list Z) (c : cluster) : res (list trow) :=
  do yr <- related fr scen years c;
  mapM (fun b => do vals <- mapM (fun col => column_mean fr col (at_bus b (snd yr))) bus_columns;
                 Ok (mkT (fst yr) b vals)) (unique (map fr_bus (snd yr))).

(** CG:295-318, _adapt_information_flexible_units: missing columns give 0. *)
Definition flexible_columns : list string :=
  ["max_p_mw"; "min_p_mw"; "max_q_mvar"; "min_q_mvar"; "cp2_eur_per_mw2"; "cp1_eur_per_mw"; "cp0_eur";
   "cq2_eur_per_mvar2"; "cq1_eur_per_mvar"; "cq0_eur"].
Definition adapt_flexible (fr : frame) (scen years : list Z) (c : cluster) : res (list trow) :=
  do yr <- related fr scen years c;
  Ok (map (fun b => mkT (fst yr) b (map (fun col =>
        match column_mean fr col (at_bus b (snd yr)) with Ok q => q | Err _ => 0%Q end) flexible_columns))
      (unique (map fr_bus (snd yr)))).

(** CG:260-268: the tables of one node.  The frames form a dictionary. *)
Definition node_tables (frames : @items frame) (scen years : list Z) (c : cluster) : res (@items (list trow)) :=
  foldM (fun d gf =>
    if String.eqb (fst gf) "buses" then
      do t <- adapt_buses (snd gf) scen years c; Ok (d_set "buses" t d)
    else if String.eqb (fst gf) "flexible units" then
      do t <- adapt_flexible (snd gf) scen years c; Ok (d_set "flexible units" t d)
    else Ok d) frames [].

(** list.sort. *)
Fixpoint zinsert (z : Z) (l : list Z) : list Z :=
  match l with
  | [] => [z]
  | x :: r => if (z <=? x)%Z then z :: l else x :: zinsert z r
  end.
Definition zsort (l : list Z) : list Z := fold_right zinsert [] l.

(** CG:91-97, GraphandClusterData.  nodes_data holds the one-element list [[cluster]] of a node
    (CG:244-245); the model keeps the cluster. *)
Record control := mkControl {
  ct_graph : digraph;
  ct_nodes : list (nat * cluster);
  ct_map : list (nat * @items (list trow));
  ct_years : list Z }.

(** CG:256-268, _create_map_node_to_data_power_system.  [self._profiles.data[0]] raises
    IndexError when there is no profile. *)
Definition create_map (profiles : list clustered) (frames : @items frame) (ct : digraph * list (nat * cluster)) : res control :=
  match profiles with
  | [] => Err IndexError
  | p :: _ =>
    do m <- mapM (fun it => do t <- node_tables frames (cp_columns p) (cp_index p) (snd it); Ok (fst it, t)) (snd ct);
    Ok (mkControl (fst ct) (snd ct) m (zsort (cp_index p)))
  end.

(** CG:227-254, create_recursive_function_graph after the clustering of the profiles: with
    another number of profiles than one the control graph stays empty (CG:246-247). *)
Definition create_control (ord : nat -> list nat -> list nat) (fuel : nat) (profiles : list clustered)
    (non_anticipative : bool) (frames : @items frame) : res control :=
  do graphs <- mapM (fun p => create_graph (cp_profile p)) profiles;
  let base := match graphs with [g] => g | _ => (empty_graph, []) end in
  do ct <- (if non_anticipative then convert ord (fst base) fuel (snd base) else Ok base);
  match frames with
  | [] => Ok (mkControl (fst ct) (snd ct) [] [])
  | _ => create_map profiles frames ct
  end.
