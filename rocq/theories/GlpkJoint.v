(** Model of the energy tree and the power system built together with GLPK, class EnergyandNetwork of
    pyensys/engines/pyene_Models.py (PM), on the data of pyensys/engines/main.py.

    Simplifications.
    - Those of GlpkEnergy.v and GlpkNetwork.v.
    - The weights of the representative days (PM:4524-4533) are computed as in MA:98-111; they are [scenario_weights] of Joint.v.
    - The solvers "CLP", "CLP-I" and "CLP-IR", for which the problem is handed to code in another language (PM:4589-4856), are not
      modelled. *)
From Coq Require Import List String Bool Arith ZArith QArith.
From Verif Require Import Base Cases Network GraphData EnergyTree Joint Glpk GlpkSpec GlpkEnergy GlpkRows GlpkNetwork.
Import ListNotations.
Open Scope nat_scope.
Open Scope list_scope.

(** PM:4354-4376: [ec_conn] is ConnectionTreeGen, the node of the tree for every day. *)
Record enm := mkEnm { ec_energy : energy; ec_net : nm; ec_conn : list nat; ec_penalty : Q }.

(** PM:4488-4490: the numbers are written one after the other. *)
Definition link_row (i j : nat) : name := (("CEED" ++ str_nat i ++ str_nat j)%string, []).
Definition system_row (i j : nat) : name := ("PB"%string, [i; j]).

(** ** Ramps *)

(** The kinds of units with ramps. *)
Definition ramped : list kind := [Thermal; Hydro].
(** PM:2158-2181. *)
Definition ramp_rows (m : nm) (p : nat * nat) : list (name * nat) :=
  let '(i, j) := p in
  if j =? 0 then [] else filter (fun b => 0 <? snd b) (map (fun k => (ramp_row k i j, List.length (nm_units m k))) ramped).
(** PM:2184-2213. *)
Definition ramp_specs (m : nm) (p : nat * nat) : list rowspec :=
  let '(i, j) := p in
  if j =? 0 then [] else flat_map (fun k => map (fun u =>
    ((ramp_row k i j, fst u), [((gen_name k i j, fst u), 1%Q); ((gen_name k i (j - 1), fst u), (- (1))%Q)], Bounded (- un_ramp (snd u)) (un_ramp (snd u)))) (enum (nm_units m k))) ramped.
(** PM:2130-2213: with no times the array has a negative size. *)
Definition ramps (m : nm) : res (list cmd) :=
  if (nm_times m =? 0) && existsb (fun k => 0 <? List.length (nm_units m k)) ramped then Err ValueError
  else Ok (add_rows (flat_map (ramp_rows m) (periods m)) ++ flat_map row_cmds (flat_map (ramp_specs m) (periods m))).

(** ** Balance of the system *)

(** PM:2368-2423. *)
Definition system_terms (m : nm) (i j : nat) : list (place * Q) :=
  flat_map (fun k => map (fun u => ((gen_name k i j, fst u), 1%Q)) (enum (nm_units m k))) ramped ++
  (if stored m j then store_terms m i j ++ map (fun u => ((store_name i (j - 1), fst u), (- snd u / nm_hours m (j - 1))%Q)) (enum (nm_stores m)) else []) ++
  (if nm_feas m then [((lcs_name i j, 0), 1%Q); ((gcs_name i j, 0), (- (1))%Q)] else []) ++
  map (fun u => ((pump_name i j, fst u), (- (1))%Q)) (enum (nm_pumps m)).
(** PM:2425-2450. *)
Definition system_demand (m : nm) (i j : nat) : Q :=
  qsum (map (fun b => match nm_perc m with None => bs_demand (snd b) * nm_mult m i j (fst b) | Some p => bs_demand (snd b) * nm_mult m i j (fst b) * (1 + p) end)%Q (enum (nm_buses m))).
Definition system_spec (m : nm) (p : nat * nat) : rowspec := ((system_row (fst p) (snd p), 0), system_terms m (fst p) (snd p), Fixed (system_demand m (fst p) (snd p))).
(** PM:2343-2452.  A coefficient of renewable units is stored after the end of the list (PM:2382). *)
Definition system_balance (m : nm) : res (list cmd) :=
  if (0 <? List.length (periods m)) && (0 <? List.length (nm_units m Renewable)) then Err IndexError
  else Ok (add_rows (map (fun p => (system_row (fst p) (snd p), 1)) (periods m)) ++ flat_map row_cmds (map (system_spec m) (periods m))).

(** ** Links between tree and network *)

(** The loops over vectors and days. *)
Definition trees_days (c : enm) : list (nat * nat) := list_prod (seq 0 (tm_trees (tree_of (ec_energy c)))) (seq 0 (nm_days (ec_net c))).
(** PM:4454-4466. *)
Definition release (c : enm) : res (list (place * bnd)) := mapM (fun p => do n <- at_ (ec_conn c) (snd p); Ok ((OT (fst p), n), Lower 0)) (trees_days c).
(** PM:4493-4513. *)
Definition link_terms (c : enm) (i j n : nat) : list (place * Q) :=
  ((OT i, n), 1%Q) :: map (fun k => ((gen_name Hydro j k, i), (- nm_hours (ec_net c) k * nm_base (ec_net c))%Q)) (seq 0 (nm_times (ec_net c))).
Definition link_specs (c : enm) : res (list rowspec) :=
  mapM (fun p => do n <- at_ (ec_conn c) (snd p); Ok ((link_row (fst p) (snd p), 0), link_terms c (fst p) (snd p) n, Fixed 0)) (trees_days c).
(** PM:4470-4513. *)
Definition links_cmds (c : enm) : res (list cmd) :=
  do l <- link_specs c; Ok (add_rows (map (fun p => (link_row (fst p) (snd p), 1)) (trees_days c)) ++ flat_map row_cmds l).
(** PM:4439-4441. *)
Definition hydro_cmds (c : enm) : res (list cmd) :=
  if 0 <? List.length (nm_units (ec_net c) Hydro) then do r <- release c; do l <- links_cmds c; Ok (map col_cmd r ++ l) else Ok [].

(** ** The problem *)

(** PM:4430-4437. *)
Definition balance_cmds (m : nm) : res (list cmd) :=
  if nm_flag m then do b <- node_balance m; Ok (b ++ line_flows m ++ losses_cmds m) else system_balance m.
(** PM:4517-4586. *)
Definition objective_enm (c : enm) : res (list cmd) :=
  do w <- scenario_weights (nm_days (ec_net c)) (ec_energy c);
  Ok (map obj_cmd (flat_map (common_costs (ec_net c) (fun i => nth i w 0%Q) (ec_penalty c)) (periods (ec_net c)))).
(** PM:4404-4448. *)
Definition definition_enm (c : enm) : res (list cmd) :=
  let t := tree_of (ec_energy c) in let m := ec_net c in
  do v <- variables_em t; do b <- energy_balance t; do a <- aggregation t; do n <- balance_cmds m; do h <- hydro_cmds c; do r <- ramps m; do o <- objective_enm c;
  Ok ((v ++ (if nm_flag m then variables_opf m else variables_ed m) ++ b ++ a ++ n ++ h ++ piecewise m ++ r) ++ Load :: o).
(** PM:4379-4391 with the solver "GLPK". *)
Definition optimisation_enm (c : enm) : res solver := do l <- definition_enm c; do so <- run l; do _ <- simplex so; Ok so.
