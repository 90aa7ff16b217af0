(** Model of the power system built with GLPK, class Networkmodel of pyensys/engines/pyene_Models.py (PM).

    Simplifications.
    - The arrays the constructor fills (PM:1364-1715) are the fields of a record: one entry for a unit, line, bus, pump or storage device, and
      functions of the period where the arrays have a place for every period.  LongTemporalConnections is a range from 0, as
      pyeneN.py and pyene.py set it.  The places in matrices for unused periods and pieces are left out.
    - Positions of buses, stored as floating point numbers and added to numbers of columns, are whole numbers.
    - Dividing by a reactance or a number of hours of 0, which gives an infinite coefficient, gives 0.
    - Errors of numbering of arrays are reported before errors of GLPK.
    - The solvers "CLP", "CLP-I" and "CLP-IR", for which the problem is handed to code in another language (PM:3075-3308), are
      not modelled. *)
From Coq Require Import List String Bool Arith ZArith QArith.
From Verif Require Import Base Cases Network GraphData Glpk GlpkSpec GlpkEnergy GlpkRows.
Import ListNotations.
Open Scope nat_scope.
Open Scope list_scope.

(** ** Data *)

(** PM:1425-1566: a generation unit; the pieces of its cost are pairs (A, B). *)
Record unit_ := mkUnit { un_bus : nat; un_min : Q; un_max : Q; un_pieces : list (Q * Q); un_ramp : Q; un_on : bool }.
(** PM:1588-1655: a line; [ln_from] and [ln_to] are numbers of buses, [ln_pf] and [ln_pt] positions; [ln_loss] are the
    non-technical losses; [ln_on] tells for every case if the line is active. *)
Record line := mkLine { ln_from : nat; ln_to : nat; ln_pf : nat; ln_pt : nat; ln_x : Q; ln_r : Q; ln_rate : Q; ln_loss : Q; ln_on : nat -> bool }.
(** PM:1691-1706. *)
Record bus := mkBus { bs_no : nat; bs_type : nat; bs_demand : Q }.

Inductive kind := Thermal | Renewable | Hydro.
Definition kinds : list kind := [Thermal; Renewable; Hydro].

(** PM:1364-1715. [nm_days] is the length of LongTemporalConnections, [nm_times] is ShortTemporalConnections; a pump is its
    maximum and cost, a storage device its efficiency; [nm_level i j k] is RESScenarios, [nm_mult i j k] MultScenariosDemand,
    which does not depend on [j] if there are no scenarios of demand; [nm_losses] holds the pieces of losses (A, B) if
    LossesFlag is set. *)
Record nm := mkNm {
  nm_days : nat; nm_times : nat; nm_units : kind -> list unit_; nm_pumps : list (Q * Q); nm_stores : list Q;
  nm_hours : nat -> Q; nm_level : nat -> nat -> nat -> Q; nm_conts : nat; nm_buses : list bus; nm_lines : list line;
  nm_losses : option (list (Q * Q)); nm_mult : nat -> nat -> nat -> Q; nm_perc : option Q; nm_feas : bool; nm_base : Q; nm_flag : bool }.

(** range(len(l)) with the elements. *)
Definition enum {A} (l : list A) : list (nat * A) := combine (seq 0 (List.length l)) l.

(** PM:1707-1713: a conventional unit is switched off if the first bus of its number is of type 4. *)
Definition active (m : nm) (u : unit_) : bool :=
  match find (fun b => un_bus u =? bs_no b) (nm_buses m) with
  | Some b => if bs_type b =? 4 then false else un_on u
  | None => un_on u
  end.

(** The loops over days and times, and over cases. *)
Definition periods (m : nm) : list (nat * nat) := list_prod (seq 0 (nm_days m)) (seq 0 (nm_times m)).
Definition cases (m : nm) : nat := nm_conts m + 1.
Definition instances (m : nm) : list (nat * nat * nat) := list_prod (periods m) (seq 0 (cases m)).

(** ** Names *)

Definition gen_name (k : kind) (i j : nat) : name := (match k with Thermal => "ThermalGen" | Renewable => "RESGen" | Hydro => "HydroGen" end%string, [i; j]).
Definition cost_name (k : kind) (i j : nat) : name := (match k with Thermal => "ThermalCG" | Renewable => "RESCG" | Hydro => "HydroCG" end%string, [i; j]).
Definition piece_name (k : kind) (i j u : nat) : name := (match k with Thermal => "ThermalPWC" | Renewable => "RESPWC" | Hydro => "HydroPWC" end%string, [i; j; u]).
Definition store_name (i j : nat) : name := ("ESS"%string, [i; j]).
Definition pump_name (i j : nat) : name := ("Pumps"%string, [i; j]).
Definition flow_name (i j k : nat) : name := ("ActivePowerFlow"%string, [i; j; k]).
Definition loss_name (i j k : nat) : name := ("ActivePowerLosses"%string, [i; j; k]).
Definition lc_name (i j k : nat) : name := ("LoadCurtailmentNode"%string, [i; j; k]).
Definition gc_name (i j k : nat) : name := ("GenerationCurtailmentNode"%string, [i; j; k]).
Definition angle_name (i j k : nat) : name := ("VoltageAngle"%string, [i; j; k]).
Definition node_row (i j k : nat) : name := ("activepowerbalancenode"%string, [i; j; k]).
Definition line_row (i j k : nat) : name := ("activepowerflowconstraint"%string, [i; j; k]).
Definition loss1_row (i j k l : nat) : name := ("activepowerlosses1"%string, [i; j; k; l]).
Definition loss2_row (i j k l : nat) : name := ("activepowerlosses2"%string, [i; j; k; l]).
Definition ramp_row (k : kind) (i j : nat) : name := (match k with Thermal => "ThermalGR" | Renewable => "RESGR" | Hydro => "HydroGR" end%string, [i; j]).
Definition lcs_name (i j : nat) : name := ("LCS"%string, [i; j]).
Definition gcs_name (i j : nat) : name := ("GCS"%string, [i; j]).

(** ** Common variables and constraints *)

(** PM:1883-1922: the columns of a period; blocks are reserved if there is something in them. *)
Definition common_cols (m : nm) (p : nat * nat) : list (name * nat) :=
  let '(i, j) := p in
  filter (fun b => 0 <? snd b)
    (map (fun k => (gen_name k i j, List.length (nm_units m k))) kinds ++ map (fun k => (cost_name k i j, List.length (nm_units m k))) kinds ++
     [(store_name i j, List.length (nm_stores m)); (pump_name i j, List.length (nm_pumps m))]).

(** A column between two limits, fixed if they are equal. *)
Definition between (l u : Q) : bnd := if Qeq_bool l u then Fixed l else Bounded l u.
(** PM:1929-1976. *)
Definition unit_bound (m : nm) (k : kind) (i j n : nat) (u : unit_) : bnd :=
  match k with
  | Thermal => if active m u then between (un_min u) (un_max u) else Fixed 0
  | Renewable => between (un_min u) (nm_level m i j n * un_max u)
  | Hydro => between (un_min u) (un_max u)
  end.
(** PM:1979-1989. *)
Definition pump_bound (p : Q * Q) : bnd := if Qeq_bool (fst p) 0 then Fixed 0 else Bounded 0 (fst p).
(** PM:1926-1989. *)
Definition common_bounds (m : nm) (p : nat * nat) : list (place * bnd) :=
  let '(i, j) := p in
  flat_map (fun k => map (fun u => ((gen_name k i j, fst u), unit_bound m k i j (fst u) (snd u))) (enum (nm_units m k))) kinds ++
  map (fun u => ((pump_name i j, fst u), pump_bound (snd u))) (enum (nm_pumps m)).

(** PM:2028-2063. *)
Definition piece_rows (m : nm) (p : nat * nat) : list (name * nat) :=
  let '(i, j) := p in
  flat_map (fun k => map (fun u => (piece_name k i j (fst u), List.length (un_pieces (snd u)))) (enum (nm_units m k))) kinds.
(** PM:2067-2127. *)
Definition piece_specs (m : nm) (p : nat * nat) : list rowspec :=
  let '(i, j) := p in
  flat_map (fun k => flat_map (fun u => map (fun c =>
    ((piece_name k i j (fst u), fst c), [((cost_name k i j, fst u), 1%Q); ((gen_name k i j, fst u), (- nm_hours m j * fst (snd c))%Q)], Lower (nm_hours m j * snd (snd c))))
    (enum (un_pieces (snd u)))) (enum (nm_units m k))) kinds.

(** The objective of PM:2218-2270 and of PM:4535-4586, with a weight for every day and a penalty. *)
Definition common_costs (m : nm) (w : nat -> Q) (penalty : Q) (p : nat * nat) : list (place * Q) :=
  let '(i, j) := p in
  flat_map (fun k => map (fun u => ((cost_name k i j, fst u), (w i * nm_hours m j)%Q)) (enum (nm_units m k))) kinds ++
  map (fun u => ((pump_name i j, fst u), (- w i * nm_hours m j * nm_base m * snd (snd u))%Q)) (enum (nm_pumps m)) ++
  (if nm_feas m then
     if nm_flag m then
       flat_map (fun k => map (fun b => ((lc_name i j k, fst b), (w i * nm_hours m j * penalty)%Q)) (enum (nm_buses m)) ++
                          map (fun b => ((gc_name i j k, fst b), (w i * nm_hours m j * penalty)%Q)) (enum (nm_buses m))) (seq 0 (cases m))
     else [((lcs_name i j, 0), (w i * nm_hours m j * penalty)%Q)]
   else []).

(** ** Optimal power flow *)

(** PM:2534-2565. *)
Definition opf_cols (m : nm) (p : nat * nat * nat) : list (name * nat) :=
  let '(i, j, k) := p in
  [(flow_name i j k, List.length (nm_lines m))] ++
  (match nm_losses m with Some _ => [(loss_name i j k, List.length (nm_lines m))] | None => [] end) ++
  (if nm_feas m then [(lc_name i j k, List.length (nm_buses m)); (gc_name i j k, List.length (nm_buses m))] else []) ++
  [(angle_name i j k, List.length (nm_buses m))].

(** PM:2572-2596.  The second test, for a limit of 100, is only reached by limits that are not above 0. *)
Definition flow_bound (k : nat) (l : line) : bnd := if ln_on l k && negb (Qle_bool (ln_rate l) 0) then Bounded (- ln_rate l) (ln_rate l) else Fixed 0.
(** PM:2609-2632. *)
Definition lc_bound (m : nm) (i j n : nat) (b : bus) : bnd := if Qle_bool (bs_demand b) 0 then Fixed 0 else Bounded 0 (bs_demand b * nm_mult m i j n).
(** PM:2634-2653. *)
Definition has_unit (m : nm) (b : bus) : bool := existsb (fun k => existsb (fun u => un_bus u =? bs_no b) (nm_units m k)) kinds.
(** PM:2568-2668. *)
Definition opf_bounds (m : nm) (p : nat * nat * nat) : list (place * bnd) :=
  let '(i, j, k) := p in
  map (fun l => ((flow_name i j k, fst l), flow_bound k (snd l))) (enum (nm_lines m)) ++
  (match nm_losses m with
   | Some _ => flat_map (fun l => if ln_on (snd l) k then [] else [((loss_name i j k, fst l), Fixed 0)]) (enum (nm_lines m))
   | None => [] end) ++
  (if nm_feas m then
     map (fun b => ((lc_name i j k, fst b), lc_bound m i j (fst b) (snd b))) (enum (nm_buses m)) ++
     map (fun b => ((gc_name i j k, fst b), if has_unit m (snd b) then Lower 0 else Fixed 0)) (enum (nm_buses m))
   else []) ++
  map (fun b => ((angle_name i j k, fst b), if bs_type (snd b) =? 3 then Fixed 0 else Free)) (enum (nm_buses m)).

(** *** Balance of every node *)

(** PM:2704-2734. *)
Definition gen_terms (m : nm) (i j : nat) (b : bus) : list (place * Q) :=
  flat_map (fun k => flat_map (fun u => if un_bus (snd u) =? bs_no b then [((gen_name k i j, fst u), 1%Q)] else []) (enum (nm_units m k))) kinds.
(** PM:2739-2747. *)
Definition store_terms (m : nm) (i j : nat) : list (place * Q) := map (fun u => ((store_name i j, fst u), (snd u / nm_hours m (j - 1))%Q)) (enum (nm_stores m)).
(** PM:2748-2754: the loop counts with k, which held the case, and reads the last value of jj. *)
Definition stale_terms (m : nm) (i j n : nat) : list cmd :=
  let s := List.length (nm_stores m) in
  map (fun k => Entry (node_row i j k) n (store_name i (j - 1)) (s - 1) (- nth (s - 1) (nm_stores m) 0 / nm_hours m (j - 1))%Q) (seq 0 s).
(** PM:2758-2765. *)
Definition pump_terms (m : nm) (i j : nat) : list (place * Q) :=
  flat_map (fun u => if Qle_bool (fst (snd u)) 0 then [] else [((pump_name i j, fst u), (- (1))%Q)]) (enum (nm_pumps m)).
(** PM:2767-2781. *)
Definition flow_terms (m : nm) (i j k : nat) (b : bus) : list (place * Q) :=
  flat_map (fun l => (if ln_from (snd l) =? bs_no b then [((flow_name i j k, fst l), (- (1))%Q)] else []) ++
                     (if ln_to (snd l) =? bs_no b then [((flow_name i j k, fst l), 1%Q)] else [])) (enum (nm_lines m)).
(** PM:2783-2794. *)
Definition loss_terms (m : nm) (i j k : nat) (b : bus) : list (place * Q) :=
  match nm_losses m with
  | Some _ => flat_map (fun l => if (ln_from (snd l) =? bs_no b) || (ln_to (snd l) =? bs_no b) then [((loss_name i j k, fst l), (- (1 # 2))%Q)] else []) (enum (nm_lines m))
  | None => []
  end.
(** PM:2797-2810. *)
Definition curtail_terms (m : nm) (i j k n : nat) : list (place * Q) :=
  if nm_feas m then [((lc_name i j k, n), 1%Q); ((gc_name i j k, n), (- (1))%Q)] else [].
(** PM:2813-2850. *)
Definition resource (m : nm) (i j n : nat) (b : bus) : Q :=
  ((match nm_perc m with None => bs_demand b * nm_mult m i j n | Some p => bs_demand b * nm_mult m i j n * (1 + p) end) +
   (match nm_losses m with
    | Some _ => 0
    | None => qsum (map (fun l => (if (ln_from l =? bs_no b)%nat then (1 # 2) * ln_loss l else 0) + (if (ln_to l =? bs_no b)%nat then (1 # 2) * ln_loss l else 0)) (nm_lines m))
    end))%Q.
(** The storage devices are looked at. *)
Definition stored (m : nm) (j : nat) : bool := (0 <? List.length (nm_stores m)) && (0 <? j).
(** PM:2700-2850: what is done for the bus in position [n]; the second result is the value of k after it. *)
Definition bus_cmds (m : nm) (i j k n : nat) (b : bus) : list cmd * nat :=
  if bs_type b =? 4 then ([], k)
  else
    let k' := if stored m j then List.length (nm_stores m) - 1 else k in
    (map (row_entry (node_row i j k, n)) (gen_terms m i j b ++ (if stored m j then store_terms m i j else [])) ++
     (if stored m j then stale_terms m i j n else []) ++
     row_cmds ((node_row i j k', n), pump_terms m i j ++ flow_terms m i j k' b ++ loss_terms m i j k' b ++ curtail_terms m i j k' n, Fixed (resource m i j n b)), k').
Fixpoint buses_cmds (m : nm) (i j k : nat) (l : list (nat * bus)) : list cmd :=
  match l with
  | [] => []
  | (n, b) :: r => fst (bus_cmds m i j k n b) ++ buses_cmds m i j (snd (bus_cmds m i j k n b)) r
  end.
Definition node_rows (m : nm) : list (name * nat) := map (fun p => (node_row (fst (fst p)) (snd (fst p)) (snd p), List.length (nm_buses m))) (instances m).
(** PM:2672-2850.  The array of rows has no place for a case above the last one. *)
Definition node_balance (m : nm) : res (list cmd) :=
  if existsb (fun p => stored m (snd p)) (periods m) && existsb (fun b => negb (bs_type b =? 4)) (nm_buses m) && (cases m <? List.length (nm_stores m)) then Err IndexError
  else Ok (add_rows (node_rows m) ++ flat_map (fun p => buses_cmds m (fst (fst p)) (snd (fst p)) (snd p) (enum (nm_buses m))) (instances m)).

(** *** Flows and losses of lines *)

(** The lines active in a case, with their positions. *)
Definition lines_on (m : nm) (k : nat) : list (nat * line) := filter (fun l => ln_on (snd l) k) (enum (nm_lines m)).
(** PM:2870-2891. *)
Definition line_rows (m : nm) : list (name * nat) :=
  map (fun p => (line_row (fst (fst p)) (snd (fst p)) (snd p), if snd p =? 0 then List.length (nm_lines m) else List.length (nm_lines m) - 1)) (instances m).
(** PM:2894-2930. *)
Definition line_specs (m : nm) (p : nat * nat * nat) : list rowspec :=
  let '(i, j, k) := p in
  map (fun c => let '(c, (n, l)) := c in
         ((line_row i j k, c), [((flow_name i j k, n), 1%Q); ((angle_name i j k, ln_pf l), (- (1) / ln_x l)%Q); ((angle_name i j k, ln_pt l), (1 / ln_x l)%Q)], Fixed 0))
      (enum (lines_on m k)).
(** PM:2932-2999 and PM:3001-3066: rows and coefficients of losses for one direction of flow. *)
Definition loss_rows (m : nm) (f : nat -> nat -> nat -> nat -> name) (c : list (Q * Q)) (p : nat * nat * nat) : list (name * nat) :=
  let '(i, j, k) := p in map (fun l => (f i j k (fst l), List.length c)) (lines_on m k).
Definition loss_specs (m : nm) (f : nat -> nat -> nat -> nat -> name) (sign : Q) (c : list (Q * Q)) (p : nat * nat * nat) : list rowspec :=
  let '(i, j, k) := p in
  flat_map (fun l => map (fun q => ((f i j k (fst l), fst q), [((loss_name i j k, fst l), 1%Q); ((flow_name i j k, fst l), (sign * snd (snd q) * ln_r (snd l))%Q)], Lower (fst (snd q) * ln_r (snd l))))
                         (enum c)) (lines_on m k).
Definition losses_cmds (m : nm) : list cmd :=
  match nm_losses m with
  | None => []
  | Some c => add_rows (flat_map (loss_rows m loss1_row c) (instances m)) ++ flat_map row_cmds (flat_map (loss_specs m loss1_row (- (1)) c) (instances m)) ++
              add_rows (flat_map (loss_rows m loss2_row c) (instances m)) ++ flat_map row_cmds (flat_map (loss_specs m loss2_row 1 c) (instances m))
  end.

(** PM:1878-1989. *)
Definition variables_common (m : nm) : list cmd := add_cols (flat_map (common_cols m) (periods m)) ++ map col_cmd (flat_map (common_bounds m) (periods m)).
(** PM:2526-2668. *)
Definition variables_opf (m : nm) : list cmd := variables_common m ++ add_cols (flat_map (opf_cols m) (instances m)) ++ map col_cmd (flat_map (opf_bounds m) (instances m)).
(** PM:1993-2127. *)
Definition piecewise (m : nm) : list cmd := add_rows (flat_map (piece_rows m) (periods m)) ++ flat_map row_cmds (flat_map (piece_specs m) (periods m)).
(** PM:2856-2930. *)
Definition line_flows (m : nm) : list cmd := add_rows (line_rows m) ++ flat_map row_cmds (flat_map (line_specs m) (instances m)).
(** PM:2218-2270. *)
Definition objective_nm (m : nm) : list cmd := map obj_cmd (flat_map (common_costs m (fun _ => 1%Q) 100000000) (periods m)).

(** PM:2458-2485. *)
Definition definition_opf (m : nm) : res (list cmd) :=
  do b <- node_balance m;
  Ok (variables_opf m ++ piecewise m ++ b ++ line_flows m ++ losses_cmds m ++ Load :: objective_nm m).

(** ** Economic dispatch *)

(** PM:2323-2339. *)
Definition variables_ed (m : nm) : list cmd :=
  variables_common m ++ (if nm_feas m then add_cols (flat_map (fun p => [(lcs_name (fst p) (snd p), 1); (gcs_name (fst p) (snd p), 1)]) (periods m)) else []).

(** PM:1785-1802.  The economic dispatch calls the method constraintsED, which no class defines (PM:2296). *)
Definition optimisation_nm (m : nm) : res solver :=
  if nm_flag m then
    do l <- definition_opf m; do so <- run l; do _ <- simplex so; Ok so
  else do _ <- run (variables_ed m); Err AttributeError.

(** ** Results *)

Definition table (m : nm) (S : solver) (x : nat -> Q) (f : nat -> nat -> name) (count : nat) (scale : Q) : res (list (list (list Q))) :=
  mapM (fun i => mapM (fun j => mapM (fun k => do q <- primal S x (f i j) k; Ok (q * scale)%Q) (seq 0 count)) (seq 0 (nm_times m))) (seq 0 (nm_days m)).
Definition table4 (m : nm) (S : solver) (x : nat -> Q) (f : nat -> nat -> nat -> name) (count : nat) (scale : Q) : res (list (list (list (list Q)))) :=
  mapM (fun i => mapM (fun j => mapM (fun k => mapM (fun n => do q <- primal S x (f i j k) n; Ok (q * scale)%Q) (seq 0 count)) (seq 0 (cases m))) (seq 0 (nm_times m))) (seq 0 (nm_days m)).
Definition if_some {A} (b : bool) (r : res A) : res (option A) := if b then do a <- r; Ok (Some a) else Ok None.
(** PM:4056-4117. *)
Definition get_generation (m : nm) (S : solver) (x : nat -> Q) (k : kind) : res (option (list (list (list Q)))) :=
  if_some (0 <? List.length (nm_units m k)) (table m S x (gen_name k) (List.length (nm_units m k)) (nm_base m)).
(** PM:4119-4134. *)
Definition get_pumps (m : nm) (S : solver) (x : nat -> Q) : res (option (list (list (list Q)))) :=
  if_some (0 <? List.length (nm_pumps m)) (table m S x pump_name (List.length (nm_pumps m)) (nm_base m)).
(** PM:4136-4194. *)
Definition get_costs (m : nm) (S : solver) (x : nat -> Q) (k : kind) : res (option (list (list (list Q)))) :=
  if_some (0 <? List.length (nm_units m k)) (table m S x (cost_name k) (List.length (nm_units m k)) 1).
(** PM:4196-4216. *)
Definition get_angles (m : nm) (S : solver) (x : nat -> Q) : res (option (list (list (list (list Q))))) :=
  if_some (nm_flag m) (table4 m S x angle_name (List.length (nm_buses m)) 1).
(** PM:4218-4239. *)
Definition get_load_curtailment (m : nm) (S : solver) (x : nat -> Q) : res (option (list (list (list (list Q))))) :=
  if_some (nm_flag m && nm_feas m) (table4 m S x lc_name (List.length (nm_buses m)) (nm_base m)).
(** PM:4241-4264. *)
Definition get_generation_curtailment (m : nm) (S : solver) (x : nat -> Q) : res (option (list (list (list (list Q))))) :=
  if_some (nm_flag m && nm_feas m) (table4 m S x gc_name (List.length (nm_buses m)) (nm_base m)).
(** PM:4266-4287. *)
Definition get_flows (m : nm) (S : solver) (x : nat -> Q) : res (option (list (list (list (list Q))))) :=
  if_some (nm_flag m) (table4 m S x flow_name (List.length (nm_lines m)) (nm_base m)).
(** PM:4289-4306. *)
Definition get_losses (m : nm) (S : solver) (x : nat -> Q) : res (option (list (list (list (list Q))))) :=
  if_some (nm_flag m && match nm_losses m with Some _ => true | None => false end) (table4 m S x loss_name (List.length (nm_lines m)) (nm_base m)).
(** PM:4338-4340. *)
Definition get_objective (S : solver) (x : nat -> Q) : Q := objective S x.
