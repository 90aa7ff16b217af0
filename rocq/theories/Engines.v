(** Model of pyensys/engines/pyene_Stochastic.py (ST) and of the profiles without trigonometric
    functions of pyensys/engines/pyeneR.py (RE). *)
From Coq Require Import List Bool Arith ZArith QArith Qpower.
From Verif Require Import Base GraphData Cases.
Import ListNotations.
Open Scope nat_scope.
Open Scope list_scope.

(** ** Failures *)

(** ST:80-83, 89-92, 101-104, 110-113: [k] hours of status [v] from hour [count] on, within the horizon.
    Simplification: drawn times are natural numbers (floor of a non-negative number, ST:47-57). *)
Fixpoint write (v k total : nat) (row : list nat) (count : nat) : list nat * nat :=
  match k with
  | O => (row, count)
  | S k' => if count <? total then write v k' total (put row count v) (S count) else write v k' total row count
  end.

(** ST:76-83 or 85-92 (97-104, 106-113 for generators): if the drawn time is zero the whole row is set. *)
Definition phase (v time total : nat) (row : list nat) (count : nat) : list nat * nat :=
  if time =? 0 then (map (fun _ => 1) row, total) else write v time total row count.

(** ST:75-92 (lines) and 96-113 (generators). *)
Fixpoint status_loop (fuel total ttf ttr : nat) (row : list nat) (count : nat) : res (list nat) :=
  if count <? total then
    match fuel with
    | O => Err OutOfFuel
    | S f => let (row, count) := phase 1 ttf total row count in
             let (row, count) := phase 0 ttr total row count in
             status_loop f total ttf ttr row count
    end
  else Ok row.

(** ST:63-66, 73-113.  [draws] pairs the times of each element. *)
Definition status_row (total : nat) (d : nat * nat) : res (list nat) :=
  status_loop total total (fst d) (snd d) (repeat 0 total) 0.
Definition status_matrix (total : nat) (draws : list (nat * nat)) : res (list (list nat)) := mapM (status_row total) draws.

(** ST:115-116: sum over the elements at an hour. *)
Definition hour_sum (m : list (list nat)) (t : nat) : nat := fold_right Nat.add 0 (map (fun row => nth t row 0) m).

(** ST:117-121. *)
Definition intact_hours (total : nat) (lines gens : list (list nat)) : list nat :=
  map (fun t => if (hour_sum lines t =? List.length lines) && (hour_sum gens t =? List.length gens) then 1 else 0) (seq 0 total).

(** ** Monte-Carlo simulation *)

(** Networkmodel of pyensys/engines/pyene_Models.py (PM), as far as it is used: problem (PM:1411) and
    curtailment (PM:1417) settings, sizes, whether there is a solved problem to read from (PM:1785-1811). *)
Record netmodel := mkNetmodel { nm_problem : bool; nm_feasibility : bool; nm_long : nat; nm_short : nat; nm_nodes : nat;
  nm_conv : nat; nm_contingencies : nat; nm_solved : bool }.

(** PM:1785-1811: any of the names of a solver solves the problem; without a name there is only a message.  *)
Inductive solver_name := GLPK | CLP | CLP_I | CLP_IR.
Definition optimisation_nm (name : option solver_name) (m : netmodel) : netmodel :=
  match name with
  | Some _ => mkNetmodel (nm_problem m) (nm_feasibility m) (nm_long m) (nm_short m) (nm_nodes m) (nm_conv m) (nm_contingencies m) true
  | None => m
  end.

(** Values by period, hour, contingency and element. *)
Definition table4 := nat -> nat -> nat -> nat -> Q.

Section MonteCarlo.
(** Primal values and objective of the solver, for the flags of generators and lines. *)
Variable column : list nat -> list nat -> table4.
Variable objective : list nat -> list nat -> Q.

(** PM:4308-4321: the attribute solver exists only after a call with a solver name; an array of two dimensions. *)
Definition load_curtailment_ed (m : netmodel) : res (option table4) :=
  if (nm_long m =? 0) || (nm_short m =? 0) then Ok None else if nm_solved m then Ok None else Err AttributeError.
(** PM:4218-4239: the attribute solver_problem exists only after a call with a solver name. *)
Definition load_curtailment_nodes (m : netmodel) (gens lines : list nat) : res (option table4) :=
  if nm_solved m then Ok (Some (column gens lines)) else Err AttributeError.
(** Called in ST:151, 233; Networkmodel and its modules have no method of this name. *)
Definition thermal_curtailment (m : netmodel) : res table4 := Err AttributeError.
(** PM:4338-4343. *)
Definition objective_function (m : netmodel) (gens lines : list nat) : res Q :=
  if nm_solved m then Ok (objective gens lines) else Err AttributeError.

(** ST:146-149, 228-231: the name LoadCurtailment is bound only with the curtailment setting. *)
Definition load_curtailment (m : netmodel) (gens lines : list nat) : res (option table4) :=
  if nm_feasibility m then if nm_problem m then load_curtailment_nodes m gens lines else load_curtailment_ed m
  else Ok None.

(** Sum over periods, hours, contingencies and elements (ST:152-168, 234-254). *)
Definition table_sum (m : netmodel) (elements : nat) (f : table4) : Q :=
  fold_right Qplus 0%Q (List.concat (map (fun h => List.concat (map (fun n => List.concat (map (fun co => map (fun t => f h t co n)
    (seq 0 (nm_short m))) (seq 0 (S (nm_contingencies m))))) (seq 0 elements))) (seq 0 (nm_long m)))).

(** ST:139-169 and 209-256: one solved step: curtailments and objective.  Arrays of two dimensions cannot be
    read with four indices (IndexError).  *)
Definition solve_step (m : netmodel) (demand : list Q) (step : nat) (gens lines : list nat) : res (Q * Q * Q) :=
  do _ <- (if nm_nodes m =? 0 then Ok 0%Q else at_ demand step);
  let m := optimisation_nm None m in
  do lc <- load_curtailment m gens lines;
  do th <- thermal_curtailment m;
  do load <- (if nm_feasibility m then
                match lc with
                | Some f => Ok (table_sum m (nm_nodes m) f)
                | None => if (nm_long m =? 0) || (nm_short m =? 0) || (nm_nodes m =? 0) then Ok 0%Q else Err IndexError
                end
              else Ok 0%Q);
  do cost <- objective_function m gens lines;
  Ok (load, if nm_feasibility m then table_sum m (nm_conv m) th else 0%Q, cost).

(** ST:208-263: the steps of an iteration; [base] holds the results of the intact network. *)
Definition iteration (m : netmodel) (total : nat) (demand : list Q) (base : list (Q * Q * Q)) (draws : list (nat * nat) * list (nat * nat)) : res (list (Q * Q * Q)) :=
  do lines <- status_matrix total (fst draws);
  do gens <- status_matrix total (snd draws);
  mapM (fun t =>
      do _ <- (if nm_nodes m =? 0 then Ok 0%Q else at_ demand t);
      if nth t (intact_hours total lines gens) 0 =? 0 then solve_step m demand t (map (fun row => nth t row 0) gens) (map (fun row => nth t row 0) lines)
      else at_ base t)
    (seq 0 total).

(** ST:125-280.  [gens], [lines]: flags of the network as read (PM:1429-1432, 1578-1587); [draws]: the times of
    lines and generators in each iteration.  The average time (ST:276) divides by the number of steps. *)
Definition run_montecarlo (m : netmodel) (total : nat) (demand : list Q) (gens lines : list nat)
    (draws : list (list (nat * nat) * list (nat * nat))) : res (list (Q * Q * Q)) :=
  do base <- mapM (fun t => solve_step m demand t gens lines) (seq 0 total);
  do rs <- mapM (iteration m total demand base) draws;
  if total =? 0 then Err ZeroDivisionError else Ok (List.concat rs).
End MonteCarlo.

(** ** Wind *)

(** The turbine data used after height correction (RE:33-40). *)
Record turbine := mkTurbine { tu_cutin : Q; tu_rated : Q; tu_cutout : Q; tu_park : Q; tu_model : nat }.

(** RE:109-124, for the corrected wind speed.  Simplification: the height correction
    (tower/height)^alpha is the number [factor].  *)
Definition wind_power (t : turbine) (ws : Q) : Q :=
  let m := Z.of_nat (tu_model t) in
  if Qle_bool ws (tu_cutin t) then 0%Q
  else if Qle_bool ws (tu_rated t) then (tu_park t * (ws ^ m - tu_cutin t ^ m) / (tu_rated t ^ m - tu_cutin t ^ m))%Q
  else if Qle_bool ws (tu_cutout t) then tu_park t else 0%Q.
(** RE:101-126. *)
Definition build_wind (t : turbine) (factor : Q) (val : list Q) : list Q := map (fun v => wind_power t (v * factor)) val.

(** ** Cooling *)

(** RE:143-149. *)
Record cooling := mkCooling { co_health : Q; co_shut : Q; co_max : Q; co_delta : Q; co_scarcity : Q; co_lambda : Q }.

(** RE:152. *)
Definition risk_temperature (c : cooling) : Q := (co_max c - co_delta c / co_scarcity c)%Q.
(** RE:155-158. *)
Definition scarcity_derating (c : cooling) : Q :=
  ((1 - co_lambda c * (co_max c - co_delta c / co_scarcity c - co_health c)) / (co_delta c / co_scarcity c))%Q.

(** RE:166-176. *)
Definition capacity_at (c : cooling) (t : Q) : Q :=
  let f := if Qle_bool t (co_health c) then 1%Q
           else if Qle_bool (co_shut c) t then 0%Q
           else if Qle_bool t (risk_temperature c) then (1 - co_lambda c * (t - co_health c))%Q
           else (scarcity_derating c * (co_max c - t))%Q in
  if Qle_bool f 1 then f else 1%Q.

(** RE:128-178.  The entries of a profile are numbers or, as in the default settings (RE:48-52), lists, whose comparison
    with a number raises TypeError.  Simplification: scarcity and temperature difference are not zero. *)
Inductive temperature := Degrees (t : Q) | Series (l : list Q).
Definition capacity_of (c : cooling) (v : temperature) : res Q :=
  match v with
  | Degrees t => Ok (capacity_at c t)
  | Series _ => Err TypeError
  end.
Definition get_cf (c : cooling) (p : list temperature) : res (list Q) := mapM (capacity_of c) p.

(** RE:43-59, 131-134: the profile used, and the settings by default of the types of generator. *)
Definition default_temperatures : list temperature :=
  [Series (map (fun n => n # 10000)%Q [133876; 126934; 122074; 121380; 121380; 124851; 127628; 136652; 149148; 158173; 165809; 171362;
    172057; 176222; 174833; 174833; 172057; 167891; 163726; 158173; 148454; 142206; 131793; 132487]%Z)].
Definition temperatures (given : option (list temperature)) : list temperature :=
  match given with Some p => p | None => default_temperatures end.
