(** Model of the rest of save_in_jsonW in pyensys/cases.py (CA): the costs of the saved plan. *)
From Coq Require Import List Bool Arith ZArith QArith.
From Verif Require Import Base Cases CaseName.
Import ListNotations.
Open Scope nat_scope.
Open Scope list_scope.

(** CA:766-767 and 848: [scen] is the scenario of the last row that was read; without rows it is the argument, an empty list
    that is equal to no number. *)
Definition last_scenario (rows : list srow) : option Z := fold_left (fun _ r => Some (sr_scenario r)) rows None.
(** CA:844-850: solution[1] has a scenario and a cost per row. *)
Definition report_costs (rows : list srow) (costs : list (Z * Q)) : Q * Q :=
  fold_left (fun c x =>
      let c1 := if Z.eqb (fst x) 0 then (snd x / 1000000)%Q else fst c in
      let c2 := match last_scenario rows with
                | Some s => if Z.eqb (fst x) s then (snd x / 1000000)%Q else snd c
                | None => snd c
                end in
      (c1, c2)) costs (0, 0)%Q.
(** CA:763-850, save_in_jsonW without years: the years and the total costs of the two scenarios in the file.  Simplification:
    of the tables of investments only the failures are modelled (see [save_row]). *)
Definition save_plan (nlines : nat) (positions : list (list Z)) (capacity : list (list Q)) (rows : list srow) (costs : list (Z * Q)) : res (list Z * (Q * Q)) :=
  let yrs := report_years rows in
  do _ <- save_interventions (fun y => existsb (Z.eqb y) yrs) nlines positions capacity rows;
  Ok (yrs, report_costs rows costs).
