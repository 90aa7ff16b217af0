(** Model of the name of the case that pyensys/cases.py (CA) takes from a path, and of the command run-dist_path.

    Simplifications.
    - A path is a list of ASCII characters.
    - Of main_access_function only its results are used; the costs in the report (CA:844-850) are left out. *)
From Coq Require Import List Bool Arith ZArith QArith Ascii.
From Verif Require Import Base Cases.
Import ListNotations.
Open Scope nat_scope.
Open Scope list_scope.

Definition is_dot (a : ascii) : bool := Ascii.eqb a "."%char.
Definition is_slash (a : ascii) : bool := Ascii.eqb a "/"%char || Ascii.eqb a "\"%char.
(** CA:1148-1150, 1151-1153: x -= 1 until path[x] is what is looked for.  Positions below 0 count from the end, so the loop
    may go through the path twice; [fuel] is enough for it. *)
Fixpoint search (fuel : nat) (stop : ascii -> bool) (path : list ascii) (x : Z) : res Z :=
  match fuel with
  | O => Err OutOfFuel
  | S f => do a <- py_index path x; if stop a then Ok x else search f stop path (x - 1)%Z
  end.
(** path[i:j] *)
Definition bound (n i : Z) : nat := Z.to_nat (Z.min n (if (i <? 0)%Z then Z.max 0 (i + n) else i)).
Definition slice {A} (l : list A) (i j : Z) : list A :=
  let n := Z.of_nat (List.length l) in firstn (bound n j - bound n i) (skipn (bound n i) l).
(** CA:1148-1154; CA:1081-1087 and CA:1113-1119 are the same. *)
Definition case_name (path : list ascii) : res (list ascii) :=
  let n := List.length path in
  do x1 <- search (2 * n + 1) is_dot path (Z.of_nat n - 1)%Z;
  do x2 <- search (2 * n + 1) is_slash path (x1 - 1)%Z;
  Ok (slice path (x2 + 1) x1).
(** The planner's results: rows of solution[0], and the container of interventions of the first scenario with, for every
    one, its clusters (branches and capacities). *)
Record planned := mkPlanned { pn_rows : list srow; pn_clusters : option (list (list (list Z * list Q))) }.
(** CA:787-801: the years of the rows that are reported. *)
Definition report_years (rows : list srow) : list Z :=
  let (p0, p1) := first_last rows in
  fold_left (fun ys i => match nth_error rows i with Some r => if existsb (Z.eqb (sr_year r)) ys then ys else ys ++ [sr_year r] | None => ys end) (p0 ++ p1) [].
(** CA:1129-1156, attest_invest_path.  Without incumbent interventions, _container[0] is IndexError. *)
Definition invest_path (path : list ascii) (numlines : nat) (P : planned) : res unit :=
  do cl <- match pn_clusters P with Some cl => Ok cl | None => Err IndexError end;
  let firsts := fold_left (fun acc x => match x with a :: _ => acc ++ [a] | [] => acc end) cl [] in
  do _ <- case_name path;
  save_interventions (fun y => existsb (Z.eqb y) (report_years (pn_rows P))) numlines (map fst firsts) (map snd firsts) (pn_rows P).
