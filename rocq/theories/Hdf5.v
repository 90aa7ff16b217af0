(** Model of the HDF5 writer of the older engine: pyeneHDF5Settings in pyensys/engines/pyeneO.py (PO).

    Simplifications.
    - PyTables is not modelled: of the file with the runs there are the numbers of its groups.
    - The tables of a run (other than the profiles) and of the settings are left out.
    - The results of a run are arguments: the five components of the objective, curtailment and spill. *)
From Coq Require Import List Bool Arith ZArith QArith String.
From Verif Require Import Base GraphData Cases.
Import ListNotations.
Open Scope nat_scope.
Open Scope list_scope.

(** PO:22-23: Directory1 and Directory2. *)
Record folders := mkFolders { fo_runs : option string; fo_summary : option string }.
(** PO:30-35 *)
Record sums := mkSums { su_cost : list Q; su_curtailment : Q; su_spill : Q; su_of : Q }.
Definition no_sums : sums := mkSums [0; 0; 0; 0; 0]%Q 0 0 0.
(** PO:613-617: the classes of models. *)
Inductive solved := ByPyomo (parts : list Q) (curtailment spill : Q) | ByGlpk | ByOther.

(** EN.get_OFparts (main.py:561-600) with flags: the sum of the components that are asked for. *)
Definition asked (flags : list bool) (parts : list Q) : Q := qsum (map snd (filter fst (combine flags parts))).
(** PO:535-547, Accumulate. *)
Definition accumulate (F : folders) (d : sums) (parts : list Q) (curtailment spill : Q) : sums :=
  match fo_summary F with
  | None => d
  | Some _ =>
    mkSums (fold_left (fun c x => match nth_error c x with Some q => put c x (q + asked (map (Nat.eqb x) (seq 0 5)) parts)%Q | None => c end) (seq 0 5) (su_cost d))
      (su_curtailment d + curtailment) (su_spill d + spill) (su_of d + asked (repeat true 5) parts)
  end%Q.
(** PO:627-633 and 707-713: a group that exists already is tables.NodeError. *)
Definition new_group (F : folders) (groups : list nat) (n : nat) : res (list nat) :=
  match fo_runs F with
  | None => Ok groups
  | Some _ => if existsb (Nat.eqb n) groups then Err PlainException else Ok (groups ++ [n])
  end.
(** PO:613-633 and 701-713, saveResults: runs with GLPK are not accumulated, the line is a comment. *)
Definition save_run (F : folders) (st : sums * list nat) (run : nat * solved) : res (sums * list nat) :=
  match snd run with
  | ByPyomo parts c s => do g <- new_group F (snd st) (fst run); Ok (accumulate F (fst st) parts c s, g)
  | ByGlpk => do g <- new_group F (snd st) (fst run); Ok (fst st, g)
  | ByOther => Ok st
  end.
(** PO:599-611, saveSummary: the first folder decides, the second is used. *)
Definition save_summary (F : folders) (d : sums) : res (option sums) :=
  match fo_runs F, fo_summary F with
  | None, _ => Ok None
  | Some _, None => Err TypeError
  | Some _, Some _ => Ok (Some d)
  end.
(** The runs of a study and its summary. *)
Definition study (F : folders) (runs : list (nat * solved)) : res (option sums * list nat) :=
  do st <- foldM (save_run F) runs (no_sums, []);
  do s <- save_summary F (fst st);
  Ok (s, snd st).

(** PO:634-652: a table of profiles, with a counter over the list. *)
Definition profile_row (scale : Q) (flat : list Q) (nt xp : nat) : res (list Q * nat) :=
  foldM (fun st _ => do v <- at_ flat (snd st); Ok (fst st ++ [(v * scale)%Q], S (snd st))) (seq 0 nt) ([], xp).
Definition profile_table (scale : Q) (flat : list Q) (ns nt : nat) : res (list (list Q)) :=
  do st <- foldM (fun st _ => do r <- profile_row scale flat nt (snd st); Ok (fst st ++ [fst r], snd r)) (seq 0 ns) ([], 0);
  Ok (fst st).
