(** Model of the reader of workbooks, class excel2pyene of pyensys/engines/pyeneI.py (PI): the balance tree.
    Simplifications: those of ExcelSheet.v. *)
From Coq Require Import List String Bool Arith ZArith QArith.
From Verif Require Import Base ExcelSheet.
Import ListNotations.
Open Scope string_scope.
Open Scope nat_scope.
Open Scope list_scope.

(** PI:895-900: a parameter of the tree; positions begin with 1. *)
Record treeinfo := mkTree { ti_name : string; ti_level : cell; ti_pos : nat; ti_value : cell }.

(** PI:1765: the same parameter, level and position. *)
Definition same_place (name : string) (level : cell) (pos : nat) (t : treeinfo) : bool :=
  (ti_name t =? name)%string && cell_eqb (ti_level t) level && (ti_pos t =? pos).
(** PI:1753-1769: a parameter that is there gets the new value. *)
Fixpoint revise (name : string) (level : cell) (pos : nat) (v : cell) (l : list treeinfo) : list treeinfo :=
  match l with
  | [] => []
  | t :: r => if same_place name level pos t then mkTree (ti_name t) (ti_level t) (ti_pos t) v :: r else t :: revise name level pos v r
  end.
(** PI:1791-1796: strings in lower case. *)
Definition tree_value (v : cell) : cell := match v with CStr s => CStr (lower s) | _ => v end.
(** PI:1788-1796: one value; the position moves on only if the parameter is new. *)
Definition tree_cell (name : string) (level : cell) (st : list treeinfo * nat) (v : cell) : list treeinfo * nat :=
  let (l, pos) := st in
  if existsb (same_place name level pos) l then (revise name level pos (tree_value v) l, pos)
  else (l ++ [mkTree name level pos (tree_value v)], S pos).
(** PI:1786-1800: the row of a level. *)
Definition tree_row (name : string) (l : list treeinfo) (level : cell) (row : list (option cell)) : list treeinfo :=
  fst (fold_left (tree_cell name level) (across row 2) (l, 1)).

(** PI:1815-1826: the titles of the blocks. *)
Definition block_name (v : option cell) : option string :=
  match v with Some (CStr s) => dget [("names", "name"); ("inputs", "input"); ("outputs", "output"); ("weights", "weight")] (lower s) | _ => None end.
(** PI:1771-1830: [Looking] for a title since some rows, or [Within] a block.  An empty cell ends the block and is looked at again
    with no tries made. *)
Inductive tmode := Looking (tries : nat) | Within (name : string).
Fixpoint tree_rows (rows : sheet) (m : tmode) (l : list treeinfo) : list treeinfo :=
  match rows with
  | [] => l
  | row :: rest =>
      let look tries := if tries <? 20 then match block_name (in_row row 1) with Some n => tree_rows rest (Within n) l | None => tree_rows rest (Looking (S tries)) l end else l in
      match m with
      | Looking tries => look tries
      | Within n => match in_row row 1 with Some level => tree_rows rest (Within n) (tree_row n l level row) | None => look 0 end
      end
  end.
(** PI:1803-1830. *)
Definition read_info_tree (l : list treeinfo) (sh : sheet) : list treeinfo := tree_rows (skipn 1 sh) (Looking 0) l.

(** PM:80-85. *)
Record treepar := mkPar { tp_name : string; tp_level : cell; tp_node : cell; tp_value : cell }.
(** PI:2420-2437: every parameter gets the name at its level and position. *)
Definition load_balance_tree (l : list treeinfo) : list treepar :=
  let names := filter (fun t => (ti_name t =? "name")%string) l in
  map (fun t => mkPar (ti_name t) (ti_level t)
         (match find (fun n => cell_eqb (ti_level n) (ti_level t) && (ti_pos n =? ti_pos t)) names with Some n => ti_value n | None => CStr "" end) (ti_value t))
      (filter (fun t => negb (ti_name t =? "name")%string) l).
