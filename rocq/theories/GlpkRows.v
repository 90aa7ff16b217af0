(** The commands for a row with its coefficients, for bounds of columns and for coefficients of the objective, as the loops of
    pyensys/engines/pyene_Models.py emit them: the coefficients of a row, then its bound (PM:2067-2085, for example). *)
From Coq Require Import List String Bool Arith ZArith QArith.
From Verif Require Import Base Glpk GlpkSpec.
Import ListNotations.
Open Scope nat_scope.
Open Scope list_scope.

(** A row: its place, its terms and its bound. *)
Definition rowspec := (place * list (place * Q) * bnd)%type.
Definition rs_place (r : rowspec) : place := fst (fst r).
Definition rs_terms (r : rowspec) : list (place * Q) := snd (fst r).
Definition rs_bnd (r : rowspec) : bnd := snd r.
Definition row_entry (p : place) (t : place * Q) : cmd := Entry (fst p) (snd p) (fst (fst t)) (snd (fst t)) (snd t).
Definition row_cmds (r : rowspec) : list cmd := map (row_entry (rs_place r)) (rs_terms r) ++ [RowBnd (fst (rs_place r)) (snd (rs_place r)) (rs_bnd r)].
Definition col_cmd (b : place * bnd) : cmd := ColBnd (fst (fst b)) (snd (fst b)) (snd b).
Definition obj_cmd (b : place * Q) : cmd := Obj (fst (fst b)) (snd (fst b)) (snd b).
