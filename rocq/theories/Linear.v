(** Linear expressions and constraints of a pyomo model, over any set of variables.  The solver is not modelled: an
    answer is any assignment of the variables that satisfies the constraints. *)
From Coq Require Import List QArith.
From Verif Require Import Base.
Import ListNotations.
Open Scope nat_scope.
Open Scope list_scope.

Inductive expr (V : Type) := EK (q : Q) | EV (v : V) | EAdd (a b : expr V) | ESub (a b : expr V) | EMul (q : Q) (a : expr V).
Arguments EK {V} q.
Arguments EV {V} v.
Arguments EAdd {V} a b.
Arguments ESub {V} a b.
Arguments EMul {V} q a.
Inductive constr (V : Type) := CLe (a b : expr V) | CEq (a b : expr V).
Arguments CLe {V} a b.
Arguments CEq {V} a b.
(** sum(...) *)
Definition esum {V} (l : list (expr V)) : expr V := fold_left EAdd l (EK 0).
Fixpoint eval {V} (s : V -> Q) (e : expr V) : Q :=
  match e with
  | EK q => q
  | EV v => s v
  | EAdd a b => eval s a + eval s b
  | ESub a b => eval s a - eval s b
  | EMul q a => q * eval s a
  end%Q.
Definition sat {V} (s : V -> Q) (c : constr V) : Prop :=
  match c with CLe a b => eval s a <= eval s b | CEq a b => eval s a == eval s b end%Q.
(** Constraint(..., rule): the rule for every member of the index set; [None] is Constraint.Skip. *)
Definition somes {A} (l : list (option A)) : list A := flat_map (fun o => match o with Some a => [a] | None => [] end) l.
Definition family {V A} (f : A -> res (option (constr V))) (l : list A) : res (list (constr V)) := do r <- mapM f l; Ok (somes r).
