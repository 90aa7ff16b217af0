(** Shared vocabulary of the model: results with exceptions, Python-style
    indexing, decimal strings. *)
From Coq Require Import List String ZArith QArith Bool Lia Decimal DecimalString DecimalNat DecimalZ.
Import ListNotations.
Open Scope string_scope.
Open Scope list_scope.

(** Python exception classes raised by the modelled code.  [OutOfFuel] is the
    only artefact of the model (a recursion bound given to a fuelled
    function was too small). *)
Inductive exn :=
| KeyError | TypeError | IndexError | AttributeError | AssertionError
| ZeroDivisionError | ValueError | NameError | UnboundLocalError
| NetworkXError | NetworkXPointlessConcept | StopIteration | PlainException | RuntimeError | SystemExit | OutOfFuel.

Inductive res (A : Type) : Type :=
| Ok (a : A)
| Err (e : exn).
Arguments Ok {A} a.
Arguments Err {A} e.

Definition rbind {A B} (x : res A) (f : A -> res B) : res B :=
  match x with Ok a => f a | Err e => Err e end.

Notation "'do' x <- m ; k" := (rbind m (fun x => k))
  (at level 200, x pattern, m at level 100, k at level 200, right associativity).

Definition is_ok {A} (r : res A) : Prop := match r with Ok _ => True | Err _ => False end.

(** [x[i]] on a Python list: negative indices count from the end. *)
Definition py_index {A} (l : list A) (i : Z) : res A :=
  let n := Z.of_nat (List.length l) in
  let j := if (i <? 0)%Z then (i + n)%Z else i in
  if (j <? 0)%Z then Err IndexError
  else match nth_error l (Z.to_nat j) with
       | Some a => Ok a
       | None => Err IndexError
       end.

(** [str(n)] for a natural number and for an integer. *)
Definition str_nat (n : nat) : string := NilEmpty.string_of_uint (Nat.to_uint n).
Definition str_Z (z : Z) : string :=
  if (z <? 0)%Z then ("-" ++ str_nat (Z.to_nat (- z)))%string else str_nat (Z.to_nat z).

(** fold with exceptions: the model of a [for] loop whose body may raise. *)
Fixpoint foldM {A S} (f : S -> A -> res S) (l : list A) (s : S) : res S :=
  match l with
  | [] => Ok s
  | a :: l' => do s' <- f s a; foldM f l' s'
  end.

Fixpoint mapM {A B} (f : A -> res B) (l : list A) : res (list B) :=
  match l with
  | [] => Ok []
  | a :: l' => do b <- f a; do bs <- mapM f l'; Ok (b :: bs)
  end.
