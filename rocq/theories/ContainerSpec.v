(** Independent vocabulary for the container properties: operation histories
    and what a reader expects to find after them. *)
From Coq Require Import List String Bool.
From Verif Require Import Base Container.
Import ListNotations.
Open Scope list_scope.

Section Spec.
Context {V : Type}.

(** What a client does to one container. *)
Inductive op :=
| Append (k : string) (v : V)
| SetItem (k : string) (v : V)
| Pop (k : string)
| Extend (kvs : list (string * V)).

(** The value an observer expects for [k] after a history, oldest operation
    first: the last write wins unless it was popped since. *)
Fixpoint last_in (k : string) (kvs : list (string * V)) (dflt : option V) : option V :=
  match kvs with
  | [] => dflt
  | (k', v) :: r => last_in k r (if String.eqb k' k then Some v else dflt)
  end.

Fixpoint expected (k : string) (h : list op) (cur : option V) : option V :=
  match h with
  | [] => cur
  | Append k' v :: r | SetItem k' v :: r =>
      expected k r (if String.eqb k' k then Some v else cur)
  | Pop k' :: r => expected k r (if String.eqb k' k then None else cur)
  | Extend kvs :: r => expected k r (last_in k kvs cur)
  end.

(** Driving a container: a call that raises leaves the container as it was. *)
Definition apply (mk : list (string * V) -> adc V) (c : adc V) (o : op) : adc V :=
  match (match o with
         | Append k v => adc_append c k v
         | SetItem k v => adc_setitem c k v
         | Pop k => do r <- adc_pop c k; Ok (snd r)
         | Extend kvs => adc_extend c (mk kvs)
         end) with
  | Ok c' => c'
  | Err _ => c
  end.

Definition dict_of (kvs : list (string * V)) : adc V := mk_adc (SDict kvs) true false.
Definition list_of (kvs : list (string * V)) : adc V := mk_adc (SList kvs) false true.

Definition drive mk (c : adc V) (h : list op) : adc V := fold_left (apply mk) h c.

(** Histories in which [append] and [extend] bring new keys only and
    assignment is used for existing keys only. *)
Fixpoint disciplined (before h : list op) : Prop :=
  match h with
  | [] => True
  | o :: r =>
      match o with
      | Append k _ => expected k before None = None
      | SetItem k _ => expected k before None <> None
      | Pop _ => True
      | Extend kvs => NoDup (map fst kvs) /\ forall k, In k (map fst kvs) -> expected k before None = None
      end /\ disciplined (before ++ [o]) r
  end.

(** The keys a node sequence gets when stored as a graph path: "0", "1", ... *)
Definition path_of (ns : list V) : list (string * V) :=
  combine (map str_nat (seq 0 (List.length ns))) ns.

(** Number of elements of a list equal to [x]. *)
Fixpoint count_occ_b {A : Type} (eqb : A -> A -> bool) (l : list A) (x : A) : nat :=
  match l with
  | [] => 0
  | y :: r => if eqb x y then S (count_occ_b eqb r x) else count_occ_b eqb r x
  end.

Definition is_prefix (a b : list V) : Prop := exists c, b = a ++ c.

End Spec.
Arguments op V : clear implicits.
