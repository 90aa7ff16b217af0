(** Two finer models of AbstractDataContainer.py in which object identity
    matters: the single iterator stored inside the object, and the mutable
    two-element lists that a list-mode container holds. *)
From Coq Require Import List String Bool Arith.
From Verif Require Import Base Container ContainerSpec.
Import ListNotations.
Open Scope list_scope.

(* ------------------------------------------------------------------ *)
(** ** Iteration *)
Section Iter.
Context {A : Type}.

(** Read-only code over a family of container objects numbered by [nat]:
    [Peek o] is [for x in o: break] (equivalently [any(True for _ in o)]);
    [For o i body] is [for x in o: record (i, x); body]. *)
Inductive stmt :=
| Peek (o : nat)
| For (o : nat) (i : nat) (body : list stmt).

(** The contents of every object (read-only code does not change it). *)
Variable env : nat -> list A.

(** [_container_iterator] of every object: the index of the next item.  An
    index beyond the end is an exhausted iterator. *)
Definition iters := nat -> nat.
Definition upd (p : iters) (o n : nat) : iters := fun x => if Nat.eqb x o then n else p x.

(** AbstractDataContainer.py:26-31: [__iter__] replaces the object's iterator and
    returns the object itself. *)
Definition m_iter (p : iters) (o : nat) : iters := upd p o 0.

(** AbstractDataContainer.py:33-38: [__next__]; [None] is StopIteration. *)
Definition m_next (p : iters) (o : nat) : option A * iters :=
  match nth_error (env o) (p o) with
  | Some x => (Some x, upd p o (S (p o)))
  | None => (None, p)
  end.

(** Python's [for] statement over these methods, with a step budget
    ([None] = budget exhausted).  The trace records every item each loop
    (identified by its tag) received. *)
Fixpoint exec (fuel : nat) (s : stmt) (p : iters) : option (list (nat * A) * iters) :=
  match fuel with
  | 0 => None
  | S f =>
      match s with
      | Peek o => Some ([], snd (m_next (m_iter p o) o))
      | For o i body => exec_loop f o i body (m_iter p o)
      end
  end
with exec_loop (fuel : nat) (o i : nat) (body : list stmt) (p : iters) :=
  match fuel with
  | 0 => None
  | S f =>
      match m_next p o with
      | (None, p') => Some ([], p')
      | (Some x, p') =>
          match exec_list f body p' with
          | None => None
          | Some (t, p'') =>
              match exec_loop f o i body p'' with
              | None => None
              | Some (t', p''') => Some ((i, x) :: t ++ t', p''')
              end
          end
      end
  end
with exec_list (fuel : nat) (l : list stmt) (p : iters) :=
  match fuel with
  | 0 => None
  | S f =>
      match l with
      | [] => Some ([], p)
      | s :: l' =>
          match exec f s p with
          | None => None
          | Some (t, p') =>
              match exec_list f l' p' with
              | None => None
              | Some (t', p'') => Some (t ++ t', p'')
              end
          end
      end
  end.

(** Items received by the loop tagged [i]. *)
Definition seen (i : nat) (t : list (nat * A)) : list A :=
  map snd (filter (fun e => Nat.eqb (fst e) i) t).

(** [s] iterates over object [o] / contains a loop tagged [i]. *)
Fixpoint iterates (o : nat) (s : stmt) : bool :=
  match s with
  | Peek o' => Nat.eqb o' o
  | For o' _ body => Nat.eqb o' o || existsb (iterates o) body
  end.
Fixpoint tagged (i : nat) (s : stmt) : bool :=
  match s with
  | Peek _ => false
  | For _ j body => Nat.eqb j i || existsb (tagged i) body
  end.
End Iter.

(* ------------------------------------------------------------------ *)
(** ** List-mode containers as lists of references to [key, value] cells *)
Section Heap.
Context {V : Type}.

Definition addr := nat.
(** The heap of two-element lists; the next free address is its length. *)
Definition heap := list (string * V).
Definition cont := list addr.

(** What the container holds, read through the heap. *)
Definition view (h : heap) (c : cont) : items V :=
  flat_map (fun a => match nth_error h a with Some kv => [kv] | None => [] end) c.

(** AbstractDataContainer.py:107: [self._container.append([key, value])]
    creates a new cell. *)
Definition h_append (h : heap) (c : cont) (k : string) (v : V) : heap * cont :=
  (h ++ [(k, v)], c ++ [List.length h]).

Fixpoint write (h : heap) (a : addr) (kv : string * V) : heap :=
  match h, a with
  | [], _ => []
  | _ :: h', 0 => kv :: h'
  | x :: h', S a' => x :: write h' a' kv
  end.

(** AbstractDataContainer.py:22-24: [item[1] = value] mutates the cell. *)
Definition h_set (h : heap) (c : cont) (k : string) (v : V) : heap :=
  fold_left (fun h a => match nth_error h a with
                        | Some (k', _) => if String.eqb k' k then write h a (k', v) else h
                        | None => h
                        end) c h.

(** AbstractDataContainer.py:129: [list.extend] copies the references. *)
Definition h_extend (c other : cont) : cont := c ++ other.

(** AbstractDataContainer.py:138-145. *)
Definition h_pop (h : heap) (c : cont) (k : string) : res (V * cont) :=
  match l_last_pos k (view h c) with
  | None => Err KeyError
  | Some n => match nth_error (view h c) n with
              | Some (_, v) => Ok (v, firstn n c ++ skipn (S n) c)
              | None => Err IndexError
              end
  end.

(** A client working on two containers a and b ([true] = a). *)
Definition h_apply (s : heap * cont * cont) (o : bool * op V) : heap * cont * cont :=
  let '(h, a, b) := s in
  let '(which, o) := o in
  let me := if which then a else b in
  let put h' c' := if which then (h', c', b) else (h', a, c') in
  match o with
  | Append k v => let (h', c') := h_append h me k v in put h' c'
  | SetItem k v => put (h_set h me k v) me
  | Pop k => match h_pop h me k with Ok (_, c') => put h c' | Err _ => s end
  | Extend kvs => (* items of a fresh container: new cells *)
      put (h ++ kvs) (me ++ seq (List.length h) (List.length kvs))
  end.

Definition h_drive (l : list (bool * op V)) : heap * cont * cont := fold_left h_apply l ([], [], []).

(** The operations addressed to one of the two containers. *)
Definition only (w : bool) (l : list (bool * op V)) : list (op V) :=
  map snd (filter (fun e => Bool.eqb (fst e) w) l).
End Heap.
