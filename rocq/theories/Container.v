(** Model of pyensys/DataContainersInterface/AbstractDataContainer.py and
    OperationsAbstractDataContainer.py.

    A container holds [None], a Python dict or a Python list of two-element
    lists [[key, value]], plus the two mode flags.  A dict is an association
    list in insertion order (Python >= 3.7 semantics).  Values are compared
    with a boolean equality [veq] passed as an argument (Python's [==] on the
    values; simplification: it never raises). *)
From Coq Require Import List String Bool Arith.
From Verif Require Import Base.
Import ListNotations.
Open Scope list_scope.

Section Ops.
Context {V : Type}.
Definition items := list (string * V).

(* ------------------------------------------------------------------ *)
(** ** list mode: operations on the list of [key, value] pairs *)

(** AbstractDataContainer.py:14-16 and 113-116: first match, None otherwise. *)
Fixpoint l_get (k : string) (l : items) : option V :=
  match l with
  | [] => None
  | (k', v) :: l' => if String.eqb k' k then Some v else l_get k l'
  end.

(** AbstractDataContainer.py:22-24: every match is overwritten. *)
Fixpoint l_set (k : string) (v : V) (l : items) : items :=
  match l with
  | [] => []
  | (k', v') :: l' => (if String.eqb k' k then (k', v) else (k', v')) :: l_set k v l'
  end.

(** AbstractDataContainer.py:107. *)
Definition l_append (k : string) (v : V) (l : items) : items := l ++ [(k, v)].

(** AbstractDataContainer.py:139-142: position of the last match. *)
Fixpoint l_last_pos (k : string) (l : items) : option nat :=
  match l with
  | [] => None
  | (k', _) :: l' =>
      match l_last_pos k l' with
      | Some n => Some (S n)
      | None => if String.eqb k' k then Some 0 else None
      end
  end.

(** Python's [list.pop(i)] for a valid position. *)
Fixpoint remove_at (n : nat) (l : items) : items :=
  match n, l with
  | _, [] => []
  | O, _ :: l' => l'
  | S n', x :: l' => x :: remove_at n' l'
  end.

(** AbstractDataContainer.py:138-145. *)
Definition l_pop (k : string) (l : items) : res (V * items) :=
  match l_last_pos k l with
  | None => Err KeyError
  | Some n => match nth_error l n with
              | Some (_, v) => Ok (v, remove_at n l)
              | None => Err IndexError
              end
  end.

(* ------------------------------------------------------------------ *)
(** ** dictionary mode: Python dict operations on insertion-ordered pairs *)

Definition d_get := l_get.

(** [d[k] = v]: an existing key keeps its place. *)
Fixpoint d_set (k : string) (v : V) (l : items) : items :=
  match l with
  | [] => [(k, v)]
  | (k', v') :: l' => if String.eqb k' k then (k', v) :: l' else (k', v') :: d_set k v l'
  end.

Fixpoint d_remove (k : string) (l : items) : items :=
  match l with
  | [] => []
  | (k', v') :: l' => if String.eqb k' k then l' else (k', v') :: d_remove k l'
  end.

(** [dict.pop(k)] without default. *)
Definition d_pop (k : string) (l : items) : res (V * items) :=
  match d_get k l with
  | Some v => Ok (v, d_remove k l)
  | None => Err KeyError
  end.

(** [dict.update(other)]. *)
Definition d_update (l other : items) : items :=
  fold_left (fun acc kv => d_set (fst kv) (snd kv) acc) other l.

(* ------------------------------------------------------------------ *)
(** ** the container object *)

(** The attribute [_container]. *)
Inductive storage :=
| SNone
| SDict (l : items)
| SList (l : items).

(** AbstractDataContainer.py:5-8. *)
Record adc := mk_adc { container : storage; is_dict : bool; is_list : bool }.

Definition adc_new : adc := mk_adc SNone false false.

(** AbstractDataContainer.py:95-97; the other flag is left alone. *)
Definition create_dictionary (c : adc) : adc := mk_adc (SDict []) true (is_list c).

(** AbstractDataContainer.py:99-101; the other flag is left alone. *)
Definition create_list (c : adc) : adc := mk_adc (SList []) (is_dict c) true.

Definition with_container (c : adc) (s : storage) : adc := mk_adc s (is_dict c) (is_list c).

(** AbstractDataContainer.py:10-16.  [Ok None] is Python's [None].  The
    branches in which a flag and the stored object disagree (both create
    methods called) follow Python: a str index into a list raises TypeError,
    iterating a dict yields its keys, and [item[0]] is then the first
    character of the key - modelled as never equal to a longer key and
    simplified to TypeError for dict storage reached through the list flag;
    that state cannot arise, see [reachable_good] in ContainerProofs.v. *)
Definition adc_getitem (c : adc) (k : string) : res (option V) :=
  if is_dict c then
    match container c with
    | SDict l => match d_get k l with Some v => Ok (Some v) | None => Err KeyError end
    | SList _ => Err TypeError
    | SNone => Err TypeError
    end
  else if is_list c then
    match container c with
    | SList l => Ok (l_get k l)
    | _ => Err TypeError
    end
  else Ok None.

(** AbstractDataContainer.py:18-24. *)
Definition adc_setitem (c : adc) (k : string) (v : V) : res adc :=
  if is_dict c then
    match container c with
    | SDict l => Ok (with_container c (SDict (d_set k v l)))
    | _ => Err TypeError
    end
  else if is_list c then
    match container c with
    | SList l => Ok (with_container c (SList (l_set k v l)))
    | _ => Err TypeError
    end
  else Ok c.

(** AbstractDataContainer.py:26-38, one complete loop: the items yielded by
    [for key, value in c].  A never-created container has no iterator and
    [next] returns None forever, so unpacking raises TypeError. *)
Definition adc_iter (c : adc) : res items :=
  if is_dict c then
    match container c with
    | SDict l => Ok l
    | _ => Err AttributeError
    end
  else if is_list c then
    match container c with
    | SList l => Ok l
    | _ => Err TypeError
    end
  else Err TypeError.

(** AbstractDataContainer.py:40-44. *)
Definition adc_len (c : adc) : nat :=
  match container c with
  | SNone => 0
  | SDict l | SList l => List.length l
  end.

(** AbstractDataContainer.py:103-107. *)
Definition adc_append (c : adc) (k : string) (v : V) : res adc :=
  if is_dict c then
    match container c with
    | SDict l => Ok (with_container c (SDict (d_set k v l)))
    | _ => Err TypeError
    end
  else if is_list c then
    match container c with
    | SList l => Ok (with_container c (SList (l_append k v l)))
    | _ => Err AttributeError
    end
  else Ok c.

(** AbstractDataContainer.py:109-116. *)
Definition adc_get (c : adc) (k : string) : res (option V) :=
  if is_dict c then
    match container c with
    | SDict l => Ok (d_get k l)
    | _ => Err AttributeError
    end
  else if is_list c then
    match container c with
    | SList l => Ok (l_get k l)
    | _ => Err TypeError
    end
  else Ok None.

(** AbstractDataContainer.py:118-122 ([None] when never created). *)
Definition adc_values (c : adc) : res (option (list V)) :=
  if is_dict c then
    match container c with
    | SDict l => Ok (Some (map snd l))
    | _ => Err AttributeError
    end
  else if is_list c then
    match container c with
    | SList l => Ok (Some (map snd l))
    | _ => Err TypeError
    end
  else Ok None.

(** AbstractDataContainer.py:124-133. *)
Definition adc_extend (c other : adc) : res adc :=
  if is_dict c && is_dict other then
    match container c, container other with
    | SDict l, SDict l' => Ok (with_container c (SDict (d_update l l')))
    | _, _ => Err AttributeError
    end
  else if is_list c && is_list other then
    match container c, container other with
    | SList l, SList l' => Ok (with_container c (SList (l ++ l')))
    | _, _ => Err AttributeError
    end
  else Err TypeError.

(** AbstractDataContainer.py:135-145 (the popped value, and None when never
    created). *)
Definition adc_pop (c : adc) (k : string) : res (option V * adc) :=
  if is_dict c then
    match container c with
    | SDict l => do r <- d_pop k l;
                 Ok (Some (fst r), with_container c (SDict (snd r)))
    | _ => Err TypeError
    end
  else if is_list c then
    match container c with
    | SList l => do r <- l_pop k l;
                 Ok (Some (fst r), with_container c (SList (snd r)))
    | _ => Err TypeError
    end
  else Ok (None, c).

(* ------------------------------------------------------------------ *)
(** ** comparisons *)

Section Eq.
Variable veq : V -> V -> bool.

(** [[k1, v1] == [k2, v2]]. *)
Definition item_eqb (a b : string * V) : bool :=
  String.eqb (fst a) (fst b) && veq (snd a) (snd b).

(** [item in list]. *)
Definition item_in (a : string * V) (l : items) : bool := existsb (item_eqb a) l.

(** AbstractDataContainer.py:89-93 (self is [l], other is [l']). *)
Definition compare_lists (l l' : items) : bool := forallb (fun it => item_in it l) l'.

(** AbstractDataContainer.py:83-87. *)
Definition compare_dictionaries (l l' : items) : bool :=
  forallb (fun it => match d_get (fst it) l with
                     | Some v => veq v (snd it)
                     | None => false
                     end) l'.

(** [list == list] of items. *)
Fixpoint list_eqb (l l' : items) : bool :=
  match l, l' with
  | [], [] => true
  | a :: l, b :: l' => item_eqb a b && list_eqb l l'
  | _, _ => false
  end.

(** [dict == dict]: same number of keys and the same value for each key. *)
Definition dict_eqb (l l' : items) : bool :=
  Nat.eqb (List.length l) (List.length l') && compare_dictionaries l l'.

(** [self._container == other._container]. *)
Definition storage_eqb (s s' : storage) : bool :=
  match s, s' with
  | SNone, SNone => true
  | SDict l, SDict l' => dict_eqb l l'
  | SList l, SList l' => list_eqb l l'
  | _, _ => false
  end.

(** AbstractDataContainer.py:46-56. *)
Definition adc_eq (a b : adc) : res bool :=
  if (is_dict a && is_dict b) || (is_list a && is_list b) then
    Ok (storage_eqb (container a) (container b))
  else if negb (is_dict a) && negb (is_list a) && negb (is_dict b) && negb (is_list b) then
    Ok true
  else Err TypeError.

(** AbstractDataContainer.py:58-66. *)
Definition adc_ne (a b : adc) : res bool :=
  if (is_dict a && is_dict b) || (is_list a && is_list b) then
    Ok (negb (storage_eqb (container a) (container b)))
  else Err TypeError.

(** AbstractDataContainer.py:68-77: [other in self]. *)
Definition adc_contains (self other : adc) : res bool :=
  if is_dict self && is_dict other then
    match container self, container other with
    | SDict l, SDict l' => Ok (compare_dictionaries l l')
    | _, _ => Err AttributeError
    end
  else if is_list self && is_list other then
    match container self, container other with
    | SList l, SList l' => Ok (compare_lists l l')
    | _, _ => Err TypeError
    end
  else Err TypeError.

(** OperationsAbstractDataContainer.py:33-39. *)
Definition difference_lists (l1 l2 : items) : items :=
  filter (fun it => negb (item_in it l2)) l1.

(** OperationsAbstractDataContainer.py:42-50.  [isnone] tells whether a value
    is Python's None; [difference._container.pop(key)] may raise KeyError in
    principle. *)
Definition difference_dicts (isnone : V -> bool) (l1 l2 : items) : res items :=
  foldM (fun diff kv =>
           match d_get (fst kv) l1 with
           | Some v => if negb (isnone v) && veq v (snd kv)
                       then do r <- d_pop (fst kv) diff; Ok (snd r)
                       else Ok diff
           | None => Ok diff
           end) l2 l1.

(** OperationsAbstractDataContainer.py:7-30. *)
Definition adc_difference (isnone : V -> bool) (a b : adc) : res adc :=
  if is_dict a && is_dict b then
    match container a, container b with
    | SDict l1, SDict l2 => do d <- difference_dicts isnone l1 l2; Ok (with_container a (SDict d))
    | _, _ => Err AttributeError
    end
  else if is_list a && is_list b then
    match container a, container b with
    | SList l1, SList l2 => Ok (with_container a (SList (difference_lists l1 l2)))
    | _, _ => Err TypeError
    end
  else Err TypeError.
End Eq.
End Ops.
Arguments items V : clear implicits.
Arguments storage V : clear implicits.
Arguments adc V : clear implicits.
