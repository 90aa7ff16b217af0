(** What is asked from the writer of results. *)
From Coq Require Import List String Bool Arith QArith.
From Verif Require Import Base Outputs.
Import ListNotations.
Open Scope string_scope.
Open Scope nat_scope.
Open Scope list_scope.

(** A value is described by a name, a place in the tree, an hour and an ID,
    in any order and among other entries. *)
Definition described (g : list cha) (n : string) (place hour : cha) (id : string) : Prop :=
  NoDup (map ch_key g) /\ (exists m, In (Cha "name" n m) g) /\ In place g /\ ch_key place = "pt" /\ In hour g /\ ch_key hour = "hour" /\
  (exists m, In (Cha "ID" id m) g).

Definition values_of (c : cha) : list string := ch_val c :: ch_more c.

(** All values have a description, with an ID that is no title. *)
Definition all_described (vs : list (Q * list cha)) : Prop :=
  forall v g, In (v, g) vs -> exists n p h i, described g n p h i /\ i <> "pt" /\ i <> "hour".

(** The values of an output at a place are told apart by hour and ID. *)
Definition told_apart (n : string) (pt : list string) (vs : list (Q * list cha)) : Prop :=
  forall v g p h i v' g' p' h' i', In (v, g) vs -> In (v', g') vs -> described g n p h i -> described g' n p' h' i' ->
    values_of p = pt -> values_of p' = pt -> String.concat "|" (values_of h) = String.concat "|" (values_of h') -> i = i' -> v = v'.

(** A value stands in a table: in the row of its place and hour, below its ID. *)
Definition shown (s : sheet) (pt : list string) (h : cha) (i : string) (v : Q) : Prop :=
  exists r c a b, 3 <= r /\ cell_at s 2 c = Some (Text i) /\ cell_at s r c = Some (Num v) /\
    cell_at s 2 a = Some (Text "pt") /\ cell_at s r a = Some (Text (String.concat "|" pt)) /\
    cell_at s 2 b = Some (Text "hour") /\ cell_at s r b = Some (Text (String.concat "|" (values_of h))).

(** What is asked from the table of an output. *)
Definition table_of (n : string) (pt : list string) (vs : list (Q * list cha)) (s : sheet) : Prop :=
  cell_at s 1 1 = Some (Text n) /\
  (forall v g p h i, In (v, g) vs -> described g n p h i -> values_of p = pt -> shown s pt h i v) /\
  (forall r c q, cell_at s r c = Some (Num q) -> exists g p h i b, In (q, g) vs /\ described g n p h i /\ values_of p = pt /\
     cell_at s 2 c = Some (Text i) /\ cell_at s 2 b = Some (Text "hour") /\ cell_at s r b = Some (Text (String.concat "|" (values_of h)))).
