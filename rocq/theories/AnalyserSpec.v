(** What the positions of the network container and the search for islands are held to, in terms of bus
    numbers only. *)
From Coq Require Import List ZArith QArith Bool Lia Arith Permutation Relation_Operators.
From Verif Require Import Base Parameters.
Import ListNotations.
Open Scope list_scope.

(** The data of the elements apart from positions. *)
Definition no_refs : refs := mkRefs [] [] [] [] [].
Definition bare_bus (b : bus) : bus := mkBus (b_no b) 0 (b_kv b) (b_p b) (b_q b) (b_ntl b) (b_zone b) (b_nos b) no_refs.
Definition bare_series (s : series) : series :=
  mkSeries (s_no s) 0 (s_ends s) [] (s_on s) (s_b s) (s_r s) (s_x s) (s_limit s) (s_ntl s).
Definition bare_gen (g : gen) : gen := mkGen (g_name g) 0 (g_bus g) 0.
(** The numbers of the buses. *)
Definition numbers (N : net) : list nat := map b_no (n_bus N).

(** A network whose numbers are in order: bus numbers and, per kind, element numbers are distinct; lines and
    transformers have two different ends, which are buses; the elements listed by a bus are those with an end at
    it (it may list others that are not there); a bus lists, for every kind of generation, its own number, at
    least as often as there are generators at it. *)
Record wf (N : net) : Prop := mkWf {
  wf_bus : NoDup (numbers N);
  wf_no : forall k, NoDup (map s_no (els k N));
  wf_ends : forall k s, In s (els k N) ->
    exists a b, s_ends s = [a; b] /\ a <> b /\ In a (numbers N) /\ In b (numbers N);
  wf_refs : forall k s b, In s (els k N) -> In b (n_bus N) -> (In (s_no s) (sref k (b_nos b)) <-> In (b_no b) (s_ends s));
  wf_gens : forall k b, In b (n_bus N) ->
    Forall (eq (b_no b)) (gref k (b_nos b)) /\
    (length (filter (fun g => g_bus g =? b_no b) (gens k N)) <= length (gref k (b_nos b)))%nat }.

(** Two bus numbers are linked by an element in service; connected by a chain of them. *)
Definition linked (N : net) (a b : nat) : Prop :=
  exists k s, In s (els k N) /\ s_on s = true /\ In a (s_ends s) /\ In b (s_ends s).
Definition connected (N : net) : nat -> nat -> Prop := clos_refl_trans nat (linked N).

(** The order of networkx: the same classes, listed in any order, each in any order. *)
Definition same_classes (P Q : list (list nat)) : Prop := exists P', Permutation P P' /\ Forall2 (@Permutation nat) P' Q.

(** What is reported per kind. *)
Definition gpick (k : gkind) (G : list gen * list gen * list gen) : list gen :=
  match k with Conv => fst (fst G) | Res => snd (fst G) | Hydro => snd G end.
Definition opick (k : skind) (P : list series * list series) : list series := match k with Lines => fst P | Trafos => snd P end.
(** Some element is in service. *)
Definition in_service (N : net) : Prop := exists k s, In s (els k N) /\ s_on s = true.
(** A generator at a bus of the network. *)
Definition housed (N : net) (g : gen) : bool := existsb (Nat.eqb (g_bus g)) (numbers N).
