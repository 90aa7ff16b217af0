(** What the reduction of a network is held to, in terms of bus numbers. *)
From Coq Require Import List ZArith QArith Bool Lia Arith Permutation Relation_Operators.
From Verif Require Import Base GraphData Parameters AnalyserSpec.
Import ListNotations.
Open Scope list_scope.

Section Level.
Variables (three vol : Q) (N : net).
(** A bus below the voltage asked for, or inside a three winding transformer. *)
Definition is_low (b : bus) : Prop := (b_kv b < vol \/ b_kv b == three)%Q.
Definition low_no (a : nat) : Prop := exists b, In b (n_bus N) /\ b_no b = a /\ is_low b.
Definition high_no (a : nat) : Prop := exists b, In b (n_bus N) /\ b_no b = a /\ ~ is_low b.
(** Joined by an element, in service or not, both ends below; by a chain of them. *)
Definition low_link (a b : nat) : Prop := low_no a /\ low_no b /\ exists k s, In s (els k N) /\ In a (s_ends s) /\ In b (s_ends s).
Definition low_connected : nat -> nat -> Prop := clos_refl_trans nat low_link.
End Level.
(** Joined by elements, in service or not. *)
Definition any_link (N : net) (a b : nat) : Prop := exists k s, In s (els k N) /\ In a (s_ends s) /\ In b (s_ends s).
Definition joined_by_any (N : net) : nat -> nat -> Prop := clos_refl_trans nat (any_link N).
(** Totals. *)
Definition total_p (N : net) : Q := qsum (map b_p (n_bus N)).
Definition total_q (N : net) : Q := qsum (map b_q (n_bus N)).
(** The numbers of the buses, and the elements, at positions. *)
Definition nos_at (N : net) (l : list nat) : list nat := flat_map (fun p => match nth_error (n_bus N) p with Some b => [b_no b] | None => [] end) l.
Definition els_at (k : skind) (N : net) (l : list nat) : list series := flat_map (fun x => match nth_error (els k N) x with Some s => [s] | None => [] end) l.
(** An element with an end at, or all ends at, buses of the level. *)
Definition upper (three vol : Q) (N : net) (a : nat) : bool :=
  existsb (fun b => (b_no b =? a)%nat && Qle_bool vol (b_kv b) && negb (Qeq_bool (b_kv b) three)) (n_bus N).
Definition crossing_up (three vol : Q) (N : net) (s : series) : bool := existsb (upper three vol N) (s_ends s).
Definition all_up (three vol : Q) (N : net) (s : series) : bool := forallb (upper three vol N) (s_ends s).
(** The buses at positions, and what they ask for; the part whose only neighbour is a bus. *)
Definition buses_at (N : net) (l : list nat) : list bus := flat_map (fun p => match nth_error (n_bus N) p with Some b => [b] | None => [] end) l.
Definition part_p (N : net) (l : list nat) : Q := qsum (map b_p (buses_at N l)).
Definition part_q (N : net) (l : list nat) : Q := qsum (map b_q (buses_at N l)).
Definition only_at (N : net) (coupling : list nat) (a : nat) : bool := match nos_at N coupling with [c] => (c =? a)%nat | _ => false end.
(** The data of an element. *)
Definition data (s : series) : Q * Q * Q * Q * option Q := (s_b s, s_r s, s_x s, s_limit s, s_ntl s).
(** Non technical losses of buses, lines and transformers. *)
Definition total_losses (N : net) : Q :=
  (qsum (map b_ntl (n_bus N)) + qsum (map (fun s => match s_ntl s with Some q => q | None => 0%Q end) (n_lines N ++ n_trafos N)))%Q.
(** A bus that can stand for the part of a bus below the level: one of the buses next to that part, when it is alone, or a bus
    joined to all of them. *)
Definition stands_for (three vol : Q) (N M : net) (h a : nat) : Prop :=
  In h (numbers M) /\ forall a' c, low_connected three vol N a a' -> high_no three vol N c -> any_link N a' c -> h = c \/ any_link M h c.
