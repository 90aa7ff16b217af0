(** What the temporal energy tree should be: level [k] has the nodes [0 .. width k - 1], numbered level by level;
    node [j] of level [k] has the nodes [j * len_k + c] of the next level after it. *)
From Coq Require Import List Bool Arith ZArith QArith.
From Verif Require Import Base Cases EnergyTree.
Import ListNotations.
Open Scope nat_scope.
Open Scope list_scope.

Section Spec.
Variable lens : list nat.

Definition len (k : nat) : nat := nth k lens 0.
Fixpoint width (k : nat) : nat := match k with O => 1 | S k' => width k' * len k' end.
(** Number of nodes of the levels before [k]. *)
Fixpoint off (k : nat) : nat := match k with O => 0 | S k' => off k' + width k' end.
Definition node (k j : nat) : nat := off k + j.

Definition depth := List.length lens.
Definition is_node (k j : nat) : Prop := k <= depth /\ j < width k.

(** First and last of the nodes after a node. *)
Definition after_spec (k j : nat) : nat * nat := (node (k + 1) (j * len k), node (k + 1) (j * len k + len k) - 1).
(** The scenarios of a node. *)
Definition share (k : nat) : nat := width depth / width k.
Definition scen_spec (k j : nat) : nat * nat := (j * share k, (j + 1) * share k - 1).
Definition parent_spec (k j : nat) : nat := match k with O => 0 | S k' => node k' (j / len k') end.
(** Position of an interval in the data: the intervals of the levels one after the other, from 1 on. *)
Fixpoint base (k : nat) : nat := match k with O => 1 | S k' => base k' + len k' end.
Definition inout_spec (k j : nat) : nat := match k with O => 0 | S k' => base k' + j mod len k' end.

Variable unc : list bool.
Definition uncertain (k : nat) : bool := nth k unc false.
(** The state a node starts from: the end of its predecessor among the nodes after the same node; the begin of the node before if it is the
    first or if they are alternatives. *)
Definition fwd_spec (k j : nat) : nat * nat :=
  match k with
  | O => (0, 0)
  | S k' => if (j mod len k' =? 0) || uncertain k' then (node k' (j / len k'), 0) else (node k j - 1, 1)
  end.
(** The state a node is aggregated from: the end of the last node after it; its own begin at the last level. *)
Definition bwd_spec (k j : nat) : nat * nat :=
  if k <? depth then (node (k + 1) (j * len k + len k) - 1, 1) else (node k j, 0).

(** What a node and the nodes after it contribute to the state of charge. *)
Fixpoint net (weight input output : nat -> Q) (fuel k j : nat) : Q :=
  match fuel with
  | O => (weight (node k j) * (input (node k j) - output (node k j)))%Q
  | S f => (weight (node k j) * (input (node k j) - output (node k j) +
             fold_right Qplus 0 (map (fun c => net weight input output f (k + 1)%nat (j * len k + c)%nat) (seq 0 (len k)))))%Q
  end.
End Spec.
