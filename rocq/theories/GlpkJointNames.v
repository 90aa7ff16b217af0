(** The names of the links between the tree and the network. *)
From Coq Require Import List String Ascii Bool Arith Lia Decimal DecimalNat DecimalFacts DecimalString.
From Verif Require Import Base ContainerProofs Glpk GlpkJoint.
Import ListNotations.
Open Scope nat_scope.

Lemma append_inj a b c : (a ++ b = a ++ c)%string -> b = c.
Proof. induction a as [|x a IH]; cbn; intros E; [exact E|]. injection E as E. auto. Qed.
Lemma append_last a b x y : (a ++ String x "" = b ++ String y "")%string -> a = b /\ x = y.
Proof.
  revert b. induction a as [|u a IH]; intros [|v b] E; cbn in E.
  - injection E as ->. auto.
  - injection E as -> E. destruct b; discriminate E.
  - injection E as -> E. destruct a; discriminate E.
  - injection E as -> E. destruct (IH b E) as (-> & ->). auto.
Qed.
Lemma digit n : n < 10 -> exists x, str_nat n = String x "".
Proof. intros L. do 10 (destruct n as [|n]; [eexists; reflexivity|]). lia. Qed.
(** A numeral is not empty, and only that of zero begins with zero. *)
Lemma numeral_lead n r : str_nat n = String "0" r -> r = ""%string.
Proof.
  unfold str_nat. assert (U : unorm (Nat.to_uint n) = Nat.to_uint n) by (rewrite <- Unsigned.to_of; now rewrite Unsigned.of_to).
  destruct (Nat.to_uint n) as [|u|u|u|u|u|u|u|u|u|u]; cbn [NilEmpty.string_of_uint]; intros E; try discriminate E. injection E as <-.
  unfold unorm in U. cbn [nzhead] in U. destruct (nzhead u) eqn:Z; try discriminate U.
  - injection U as <-. reflexivity.
  - exfalso. exact (nzhead_nonzero u u0 Z).
Qed.
Lemma numeral_some n : str_nat n <> ""%string.
Proof.
  intros E. assert (H : str_nat n = NilEmpty.string_of_uint Nil) by exact E. unfold str_nat in H. pose proof (f_equal NilEmpty.uint_of_string H) as G. rewrite !NilEmpty.usu in G. injection G as G. assert (U : unorm (Nat.to_uint n) = Nat.to_uint n) by (rewrite <- Unsigned.to_of; now rewrite Unsigned.of_to). rewrite G in U. discriminate U.
Qed.

Theorem names_injective V D : V <= 11 \/ D <= 10 -> forall i j i' j', i < V -> j < D -> i' < V -> j' < D -> link_row i j = link_row i' j' -> i = i' /\ j = j'.
Proof.
  intros H i j i' j' Hi Hj Hi' Hj' E. unfold link_row in E. apply (f_equal fst) in E. cbn [fst] in E. apply append_inj in E. destruct H as [H|H].
  - assert (A : i < 11) by lia. assert (A' : i' < 11) by lia. clear Hi Hi' H. assert (EQ : i = i').
    { assert (Z : forall r k, (String "0" r = str_nat k)%string -> r = ""%string) by (intros r k G; exact (numeral_lead k r (eq_sym G))).
      do 11 (destruct i as [|i]; [do 11 (destruct i' as [|i']; [first [reflexivity|exfalso; cbn in E; first [discriminate E|injection E as E; first [apply Z in E|apply eq_sym, Z in E]; exact (numeral_some _ E)]]|]); lia|]). lia. }
    subst i'. apply append_inj in E. apply str_nat_inj in E. auto.
  - destruct (digit j ltac:(lia)) as (x & X), (digit j' ltac:(lia)) as (y & Y). rewrite X, Y in E. apply append_last in E as (E & ->). apply str_nat_inj in E. rewrite <- Y in X. apply str_nat_inj in X. auto.
Qed.
Lemma names_collide : link_row 11 0 = link_row 1 10.
Proof. reflexivity. Qed.
