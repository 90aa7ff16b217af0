(** Families of constraints. *)
From Coq Require Import List QArith Lia.
From Verif Require Import Base GraphData GraphDataProofs ConverterOpen Linear.
Import ListNotations.
Open Scope nat_scope.
Open Scope list_scope.

Section Facts.
Context {V : Type}.
Implicit Types (s : V -> Q).

Lemma fold_eval s l : forall e : expr V, (eval s (fold_left EAdd l e) == eval s e + qsum (map (eval s) l))%Q.
Proof. induction l as [|x l IH]; intros e; cbn [fold_left map]; [change (qsum []) with 0%Q; ring|]. rewrite IH. cbn [eval]. change (qsum (eval s x :: map (eval s) l)) with (eval s x + qsum (map (eval s) l))%Q. ring. Qed.
Lemma esum_eval s l : (eval s (esum l) == qsum (map (eval s) l))%Q.
Proof. unfold esum. rewrite fold_eval. cbn [eval]. ring. Qed.

(** The rule gives no constraint or one that holds. *)
Definition holds s (r : res (option (constr V))) : Prop := exists o, r = Ok o /\ forall c, o = Some c -> sat s c.
Lemma somes_in {A} (l : list (option A)) a : In a (somes l) <-> In (Some a) l.
Proof. unfold somes. rewrite in_flat_map. split. - intros (x & I & J). destruct x; [|destruct J]. destruct J as [->|[]]. exact I. - intros I. exists (Some a). split; [exact I|now left]. Qed.
Lemma family_iff {A} s (f : A -> res (option (constr V))) l : (exists cs, family f l = Ok cs /\ Forall (sat s) cs) <-> forall x, In x l -> holds s (f x).
Proof.
  unfold family. split.
  - intros (cs & E & F) x I. apply bind_inv in E as (r & E & E2). injection E2 as <-. apply mapM_Ok in E. apply In_nth_error in I as (i & I).
    assert (X : exists o, nth_error r i = Some o /\ f x = Ok o). { clear F. revert i I. induction E as [|a o l r Ha E IH]; intros [|i] I; cbn in I; try discriminate; [injection I as ->; exists o; now split|apply IH; exact I]. }
    destruct X as (o & N & O). exists o. split; [exact O|]. intros c ->. rewrite Forall_forall in F. apply F, somes_in. eapply nth_error_In; eauto.
  - intros H. assert (X : exists r, mapM f l = Ok r /\ Forall (fun o => forall c, o = Some c -> sat s c) r).
    { induction l as [|x l IH]; [exists []; split; [reflexivity|constructor]|]. destruct (H x (or_introl eq_refl)) as (o & E & S). destruct IH as (r & E2 & S2); [intros y I; apply H; now right|]. exists (o :: r). cbn [mapM]. rewrite E. cbn [rbind]. rewrite E2. split; [reflexivity|now constructor]. }
    destruct X as (r & -> & F). exists (somes r). split; [reflexivity|]. rewrite Forall_forall in *. intros c I. apply somes_in in I. exact (F _ I c eq_refl).
Qed.
(** Every index gives a rule. *)
Lemma family_ok {A} (f : A -> res (option (constr V))) l : (exists cs, family f l = Ok cs) <-> forall x, In x l -> exists o, f x = Ok o.
Proof.
  unfold family. split.
  - intros (cs & E) x I. apply bind_inv in E as (r & E & _). apply mapM_Ok in E. induction E as [|a o l r Ha E IH]; [destruct I|]. destruct I as [->|I]; eauto.
  - intros H. assert (X : exists r, mapM f l = Ok r). { induction l as [|x l IH]; [exists []; reflexivity|]. destruct (H x (or_introl eq_refl)) as (o & E). destruct IH as (r & E2); [intros y I; apply H; now right|]. exists (o :: r). cbn [mapM]. rewrite E. cbn [rbind]. now rewrite E2. }
    destruct X as (r & ->). eexists; reflexivity.
Qed.
End Facts.
