(** Islands and isolated buses: the classes found are the connected parts of the network in service, and every
    element goes to the island of its buses. *)
From Coq Require Import List ZArith QArith Bool Lia Arith Permutation Relation_Operators Operators_Properties.
From Verif Require Import Base Cases Parameters Analyser AnalyserSpec GraphDataProofs ParametersProofs.
Import ListNotations.
Open Scope list_scope.
Open Scope nat_scope.

(** *** Lists *)
Lemma fromkeys_in x l : In x (fromkeys l) <-> In x l.
Proof.
  induction l as [|y l IH]; [reflexivity|]. cbn. rewrite filter_In, IH. destruct (Nat.eqb_spec x y) as [->|D]; cbn; intuition congruence.
Qed.
Lemma fromkeys_nodup l : NoDup (fromkeys l).
Proof.
  induction l as [|y l IH]; cbn; [constructor|]. constructor.
  - rewrite filter_In, Nat.eqb_refl. cbn. intuition congruence.
  - now apply nodup_filter.
Qed.
Lemma filter_none {A} (f : A -> bool) l : (forall x, In x l -> f x = false) -> filter f l = [].
Proof. induction l as [|x l IH]; intros H; [reflexivity|]. cbn. rewrite (H x) by now left. apply IH. intros y Hy. apply H. now right. Qed.
Lemma filter_all {A} (f : A -> bool) l : (forall x, In x l -> f x = true) -> filter f l = l.
Proof. induction l as [|x l IH]; intros H; [reflexivity|]. cbn. rewrite (H x) by now left. f_equal. apply IH. intros y Hy. apply H. now right. Qed.
Lemma filter_swap {A} (f g : A -> bool) l : filter f (filter g l) = filter g (filter f l).
Proof.
  induction l as [|x l IH]; [reflexivity|]. cbn. destruct (g x) eqn:G, (f x) eqn:F; cbn; rewrite ?F, ?G, ?IH; reflexivity.
Qed.
Lemma fromkeys_app l r : NoDup l -> (forall x, In x r -> In x l) -> fromkeys (l ++ r) = l.
Proof.
  intros ND H. revert r H. induction ND as [|x l Hx ND IH]; intros r H; cbn.
  - destruct r as [|y r]; [reflexivity|]. exfalso. apply (H y). now left.
  - f_equal. assert (E : forall r', (forall y, In y r' -> y = x \/ In y l) ->
      filter (fun y => negb (y =? x)) (fromkeys (l ++ r')) = l).
    { intros r' H'.
      assert (F : filter (fun y => negb (y =? x)) (fromkeys (l ++ r')) = fromkeys (l ++ filter (fun y => negb (y =? x)) r')).
      { assert (C : forall u, filter (fun y => negb (y =? x)) (fromkeys u) = fromkeys (filter (fun y => negb (y =? x)) u)).
        { induction u as [|y u IHu]; [reflexivity|]. cbn. destruct (Nat.eqb_spec y x) as [->|D]; cbn.
          - rewrite <- IHu. apply filter_all. intros z Hz. apply filter_In in Hz as [_ Hz]. exact Hz.
          - f_equal. rewrite <- IHu. apply filter_swap. }
        rewrite C, filter_app. f_equal. f_equal. apply filter_all. intros y Hy. destruct (Nat.eqb_spec y x); [congruence|reflexivity]. }
      rewrite F. apply IH. intros y Hy. apply filter_In in Hy as [Hy E]. destruct (H' y Hy) as [->|Hl]; [|exact Hl].
      rewrite Nat.eqb_refl in E. discriminate. }
    apply E. intros y Hy. apply H in Hy as [->|Hy]; auto.
Qed.

Lemma perm_concat {A} (P Q : list (list A)) : Permutation P Q -> Permutation (concat P) (concat Q).
Proof. intros H. rewrite <- (map_id P), <- (map_id Q), <- !flat_map_concat_map. now apply Permutation_flat_map. Qed.
Lemma perm_concat2 {A} (P Q : list (list A)) : Forall2 (@Permutation A) P Q -> Permutation (concat P) (concat Q).
Proof. intros H. induction H; cbn; [constructor|]. now apply Permutation_app. Qed.
Lemma nodup_concat {A} (P : list (list A)) :
  Forall (@NoDup A) P -> (forall i j c d x, nth_error P i = Some c -> nth_error P j = Some d -> In x c -> In x d -> i = j) -> NoDup (concat P).
Proof.
  induction P as [|c P IH]; intros F H; cbn; [constructor|]. inversion F as [|? ? Hc F']; subst.
  assert (N : NoDup (concat P)).
  { apply IH; [exact F'|]. intros i j d e x Hi Hj Hx Hy. assert (S i = S j) by (apply (H (S i) (S j) d e x); assumption). congruence. }
  clear IH. induction c as [|x c IHc]; cbn; [exact N|]. apply NoDup_cons_iff in Hc as [Hx Hc]. constructor.
  - rewrite in_app_iff. intros [I|I]; [contradiction|]. apply in_concat in I as [d [Hd I]]. apply In_nth_error in Hd as [j Hj].
    assert (0 = S j) by (apply (H 0 (S j) (x :: c) d x); [reflexivity|exact Hj|now left|exact I]). congruence.
  - apply IHc; [constructor; assumption| |exact Hc]. intros i j d e y Hi Hj Hy Hz.
    destruct i as [|i], j as [|j]; try reflexivity; cbn in Hi, Hj.
    + injection Hi as <-. apply (H 0 (S j) (x :: c) e y); [reflexivity|exact Hj|now right|exact Hz].
    + injection Hj as <-. apply (H (S i) 0 d (x :: c) y); [exact Hi|reflexivity|exact Hy|now right].
    + apply (H (S i) (S j) d e y); assumption.
Qed.
Lemma nodup_concat_inj {A} (P : list (list A)) : NoDup (concat P) ->
  forall i j c d x, nth_error P i = Some c -> nth_error P j = Some d -> In x c -> In x d -> i = j.
Proof.
  induction P as [|u P IH]; intros N i j c d x Hi Hj Hc Hd; [destruct i; discriminate|]. cbn in N.
  assert (D : forall y, In y u -> ~ In y (concat P)).
  { clear -N. induction u as [|z u IH]; intros y []; cbn in N; apply NoDup_cons_iff in N as [Hz N].
    - subst z. intros I. apply Hz. apply in_or_app. now right.
    - now apply IH. }
  assert (N' : NoDup (concat P)) by (clear -N; induction u; cbn in N; [exact N|apply NoDup_cons_iff in N as [_ N]; auto]).
  destruct i as [|i], j as [|j]; try reflexivity; cbn in Hi, Hj.
  - injection Hi as ->. exfalso. apply (D x Hc). apply in_concat. exists d. split; [now apply nth_error_In in Hj|exact Hd].
  - injection Hj as ->. exfalso. apply (D x Hd). apply in_concat. exists c. split; [now apply nth_error_In in Hi|exact Hc].
  - f_equal. now apply (IH N' i j c d x).
Qed.

(** *** Connected components *)
Definition conn (E : list (nat * nat)) : nat -> nat -> Prop := clos_refl_sym_trans nat (fun a b => In (a, b) E).
Lemma conn_incl E E' a b : (forall e, In e E -> In e E') -> conn E a b -> conn E' a b.
Proof.
  intros H C. induction C as [x y I| | |].
  - apply rst_step. now apply H.
  - apply rst_refl.
  - now apply rst_sym.
  - now apply rst_trans with y.
Qed.
(** A partition of [V] into the classes of [E]. *)
Record classes (V : list nat) (E : list (nat * nat)) (P : list (list nat)) : Prop := mkClasses {
  cl_all : Permutation (concat P) V;
  cl_conn : forall c a b, In c P -> In a c -> In b c -> conn E a b;
  cl_edge : forall c e, In c P -> In e E -> (In (fst e) c <-> In (snd e) c);
  cl_some : forall c, In c P -> c <> [] }.
Lemma mem_in a l : mem a l = true <-> In a l.
Proof. apply existsb_eqb. Qed.

Lemma classes_join V E P e : In (fst e) V -> In (snd e) V -> classes V E P -> classes V (E ++ [e]) (join P e).
Proof.
  intros H1 H2 C. set (t := fun c => mem (fst e) c || mem (snd e) c).
  change (join P e) with (concat (filter t P) :: filter (fun c => negb (t c)) P).
  assert (T : forall c, t c = true <-> In (fst e) c \/ In (snd e) c) by (intros c; unfold t; rewrite orb_true_iff, !mem_in; reflexivity).
  clearbody t.
  assert (W : forall x, In x V -> exists c, In c P /\ In x c).
  { intros x Hx. apply (Permutation_in _ (Permutation_sym (cl_all V E P C))) in Hx. apply in_concat in Hx as [c [Hc Hx]]. now exists c. }
  assert (I1 : In (fst e) (concat (filter t P))).
  { destruct (W _ H1) as [c [Hc Hx]]. apply in_concat. exists c. split; [|exact Hx]. apply filter_In. split; [exact Hc|]. apply T. now left. }
  assert (I2 : In (snd e) (concat (filter t P))).
  { destruct (W _ H2) as [c [Hc Hx]]. apply in_concat. exists c. split; [|exact Hx]. apply filter_In. split; [exact Hc|]. apply T. now right. }
  assert (EE : forall x, In x E -> In x (E ++ [e])) by (intros x Hx; apply in_or_app; now left).
  assert (Ec : conn (E ++ [e]) (fst e) (snd e)).
  { apply rst_step. rewrite <- surjective_pairing. apply in_or_app. right. now left. }
  constructor.
  - rewrite <- (cl_all V E P C). cbn. clear. induction P as [|c P IH]; [constructor|]. cbn. destruct (t c); cbn.
    + rewrite <- app_assoc. now apply Permutation_app_head.
    + rewrite <- IH. rewrite !app_assoc. apply Permutation_app_tail. apply Permutation_app_comm.
  - intros c a b [<-|Hc] Ha Hb.
    + apply in_concat in Ha as [ca [Ha1 Ha]]. apply in_concat in Hb as [cb [Hb1 Hb]].
      apply filter_In in Ha1 as [Ha1 Ta]. apply filter_In in Hb1 as [Hb1 Tb]. apply T in Ta, Tb.
      assert (A : conn (E ++ [e]) a (fst e)).
      { destruct Ta as [Ta|Ta].
        - apply (conn_incl E); [exact EE|]. now apply (cl_conn V E P C ca).
        - apply rst_trans with (snd e); [|apply rst_sym, Ec]. apply (conn_incl E); [exact EE|]. now apply (cl_conn V E P C ca). }
      assert (B : conn (E ++ [e]) (fst e) b).
      { destruct Tb as [Tb|Tb].
        - apply (conn_incl E); [exact EE|]. now apply (cl_conn V E P C cb).
        - apply rst_trans with (snd e); [exact Ec|]. apply (conn_incl E); [exact EE|]. now apply (cl_conn V E P C cb). }
      now apply rst_trans with (fst e).
    + apply filter_In in Hc as [Hc _]. apply (conn_incl E); [exact EE|]. now apply (cl_conn V E P C c).
  - intros c e' [<-|Hc] He'; apply in_app_or in He' as [He'|[<-|[]]].
    + split; intros I; apply in_concat in I as [d [Hd I]]; apply in_concat; exists d; (split; [exact Hd|]);
        apply filter_In in Hd as [Hd _]; now apply (cl_edge V E P C d e').
    + split; intros _; assumption.
    + apply filter_In in Hc as [Hc _]. now apply (cl_edge V E P C).
    + apply filter_In in Hc as [_ Hc]. apply negb_true_iff in Hc. split; intros I; exfalso; assert (t c = true) by (apply T; tauto); congruence.
  - intros c [<-|Hc].
    + intros X. rewrite X in I1. destruct I1.
    + apply filter_In in Hc as [Hc _]. now apply (cl_some V E P C).
Qed.
Theorem classes_components V E : (forall e, In e E -> In (fst e) V /\ In (snd e) V) -> classes V E (components V E).
Proof.
  intros H. unfold components.
  assert (G : forall E1 E0 P, (forall e, In e E1 -> In (fst e) V /\ In (snd e) V) -> classes V E0 P -> classes V (E0 ++ E1) (fold_left join E1 P)).
  { induction E1 as [|e E1 IH]; intros E0 P HE C; cbn; [now rewrite app_nil_r|].
    replace (E0 ++ e :: E1) with ((E0 ++ [e]) ++ E1) by (rewrite <- app_assoc; reflexivity).
    apply IH; [intros x Hx; apply HE; now right|]. apply classes_join; try apply HE; try (now left). exact C. }
  apply (G E []); [exact H|]. constructor.
  - clear. induction V as [|n V IH]; cbn; [constructor|]. now constructor.
  - intros c a b Hc Ha Hb. apply in_map_iff in Hc as [n [<- _]]. destruct Ha as [<-|[]], Hb as [<-|[]]. apply rst_refl.
  - intros c e _ [].
  - intros c Hc. apply in_map_iff in Hc as [n [<- _]]. discriminate.
Qed.
Lemma classes_order V E P Q : same_classes P Q -> classes V E P -> classes V E Q.
Proof.
  intros [P' [HP HQ]] C.
  assert (M : forall c, In c Q -> exists d, In d P /\ Permutation d c).
  { intros c Hc. assert (X : exists d, In d P' /\ Permutation d c).
    { clear -HQ Hc. induction HQ as [|d q P' Q PD HQ IH]; [destruct Hc|]. destruct Hc as [<-|Hc].
      - exists d. split; [now left|exact PD].
      - destruct (IH Hc) as [x [Hx Px]]. exists x. split; [now right|exact Px]. }
    destruct X as [d [Hd Pd]]. exists d. split; [|exact Pd]. now apply (Permutation_in _ (Permutation_sym HP)). }
  constructor.
  - rewrite <- (cl_all V E P C). rewrite (perm_concat _ _ HP). symmetry. now apply perm_concat2.
  - intros c a b Hc Ha Hb. destruct (M c Hc) as [d [Hd Pd]].
    apply (cl_conn V E P C d); [exact Hd| |]; now apply (Permutation_in _ (Permutation_sym Pd)).
  - intros c e Hc He. destruct (M c Hc) as [d [Hd Pd]]. pose proof (cl_edge V E P C d e Hd He) as X.
    split; intros I; apply (Permutation_in _ Pd); apply X; now apply (Permutation_in _ (Permutation_sym Pd)).
  - intros c Hc. destruct (M c Hc) as [d [Hd Pd]]. intros ->. apply Permutation_sym, Permutation_nil in Pd. now apply (cl_some V E P C d).
Qed.
Lemma classes_closed V E P c a b : classes V E P -> In c P -> conn E a b -> (In a c <-> In b c).
Proof.
  intros C Hc X. induction X as [x y I| | |x y z _ IH1 _ IH2].
  - apply (cl_edge V E P C c (x, y) Hc I).
  - reflexivity.
  - now symmetry.
  - now rewrite IH1.
Qed.
