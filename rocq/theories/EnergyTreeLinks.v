(** Linked lists, data of the nodes and the states of charge that the constraints allow. *)
From Coq Require Import List Bool Arith ZArith QArith Lia Lqa.
From Verif Require Import Base Cases CasesSpec CasesProofs CasesClusters EnergyTree EnergyTreeSpec EnergyTreeProofs.
Import ListNotations.
Open Scope nat_scope.
Open Scope list_scope.

Local Ltac sp := repeat match goal with |- _ /\ _ => split end.

(** ** Linked lists *)

Lemma put_repeat {A} (l : list A) d r v i : i = List.length l -> put (l ++ repeat d (r + 1)) i v = (l ++ [v]) ++ repeat d r.
Proof.
  intros ->. rewrite Nat.add_1_r. cbn [repeat]. induction l as [|x l IH]; cbn [List.app List.length put]; [reflexivity|]. now rewrite IH.
Qed.

Lemma filter_shift (f : nat -> bool) s : List.length (filter f (map S s)) = List.length (filter (fun i => f (S i)) s).
Proof. induction s as [|i s IH]; [reflexivity|]. cbn [map filter]. destruct (f (S i)); cbn [List.length]; congruence. Qed.

Lemma count_true_spec l : count_true l = List.length (filter (fun i => nth i l false) (seq 0 (List.length l))).
Proof.
  unfold count_true. induction l as [|b l IH]; [reflexivity|]. cbn [List.length seq filter]. rewrite <- seq_shift.
  destruct b; cbn [nth List.length]; rewrite filter_shift; [f_equal|]; exact IH.
Qed.

Lemma filter_split {A} (f : A -> bool) l : List.length (filter f l) + List.length (filter (fun x => negb (f x)) l) = List.length l.
Proof. induction l as [|x l IH]; [reflexivity|]. cbn [filter]. destruct (f x); cbn [negb List.length]; lia. Qed.

Lemma seq_snoc a n : seq a (n + 1) = seq a n ++ [a + n].
Proof. now rewrite seq_app. Qed.

Section Links.
Variable lens : list nat.
Hypothesis pos : Forall (fun n => 0 < n) lens.
Variable unc : list bool.
Hypothesis unc_len : List.length unc = depth lens.
Hypothesis depth_pos : 0 < depth lens.
Variable vectors sumP : nat.
Variable t : tree.
Hypothesis T : is_tree lens unc t.
Notation P := (depth lens).
Notation N := (nodes lens).
Notation sz := (sz_of lens vectors sumP).

Definition mark (x : nat) : bool := nth x (tr_unc t) false.
Definition marked : list nat := filter mark (seq 1 (N - 1)).
Definition unmarked : list nat := filter (fun x => negb (mark x)) (seq 1 (N - 1)).
Definition row2 (x : nat) : nat * (nat * nat) := (x, nth x (tr_bwd t) (0, 0)).
Definition row3 (x : nat) : nat * (nat * nat) := (x, (fst (nth x (tr_after t) (0, 0)), snd (nth x (tr_after t) (0, 0)) - fst (nth x (tr_after t) (0, 0)))).

Lemma N_pos : 0 < N.
Proof. unfold nodes. apply off_pos. lia. Qed.

Lemma surj x : x < N -> exists k j, k <= P /\ j < width lens k /\ x = node lens k j.
Proof. intros H. destruct (node_surj lens (P + 1) x H) as (k & j & A & B & C). exists k, j. sp; auto. lia. Qed.

Lemma mark_node k j : k <= P -> j < width lens k -> mark (node lens k j) = uncertain unc k.
Proof. intros K J. unfold mark. apply nth_error_nth. now apply (it_unc _ _ _ T). Qed.

Lemma at_tr {A} (l : list A) d x : List.length l = N -> x < N -> at_ l x = Ok (nth x l d).
Proof. intros L H. apply at_nth. apply nth_error_nth'. lia. Qed.

Definition ll1_spec : list (nat * nat) := (0, 0) :: map (fun x => nth x (tr_fwd t) (0, 0)) (seq 1 (N - 1)).

Lemma ll1_ok : foldM (fun ll1 x1 => do b <- at_ (tr_fwd t) x1; aset ll1 x1 b) (seq 1 (N - 1)) (repeat (0, 0) N) = Ok ll1_spec.
Proof.
  pose proof N_pos as N0. destruct (it_len _ _ _ T) as (LF & _).
  match goal with |- foldM ?f _ ?s = _ => destruct (seq_inv f (fun i l => l = (0, 0) :: map (fun x => nth x (tr_fwd t) (0, 0)) (seq 1 (i - 1)) ++ repeat (0, 0) (N - i)) 1 (N - 1) s) as (l & E & H) end.
  - destruct N as [|n] eqn:EN; [lia|]. cbn. now rewrite Nat.sub_0_r.
  - intros i l Hi ->. rewrite (at_tr _ (0, 0)) by (auto; lia). cbn [rbind]. rewrite aset_ok; [|cbn [List.length]; rewrite app_length, map_length, seq_length, repeat_length; lia]. eexists. split; [reflexivity|].
    replace (N - i) with (N - (i + 1) + 1) by lia. rewrite app_comm_cons. rewrite put_repeat by (cbn [List.length]; rewrite map_length, seq_length; lia). replace (i + 1 - 1) with (i - 1 + 1) by lia. rewrite seq_snoc, map_app. cbn [map]. replace (1 + (i - 1)) with i by lia. reflexivity.
  - rewrite E, H. unfold ll1_spec. replace (1 + (N - 1)) with N by lia. rewrite Nat.sub_diag. cbn [repeat]. now rewrite List.app_nil_r.
Qed.

Lemma filter_seq_snoc (f : nat -> bool) i : 1 <= i -> filter f (seq 1 (i + 1 - 1)) = filter f (seq 1 (i - 1)) ++ (if f i then [i] else []).
Proof. intros H. replace (i + 1 - 1) with (i - 1 + 1) by lia. rewrite seq_snoc, filter_app. cbn [filter]. now replace (1 + (i - 1)) with i by lia. Qed.

Lemma marks_bound (f : nat -> bool) i : i <= N -> List.length (filter f (seq 1 (i - 1))) <= List.length (filter f (seq 1 (N - 1))).
Proof. intros H. replace (N - 1) with (i - 1 + (N - 1 - (i - 1))) by lia. rewrite seq_app, filter_app, app_length. lia. Qed.

(** The loop fills lists that are long enough. *)
Lemma link_loop n2 n3 : n2 = List.length unmarked -> n3 = List.length marked ->
  foldM (fun (st : list (nat * (nat * nat)) * list (nat * (nat * nat)) * nat * nat) x1 =>
      let '(ll2, ll3, x2, x3) := st in
      do u <- at_ (tr_unc t) x1;
      if (u : bool) then
        do a <- at_ (tr_after t) x1;
        do ll3 <- aset ll3 x3 (x1, (fst a, snd a - fst a));
        Ok (ll2, ll3, x2, x3 + 1)
      else
        do b <- at_ (tr_bwd t) x1;
        do ll2 <- aset ll2 (x2 + 1) (x1, b);
        Ok (ll2, ll3, x2 + 1, x3))
    (seq 1 (N - 1)) (repeat (0, (0, 0)) (n2 + 1), repeat (0, (0, 0)) n3, 0, 0)
  = Ok ((0, (0, 0)) :: map row2 unmarked, map row3 marked, n2, n3).
Proof.
  intros E2 E3. pose proof N_pos as N0. destruct (it_len _ _ _ T) as (LF & LB & LA & LS & LU & _). set (z := (0, (0, 0))).
  match goal with |- foldM ?f _ ?s = _ => destruct (seq_inv f (fun i st => let '(ll2, ll3, x2, x3) := st in
     let u := filter (fun x => negb (mark x)) (seq 1 (i - 1)) in let m := filter mark (seq 1 (i - 1)) in
     x2 = List.length u /\ x3 = List.length m /\ ll2 = z :: map row2 u ++ repeat z (n2 - x2) /\ ll3 = map row3 m ++ repeat z (n3 - x3)) 1 (N - 1) s) as ([[[ll2 ll3] x2] x3] & E & H) end.
  - cbn. sp; auto; [rewrite Nat.add_1_r, Nat.sub_0_r; reflexivity|now rewrite Nat.sub_0_r].
  - intros i [[[ll2 ll3] x2] x3] Hi. cbv zeta. intros (X2 & X3 & L2 & L3). rewrite (at_tr _ false) by (auto; lia). cbn [rbind]. fold (mark i).
    pose proof (marks_bound mark (i + 1) ltac:(lia)) as BM. pose proof (marks_bound (fun x => negb (mark x)) (i + 1) ltac:(lia)) as BU. rewrite !filter_seq_snoc in * by lia. rewrite app_length in BM, BU. fold marked in BM. fold unmarked in BU.
    destruct (mark i) eqn:M; cbn [negb] in *; cbn [List.length] in BM, BU.
    + rewrite (at_tr _ (0, 0)) by (auto; lia). cbn [rbind]. rewrite aset_ok; [|rewrite L3, app_length, map_length, repeat_length; lia]. cbn [rbind]. eexists. split; [reflexivity|]. cbn beta iota zeta. rewrite !List.app_nil_r. sp; auto.
      * rewrite app_length. cbn. lia.
      * rewrite L3. replace (n3 - x3) with (n3 - (x3 + 1) + 1) by lia. rewrite put_repeat by (now rewrite map_length). now rewrite map_app.
    + rewrite (at_tr _ (0, 0)) by (auto; lia). cbn [rbind]. rewrite aset_ok; [|rewrite L2; cbn [List.length]; rewrite app_length, map_length, repeat_length; lia]. cbn [rbind]. eexists. split; [reflexivity|]. cbn beta iota zeta. rewrite !List.app_nil_r. sp; auto.
      * rewrite app_length. cbn. lia.
      * rewrite L2. replace (n2 - x2) with (n2 - (x2 + 1) + 1) by lia. rewrite app_comm_cons, put_repeat by (cbn [List.length]; rewrite map_length; lia). rewrite map_app. cbn [map List.app]. reflexivity.
  - rewrite E. cbv zeta in H. replace (1 + (N - 1) - 1) with (N - 1) in H by lia. fold unmarked in H. fold marked in H. destruct H as (X2 & X3 & -> & ->). subst x2 x3. rewrite <- E2, <- E3, !Nat.sub_diag. cbn [repeat]. now rewrite !List.app_nil_r.
Qed.

Lemma count_unc_0 : count_true unc = 0 -> marked = [].
Proof.
  intros H. unfold marked. assert (G : forall b, In b unc -> b = false). { unfold count_true in H. intros [] Hb; auto. assert (In true (filter (fun b => b) unc)) by (apply filter_In; auto). destruct (filter _ unc); cbn in *; [tauto|lia]. }
  destruct (filter mark (seq 1 (N - 1))) as [|x l] eqn:E; auto. exfalso. assert (I : In x (filter mark (seq 1 (N - 1)))) by (rewrite E; cbn; auto). apply filter_In in I as [I M]. apply in_seq in I. destruct (surj x ltac:(lia)) as (k & j & K & J & ->). rewrite mark_node in M by auto. unfold uncertain in M.
  destruct (le_lt_dec (List.length unc) k); [rewrite nth_overflow in M by lia; discriminate|]. rewrite (G (nth k unc false)) in M; [discriminate|]. now apply nth_In.
Qed.

Lemma marked_some k : 0 < k -> k < P -> uncertain unc k = true -> 0 < List.length marked.
Proof.
  intros K KP U. pose proof (width_pos lens pos k ltac:(lia)) as W. assert (I : In (node lens k 0) marked).
  { apply filter_In. split; [|rewrite mark_node; auto; lia]. apply in_seq. pose proof (node_nodes lens k 0 ltac:(lia) W). unfold node in *. pose proof (off_pos lens k K). lia. }
  destruct marked; cbn in *; [tauto|lia].
Qed.

Lemma split_nodes : List.length marked + List.length unmarked = N - 1.
Proof. unfold marked, unmarked. rewrite filter_split. apply seq_length. Qed.

Lemma count_marks : count_true (tr_unc t) = (if uncertain unc 0 then 1 else 0) + List.length marked.
Proof.
  pose proof N_pos as N0. rewrite count_true_spec. destruct (it_len _ _ _ T) as (_ & _ & _ & _ & -> & _). change (fun i => nth i (tr_unc t) false) with mark. unfold marked. replace N with (S (N - 1)) at 1 by lia. cbn [seq filter].
  assert (M0 : mark 0 = uncertain unc 0) by (apply (mark_node 0 0); cbn; lia). rewrite M0. destruct (uncertain unc 0); reflexivity.
Qed.

Definition links_spec (nos3 : nat) : links := mkLinks (N - 1) (List.length unmarked) nos3 ll1_spec ((0, (0, 0)) :: map row2 unmarked) (map row3 marked).

Lemma link_spec : uncertain unc 0 = false -> link sz t unc = Ok (links_spec (List.length marked - 1)).
Proof.
  intros U0. unfold link. cbn [sz_nodes sz_of]. change (off lens (P + 1)) with N. rewrite ll1_ok. cbn [rbind]. pose proof split_nodes as SN. pose proof count_marks as CM. rewrite U0 in CM. cbn [Nat.add] in CM. pose proof N_pos as N0.
  destruct (Nat.eqb_spec (count_true unc) 0) as [Z0|NZ].
  - pose proof (count_unc_0 Z0) as M0. rewrite M0 in *. cbn [List.length] in *. replace (N - 1) with (List.length unmarked) at 2 by lia.
    pose proof (link_loop (List.length unmarked) 0 eq_refl ltac:(rewrite M0; reflexivity)) as L. rewrite L. cbn [rbind]. unfold links_spec. rewrite M0. cbn [map Nat.sub List.length]. do 2 f_equal. lia.
  - assert (K : 0 < List.length marked).
    { assert (exists k, k < P /\ uncertain unc k = true) as (k & K & U).
      { unfold count_true in NZ. destruct (filter (fun b => b) unc) as [|b l] eqn:E; [cbn in NZ; lia|]. assert (I : In b (filter (fun b => b) unc)) by (rewrite E; cbn; auto). apply filter_In in I as [I B]. apply (In_nth _ _ false) in I as (k & K & E'). exists k. unfold uncertain. split; [lia|congruence]. }
      apply (marked_some k); auto. destruct k; [congruence|lia]. }
    assert (0 < List.length unmarked). { assert (I : In (node lens P 0) unmarked). { pose proof (width_pos lens pos P ltac:(lia)) as W. apply filter_In. split; [|rewrite mark_node by (auto; lia); unfold uncertain; rewrite nth_overflow by lia; reflexivity]. apply in_seq. pose proof (node_nodes lens P 0 ltac:(lia) W). unfold node in *. pose proof (off_pos lens P depth_pos). lia. } destruct unmarked; cbn in *; [tauto|lia]. }
    rewrite CM. replace (List.length marked - 1 + 1) with (List.length marked) by lia. replace (N - (List.length marked - 1) - 2) with (List.length unmarked) by lia. rewrite link_loop by auto. cbn [rbind]. reflexivity.
Qed.

(** Uncertainty at the first level: the list is one row short. *)
Lemma link_fails : uncertain unc 0 = true -> link sz t unc = Err IndexError.
Proof.
  intros U0. unfold link. cbn [sz_nodes sz_of]. change (off lens (P + 1)) with N. rewrite ll1_ok. cbn [rbind]. pose proof split_nodes as SN. pose proof count_marks as CM. rewrite U0 in CM. pose proof N_pos as N0.
  assert (NZ : (count_true unc =? 0) = false). { apply Nat.eqb_neq. unfold count_true. unfold uncertain in U0. destruct unc as [|b l]; [discriminate|]. cbn in U0. subst b. cbn. lia. } rewrite NZ, CM.
  assert (UP : 0 < List.length unmarked). { assert (I : In (node lens P 0) unmarked). { pose proof (width_pos lens pos P ltac:(lia)) as W. apply filter_In. split; [|rewrite mark_node by (auto; lia); unfold uncertain; rewrite nth_overflow by lia; reflexivity]. apply in_seq. pose proof (node_nodes lens P 0 ltac:(lia) W). unfold node in *. pose proof (off_pos lens P depth_pos). lia. } destruct unmarked; cbn in *; [tauto|lia]. }
  replace (1 + List.length marked - 1) with (List.length marked) by lia. replace (N - List.length marked - 2 + 1) with (List.length unmarked) by lia.
  match goal with |- context [foldM ?f ?ll0 ?s0] => set (step := f); assert (G : forall l s, match foldM step l s with Ok s' => List.length (fst (fst (fst s'))) = List.length (fst (fst (fst s))) /\ (forall Hl : Forall (fun x => x < N) l, snd (fst s') = snd (fst s) + List.length (filter (fun x => negb (mark x)) l) /\ (filter (fun x => negb (mark x)) l <> [] -> snd (fst s') < List.length (fst (fst (fst s))))) | Err e => e = IndexError end) end.
  { induction l as [|x l IH]; intros [[[ll2 ll3] x2] x3]; cbn [foldM].
    - cbn. split; auto. split; [lia|congruence].
    - assert (AE : forall A (l : list A) i e, at_ l i = Err e -> e = IndexError) by (intros A l0 i e; unfold at_; destruct (nth_error l0 i); congruence).
      assert (SE : forall A (l : list A) i v e, aset l i v = Err e -> e = IndexError) by (intros A l0 i v e; unfold aset; destruct (i <? _); congruence).
      unfold step at 1. destruct (at_ (tr_unc t) x) as [u|e] eqn:Eu; cbn [rbind]; [|eapply AE; eauto].
      assert (Mu : x < N -> mark x = u). { intros X. unfold mark. apply at_nth in Eu. now apply nth_error_nth. }
      destruct u.
      + destruct (at_ (tr_after t) x) as [a|e] eqn:Ea; cbn [rbind]; [|eapply AE; eauto]. destruct (aset ll3 x3 _) as [ll3'|e] eqn:E3; cbn [rbind]; [|eapply SE; eauto].
        specialize (IH (ll2, ll3', x2, x3 + 1)). destruct (foldM step l _) as [[[[l2 l3] y2] y3]|e]; auto. cbn [fst snd] in *. destruct IH as [L G]. split; auto. intros Hl. inversion Hl; subst. cbn [filter]. rewrite Mu by auto. cbn [negb]. auto.
      + destruct (at_ (tr_bwd t) x) as [a|e] eqn:Ea; cbn [rbind]; [|eapply AE; eauto]. destruct (aset ll2 (x2 + 1) _) as [ll2'|e] eqn:E2; cbn [rbind]; [|eapply SE; eauto].
        assert (L2 : List.length ll2' = List.length ll2 /\ x2 + 1 < List.length ll2). { unfold aset in E2. destruct (Nat.ltb_spec (x2 + 1) (List.length ll2)); [|discriminate]. inversion E2. now rewrite put_length. }
        specialize (IH (ll2', ll3, x2 + 1, x3)). destruct (foldM step l _) as [[[[l2 l3] y2] y3]|e]; auto. cbn [fst snd] in *. destruct IH as [L G]. split; [lia|]. intros Hl. inversion Hl; subst. cbn [filter]. rewrite Mu by auto. cbn [negb List.length]. destruct (G H2) as [G1 G2]. split; [lia|]. intros _.
        destruct (filter (fun x => negb (mark x)) l) as [|y ys] eqn:Ef; [cbn in G1; lia|]. specialize (G2 ltac:(discriminate)). lia. }
  match goal with |- context [foldM step ?l ?s] => specialize (G l s); destruct (foldM step l s) as [[[[l2 l3] y2] y3]|e] end; [|cbn [rbind]; now rewrite G].
  exfalso. destruct G as [_ G]. destruct G as [G1 G2]. { apply Forall_forall. intros x I. apply in_seq in I. lia. } cbn [fst snd] in *. fold unmarked in G1, G2. rewrite repeat_length in G2. assert (unmarked <> []) by (destruct unmarked; cbn in *; [lia|discriminate]). specialize (G2 H). lia.
Qed.
End Links.
