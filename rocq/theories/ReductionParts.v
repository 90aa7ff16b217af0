(** The supernodes in terms of bus numbers. *)
From Coq Require Import List ZArith QArith Bool Lia Arith Permutation Relation_Operators Operators_Properties Setoid.
From Verif Require Import Base GraphData Network Cases InputOutputProofs HydroTables ConverterOpen Parameters Analyser Reduction AnalyserSpec ReductionSpec GraphDataProofs ParametersProofs AnalyserProofs AnalyserIslands ReductionTrack ReductionProofs.
Import ListNotations.
Open Scope list_scope.
Open Scope nat_scope.

Lemma in_nos_at N l a : In a (nos_at N l) <-> exists p b, In p l /\ nth_error (n_bus N) p = Some b /\ b_no b = a.
Proof.
  unfold nos_at. rewrite in_flat_map. split.
  - intros [p [Hp H]]. destruct (nth_error (n_bus N) p) as [b|] eqn:E; [|destruct H]. destruct H as [<-|[]]. now exists p, b.
  - intros [p [b [Hp [E <-]]]]. exists p. rewrite E. split; [exact Hp|now left].
Qed.
Lemma in_els_at k N l s : In s (els_at k N l) <-> exists x, In x l /\ nth_error (els k N) x = Some s.
Proof.
  unfold els_at. rewrite in_flat_map. split.
  - intros [p [Hp H]]. destruct (nth_error (els k N) p) as [b|] eqn:E; [|destruct H]. destruct H as [<-|[]]. now exists p.
  - intros [p [Hp E]]. exists p. rewrite E. split; [exact Hp|now left].
Qed.
Lemma nos_at_flat {A} N (f : A -> list nat) U : nos_at N (flat_map f U) = flat_map (fun u => nos_at N (f u)) U.
Proof. induction U as [|u U IH]; [reflexivity|]. cbn. unfold nos_at in *. now rewrite flat_map_app, IH. Qed.

Lemma nodup_split {A} (l m : list A) : NoDup (l ++ m) -> NoDup l /\ NoDup m /\ forall x, In x l -> ~ In x m.
Proof.
  induction l as [|a l IH]; cbn; intros H; [split; [constructor|]; split; [exact H|]; intros x []|]. apply NoDup_cons_iff in H as [Ha H]. destruct (IH H) as [H1 [H2 H3]].
  split; [constructor; [|exact H1]; intros X; apply Ha, in_or_app; now left|]. split; [exact H2|]. intros x [<-|Hx] Hm; [apply Ha, in_or_app; now right|now apply (H3 x)].
Qed.

Section Parts.
Variables (three vol : Q) (N : net).
Hypothesis S : settled N.
Hypothesis W : wf N.

Lemma pos_unique p q b c : nth_error (n_bus N) p = Some b -> nth_error (n_bus N) q = Some c -> b_no b = b_no c -> p = q.
Proof.
  intros Hp Hq E. pose proof (wf_bus N W) as ND. unfold numbers in ND. apply (proj1 (NoDup_nth_error _) ND p q); [rewrite map_length; apply nth_error_Some; congruence|].
  rewrite !nth_error_map, Hp, Hq. cbn. congruence.
Qed.
Lemma low_num p b : nth_error (n_bus N) p = Some b -> (low three vol N p <-> low_no three vol N (b_no b)).
Proof.
  intros Hp. split.
  - intros [b' [H E]]. assert (b' = b) by congruence. subst. exists b. split; [now apply nth_error_In in Hp|]. split; [reflexivity|]. now apply high_false.
  - intros [c [Hc [En L]]]. apply In_nth_error in Hc as [q Hq]. assert (q = p) by (apply (pos_unique q p c b Hq Hp En)). subst q. exists b. split; [exact Hp|].
    assert (c = b) by congruence. subst c. now apply high_false.
Qed.
Lemma low_no_pos a : low_no three vol N a <-> exists p b, nth_error (n_bus N) p = Some b /\ b_no b = a /\ low three vol N p.
Proof.
  split.
  - intros [b [Hb [E L]]]. apply In_nth_error in Hb as [p Hp]. exists p, b. split; [exact Hp|]. split; [exact E|]. exists b. split; [exact Hp|now apply high_false].
  - intros [p [b [Hp [<- L]]]]. now apply (low_num p b Hp).
Qed.
Lemma upper_high a : upper three vol N a = true <-> high_no three vol N a.
Proof.
  unfold upper. rewrite existsb_exists. split.
  - intros [b [Hb H]]. apply andb_true_iff in H as [H H3]. apply andb_true_iff in H as [H1 H2]. apply Nat.eqb_eq in H1. exists b. split; [exact Hb|]. split; [exact H1|].
    apply high_spec. unfold high. now rewrite H2, H3.
  - intros [b [Hb [E H]]]. exists b. split; [exact Hb|]. apply high_spec in H. unfold high in H. apply andb_true_iff in H as [H1 H2]. rewrite H1, H2, E, Nat.eqb_refl. reflexivity.
Qed.
Lemma high_not_low a : high_no three vol N a -> ~ low_no three vol N a.
Proof.
  intros [b [Hb [E H]]] L. apply In_nth_error in Hb as [p Hp]. apply H. rewrite <- E in L. apply (low_num p b Hp) in L as [b' [Hb' L]]. assert (b' = b) by congruence. subst. now apply high_false.
Qed.
Lemma high_or_low a : In a (numbers N) -> high_no three vol N a \/ low_no three vol N a.
Proof.
  intros H. apply in_map_iff in H as [b [E H]]. destruct (high three vol b) eqn:Eh; [left|right]; exists b; (split; [exact H|]; split; [exact E|]); [now apply high_spec|now apply high_false].
Qed.
Lemma inc_num k x s p b : nth_error (els k N) x = Some s -> nth_error (n_bus N) p = Some b -> (inc N k x p <-> In (b_no b) (s_ends s)).
Proof.
  intros Hs Hp. split.
  - intros [s' [H Hi]]. assert (s' = s) by congruence. subst. apply (s_pos_in N S W k s (nth_error_In _ _ Hs)) in Hi as [b' [Hb' Hi]]. assert (b' = b) by congruence. now subst.
  - intros H. exists s. split; [exact Hs|]. apply (s_pos_in N S W k s (nth_error_In _ _ Hs)). now exists b.
Qed.
Lemma end_pos k s a : In s (els k N) -> In a (s_ends s) -> exists p b, nth_error (n_bus N) p = Some b /\ b_no b = a.
Proof.
  intros Hs Ha. destruct (wf_ends N W k s Hs) as [x [y [E [_ [Hx Hy]]]]]. rewrite E in Ha.
  assert (In a (numbers N)) by (cbn in Ha; destruct Ha as [<-|[<-|[]]]; assumption).
  apply in_map_iff in H as [b [Eb Hb]]. apply In_nth_error in Hb as [p Hp]. now exists p, b.
Qed.
Lemma link_num p q b c : nth_error (n_bus N) p = Some b -> nth_error (n_bus N) q = Some c -> (llink three vol N p q <-> low_link three vol N (b_no b) (b_no c)).
Proof.
  intros Hp Hq. unfold llink, low_link. rewrite (low_num p b Hp), (low_num q c Hq). split; intros [L1 [L2 H]]; (split; [exact L1|split; [exact L2|]]).
  - destruct H as [k [x [H1 H2]]]. pose proof H1 as [s [Hs _]]. exists k, s. split; [now apply nth_error_In in Hs|]. split; [apply (inc_num k x s p b Hs Hp), H1|apply (inc_num k x s q c Hs Hq), H2].
  - destruct H as [k [s [Hs [H1 H2]]]]. apply In_nth_error in Hs as [x Hs]. exists k, x. split; [apply (inc_num k x s p b Hs Hp), H1|apply (inc_num k x s q c Hs Hq), H2].
Qed.
Lemma llink_lt p q : llink three vol N p q -> exists b c, nth_error (n_bus N) p = Some b /\ nth_error (n_bus N) q = Some c.
Proof. intros [[b [Hb _]] [[c [Hc _]] _]]. now exists b, c. Qed.
Lemma lconn_num p q b c : nth_error (n_bus N) p = Some b -> nth_error (n_bus N) q = Some c -> lconn three vol N p q -> low_connected three vol N (b_no b) (b_no c).
Proof.
  intros Hp Hq H. revert b Hp. apply clos_rt_rt1n in H. induction H as [|p r q L _ IH]; intros b Hp.
  - assert (b = c) by congruence. subst. apply rt_refl.
  - destruct (llink_lt p r L) as [b' [d [_ Hr]]]. apply rt_trans with (b_no d); [apply rt_step, (link_num p r b d Hp Hr), L|]. now apply IH.
Qed.
Lemma num_lconn p b a : nth_error (n_bus N) p = Some b -> low_connected three vol N (b_no b) a -> exists q c, nth_error (n_bus N) q = Some c /\ b_no c = a /\ lconn three vol N p q.
Proof.
  intros Hp H. apply clos_rt_rtn1 in H. induction H as [|y z L _ [q [c [Hq [Ec Hc]]]]].
  - exists p, b. split; [exact Hp|]. split; [reflexivity|apply rt_refl].
  - subst y. pose proof L as [_ [Lz _]]. apply low_no_pos in Lz as [r [d [Hr [Ed _]]]]. exists r, d. split; [exact Hr|]. split; [exact Ed|]. subst z.
    apply rt_trans with q; [exact Hc|]. apply rt_step. now apply (link_num q r c d Hq Hr).
Qed.

Variables (f : flags) (U : list super).
Hypothesis I : inv three vol N f U.
Hypothesis All : forall p, p < length (n_bus N) -> nth_error (f_bus f) p = Some true.

Lemma part_low u a : In u U -> In a (nos_at N (u_bus u)) -> low_no three vol N a.
Proof.
  intros Hu Ha. apply in_nos_at in Ha as [p [b [Hp [Hb <-]]]]. apply (low_num p b Hb). apply (i_low _ _ _ _ _ I). apply in_flat_map. now exists u.
Qed.
Lemma part_cover a : low_no three vol N a -> exists u, In u U /\ In a (nos_at N (u_bus u)).
Proof.
  intros H. apply low_no_pos in H as [p [b [Hp [<- L]]]]. apply (low_pos three vol N f U I All) in L. apply in_flat_map in L as [u [Hu Hin]].
  exists u. split; [exact Hu|]. apply in_nos_at. now exists p, b.
Qed.
Lemma parts_nodup : NoDup (flat_map (fun u => nos_at N (u_bus u)) U).
Proof.
  rewrite <- nos_at_flat. pose proof (i_nodup _ _ _ _ _ I) as ND. induction (flat_map u_bus U) as [|p l IH]; [constructor|].
  apply NoDup_cons_iff in ND as [Hp ND]. unfold nos_at in *. cbn. destruct (nth_error (n_bus N) p) as [b|] eqn:Eb; [|now apply IH]. cbn. constructor; [|now apply IH].
  intros X. apply (proj1 (in_nos_at N l (b_no b))) in X as [q [c [Hq [Hc E]]]]. apply Hp. now rewrite (pos_unique p q b c Eb Hc (eq_sym E)).
Qed.
Lemma part_connected u : In u U -> exists r, In r (nos_at N (u_bus u)) /\ forall a, In a (nos_at N (u_bus u)) <-> low_connected three vol N r a.
Proof.
  intros Hu. destruct (so_part _ _ _ _ (super_in three vol N f U I u Hu)) as [r [Hr H]].
  assert (Lr : low three vol N r) by (apply H in Hr; tauto). pose proof Lr as [b [Hb _]]. exists (b_no b). split; [apply in_nos_at; now exists r, b|]. intros a. rewrite in_nos_at. split.
  - intros [p [c [Hp [Hc <-]]]]. apply (lconn_num r p b c Hb Hc). now apply H.
  - intros C. destruct (num_lconn r b a Hb C) as [q [c [Hq [<- L]]]]. exists q, c. split; [|now split]. apply H. split; [|exact L]. now apply (lconn_low three vol N r q).
Qed.
Lemma part_same u a b : In u U -> In a (nos_at N (u_bus u)) -> low_link three vol N a b -> In b (nos_at N (u_bus u)).
Proof.
  intros Hu Ha L. destruct (part_connected u Hu) as [r [_ H]]. apply H. apply rt_trans with a; [now apply H|now apply rt_step].
Qed.
Lemma part_unique u v a : In u U -> In v U -> In a (nos_at N (u_bus u)) -> In a (nos_at N (u_bus v)) -> u = v.
Proof.
  intros Hu Hv Ha Hb. pose proof parts_nodup as ND. clear -Hu Hv Ha Hb ND. induction U as [|w l IH]; [destruct Hu|]. cbn in ND.
  assert (D : forall u, In u l -> In a (nos_at N (u_bus u)) -> In a (nos_at N (u_bus w)) -> False).
  { intros x Hx H1 H2. apply nodup_split in ND. destruct ND as [_ [_ D]]. apply (D a H2). apply in_flat_map. now exists x. }
  assert (ND' : NoDup (flat_map (fun u => nos_at N (u_bus u)) l)) by (apply nodup_split in ND; tauto).
  destruct Hu as [<-|Hu], Hv as [<-|Hv]; [reflexivity| | |now apply IH].
  - exfalso. now apply (D v).
  - exfalso. now apply (D u).
Qed.
Lemma part_els k u s : In u U -> (In s (els_at k N (u_els k u)) <-> In s (els k N) /\ exists a, In a (s_ends s) /\ In a (nos_at N (u_bus u))).
Proof.
  intros Hu. rewrite in_els_at. split.
  - intros [x [Hx Hs]]. split; [now apply nth_error_In in Hs|]. apply (so_el _ _ _ _ (super_in three vol N f U I u Hu)) in Hx as [q [Hi Hq]].
    assert (L : low three vol N q) by (apply (u_bus_low three vol N f U I All u q Hu Hq)). destruct L as [b [Hb _]]. exists (b_no b). split; [now apply (inc_num k x s q b Hs Hb)|]. apply in_nos_at. now exists q, b.
  - intros [Hs [a [Ha Hn]]]. apply in_nos_at in Hn as [q [b [Hq [Hb <-]]]]. apply In_nth_error in Hs as [x Hs]. exists x. split; [|exact Hs].
    apply (so_el _ _ _ _ (super_in three vol N f U I u Hu)). exists q. split; [|exact Hq]. now apply (inc_num k x s q b Hs Hb).
Qed.
Definition leads (u : super) (a : nat) (s : series) : Prop :=
  (exists k, In s (els k N)) /\ high_no three vol N a /\ exists b, In b (nos_at N (u_bus u)) /\ Permutation [a; b] (s_ends s).
Lemma two_ends k s a b : In s (els k N) -> In a (s_ends s) -> In b (s_ends s) -> a <> b -> Permutation [a; b] (s_ends s).
Proof.
  intros Hs Ha Hb D. destruct (wf_ends N W k s Hs) as [x [y [E _]]]. rewrite E in *. cbn in Ha, Hb. destruct Ha as [<-|[<-|[]]], Hb as [<-|[<-|[]]]; try congruence; [apply Permutation_refl|apply perm_swap].
Qed.
Lemma coupling_nos u : In u U -> Forall2 (leads u) (nos_at N (u_coupling u)) (u_art u).
Proof.
  intros Hu. pose proof (so_pair _ _ _ _ (super_in three vol N f U I u Hu)) as F. pose proof (fun q => u_bus_low three vol N f U I All u q Hu) as LB. 
  assert (G : forall C A, Forall2 (couples three vol N (u_bus u)) C A -> Forall2 (leads u) (nos_at N C) A).
  { induction 1 as [|c s C A [k [x [q [Hs [Hc [Hq [Hin [NL Lc]]]]]]]] _ IH]; [constructor|].
    destruct (nth_error (n_bus N) c) as [b|] eqn:Eb; [|apply nth_error_None in Eb; lia]. unfold nos_at in *. cbn. rewrite Eb. cbn. constructor; [|exact IH].
    pose proof (nth_error_In _ _ Hs) as HsI.
    assert (Hb : In (b_no b) (s_ends s)) by (apply (s_pos_in N S W k s HsI) in Hc as [b' [E Hc]]; assert (b' = b) by congruence; now subst).
    pose proof (LB q Hin) as Lq. pose proof Lq as [d [Ed _]].
    assert (Hd : In (b_no d) (s_ends s)) by (apply (s_pos_in N S W k s HsI) in Hq as [b' [E Hq]]; assert (b' = d) by congruence; now subst).
    split; [now exists k|]. split.
    - destruct (high_or_low (b_no b)) as [H|H]; [apply in_map; now apply nth_error_In in Eb|exact H|]. exfalso. apply NL. now apply (low_num c b Eb).
    - exists (b_no d). split; [apply in_nos_at; now exists q, d|]. apply (two_ends k); try assumption. intros E. apply NL. rewrite (pos_unique c q b d Eb Ed E). exact Lq. }
  now apply G.
Qed.
Lemma crosses_up k s : In s (els k N) -> crosses three vol N s = crossing_up three vol N s.
Proof.
  intros Hs. apply eq_true_iff_eq. unfold crosses, crossing_up. rewrite !existsb_exists. split.
  - intros [q [Hq H]]. apply (s_pos_in N S W k s Hs) in Hq as [b [Hb Hin]]. rewrite Hb in H. exists (b_no b). split; [exact Hin|]. apply upper_high. exists b. split; [now apply nth_error_In in Hb|]. split; [reflexivity|now apply high_spec].
  - intros [a [Ha H]]. apply upper_high in H as [b [Hb [E L]]]. apply In_nth_error in Hb as [q Hq]. exists q. split; [apply (s_pos_in N S W k s Hs); exists b; split; [exact Hq|congruence]|]. rewrite Hq. now apply high_spec.
Qed.
Lemma art_perm u : In u U -> Permutation (u_art u) (filter (crossing_up three vol N) (els_at Lines N (u_lines u) ++ els_at Trafos N (u_trafos u))).
Proof.
  intros Hu. rewrite (so_cross _ _ _ _ (super_in three vol N f U I u Hu)). unfold crossing. change (pick N) with (fun k l => els_at k N l). cbn beta. apply Permutation_refl'. apply filter_ext_in.
  intros s Hs. apply in_app_or in Hs as [Hs|Hs]; apply in_els_at in Hs as [x [_ Hs]]; apply nth_error_In in Hs; [apply (crosses_up Lines)|apply (crosses_up Trafos)]; exact Hs.
Qed.
Lemma stays_up k s : In s (els k N) -> stays three vol N s = all_up three vol N s.
Proof.
  intros Hs. apply eq_true_iff_eq. unfold stays, all_up. rewrite !forallb_forall. split; intros H.
  - intros a Ha. destruct (end_pos k s a Hs Ha) as [p [b [Hp <-]]]. specialize (H p). rewrite Hp in H. apply upper_high. exists b. split; [now apply nth_error_In in Hp|]. split; [reflexivity|]. apply high_spec. apply H.
    apply (s_pos_in N S W k s Hs). now exists b.
  - intros q Hq. apply (s_pos_in N S W k s Hs) in Hq as [b [Hb Hin]]. rewrite Hb. specialize (H _ Hin). apply upper_high in H as [c [Hc [E L]]]. apply In_nth_error in Hc as [r Hr].
    assert (r = q) by (apply (pos_unique r q c b Hr Hb E)). subst r. assert (c = b) by congruence. subst c. now apply high_spec.
Qed.
End Parts.
