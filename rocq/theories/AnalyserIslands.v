(** Islands and isolated buses, continued: the network without what is out of service, the elements collected
    per class, and the result as a whole. *)
From Coq Require Import List ZArith QArith Bool Lia Arith Permutation Relation_Operators Operators_Properties.
From Verif Require Import Base Cases Parameters Analyser AnalyserSpec GraphDataProofs HydroTables ParametersProofs AnalyserProofs.
Import ListNotations.
Open Scope list_scope.
Open Scope nat_scope.

(** *** Parts of a network whose numbers are in order *)
Lemma bare_bus_eq b b' : bare_bus b = bare_bus b' -> b_no b = b_no b' /\ b_nos b = b_nos b'.
Proof. unfold bare_bus. intros E. injection E. intuition. Qed.
Lemma bare_series_eq s s' : bare_series s = bare_series s' -> s_no s = s_no s' /\ s_ends s = s_ends s' /\ s_on s = s_on s'.
Proof. unfold bare_series. intros E. injection E. intuition. Qed.
Lemma bare_gen_eq g g' : bare_gen g = bare_gen g' -> g_name g = g_name g' /\ g_bus g = g_bus g'.
Proof. unfold bare_gen. intros E. injection E. intuition. Qed.

Lemma wf_part N N' : wf N ->
  NoDup (numbers N') -> (forall k, NoDup (map s_no (els k N'))) ->
  (forall b', In b' (n_bus N') -> exists b, In b (n_bus N) /\ bare_bus b = bare_bus b') ->
  (forall k s', In s' (els k N') -> exists s, In s (els k N) /\ bare_series s = bare_series s' /\ forall a, In a (s_ends s) -> In a (numbers N')) ->
  (forall k n, length (filter (fun g => g_bus g =? n) (gens k N')) <= length (filter (fun g => g_bus g =? n) (gens k N))) ->
  wf N'.
Proof.
  intros W NB NS HB HS HG. constructor.
  - exact NB.
  - exact NS.
  - intros k s' H. destruct (HS k s' H) as [s [Hs [E A]]]. apply bare_series_eq in E as [_ [E _]].
    destruct (wf_ends N W k s Hs) as [a [b [Ee [D _]]]]. exists a, b. rewrite <- E, Ee. sp; try assumption; try reflexivity; apply A; rewrite Ee; cbn; tauto.
  - intros k s' b' H Hb. destruct (HS k s' H) as [s [Hs [E _]]]. destruct (HB b' Hb) as [b [Hb0 Eb]].
    apply bare_series_eq in E as [E1 [E2 _]]. apply bare_bus_eq in Eb as [E3 E4]. rewrite <- E1, <- E2, <- E3, <- E4. now apply (wf_refs N W).
  - intros k b' Hb. destruct (HB b' Hb) as [b [Hb0 Eb]]. apply bare_bus_eq in Eb as [E3 E4]. rewrite <- E3, <- E4.
    destruct (wf_gens N W k b Hb0) as [F L]. split; [exact F|]. specialize (HG k (b_no b)). lia.
Qed.

Lemma numbers_bare N : numbers N = map b_no (map bare_bus (n_bus N)).
Proof. unfold numbers. now rewrite map_map. Qed.
Lemma s_no_bare l : map s_no l = map s_no (map bare_series l).
Proof. now rewrite map_map. Qed.
Lemma count_bare n l : length (filter (fun g => g_bus g =? n) l) = length (filter (fun g => g_bus g =? n) (map bare_gen l)).
Proof. induction l as [|g l IH]; [reflexivity|]. cbn. destruct (g_bus g =? n); cbn; now rewrite IH. Qed.
Lemma in_bare {A} (bare : A -> A) l l' x : map bare l = map bare l' -> In x l' -> exists y, In y l /\ bare y = bare x.
Proof. intros E H. assert (X : In (bare x) (map bare l)) by (rewrite E; now apply in_map). apply in_map_iff in X as [y [Ey Hy]]. now exists y. Qed.

(** Only the data apart from positions matters. *)
Lemma wf_bare N N' : wf N -> map bare_bus (n_bus N') = map bare_bus (n_bus N) ->
  (forall k, map bare_series (els k N') = map bare_series (els k N)) -> (forall k, map bare_gen (gens k N') = map bare_gen (gens k N)) -> wf N'.
Proof.
  intros W EB ES EG. assert (EN : numbers N' = numbers N) by (rewrite !numbers_bare; now rewrite EB).
  apply (wf_part N); try assumption.
  - rewrite EN. apply (wf_bus N W).
  - intros k. rewrite s_no_bare, ES, <- s_no_bare. apply (wf_no N W).
  - intros b' H. apply (in_bare bare_bus (n_bus N) (n_bus N') b'); [now symmetry|exact H].
  - intros k s' H. destruct (in_bare bare_series (els k N) (els k N') s' (eq_sym (ES k)) H) as [s [Hs E]].
    exists s. sp; try assumption. intros a Ha. rewrite EN. destruct (wf_ends N W k s Hs) as [x [y [Ee [_ [Hx Hy]]]]].
    rewrite Ee in Ha. destruct Ha as [<-|[<-|[]]]; assumption.
  - intros k n. rewrite (count_bare n (gens k N')), EG, <- count_bare. lia.
Qed.
Lemma bare_update_bus N : map bare_bus (n_bus (update_all N)) = map bare_bus (n_bus N).
Proof. rewrite update_bus, map_map. cbn. rewrite (numbered_map _ (fun x => bare_bus (refreshed (update_all N) x))); reflexivity. Qed.
Lemma bare_update_els k N : map bare_series (els k (update_all N)) = map bare_series (els k N).
Proof. rewrite update_els. unfold place_series. rewrite map_map. rewrite numbered_map; reflexivity. Qed.
Lemma bare_update_gens k N : map bare_gen (gens k (update_all N)) = map bare_gen (gens k N).
Proof. rewrite update_gens. unfold place_gens. rewrite map_map. rewrite numbered_map; reflexivity. Qed.
Lemma wf_update N : wf N -> wf (update_all N).
Proof. intros W. apply (wf_bare N); [exact W|apply bare_update_bus| |]; intros k; [apply bare_update_els|apply bare_update_gens]. Qed.

Lemma Forall2_in_l {A B} (R : A -> B -> Prop) l m x : Forall2 R l m -> In x l -> exists y, In y m /\ R x y.
Proof.
  intros H. induction H as [|a b l m P _ IH]; intros [].
  - subst a. exists b. split; [now left|exact P].
  - destruct (IH H) as [y [Hy Py]]. exists y. split; [now right|exact Py].
Qed.
Lemma Forall2_in_r {A B} (R : A -> B -> Prop) l m y : Forall2 R l m -> In y m -> exists x, In x l /\ R x y.
Proof.
  intros H. induction H as [|a b l m P _ IH]; intros [].
  - subst b. exists a. split; [now left|exact P].
  - destruct (IH H) as [x [Hx Px]]. exists x. split; [now right|exact Px].
Qed.

(** *** The graph *)
Definition link (N : net) (a b : nat) : Prop := exists k s, In s (els k N) /\ In a (s_ends s) /\ In b (s_ends s).
Definition joined (N : net) : nat -> nat -> Prop := clos_refl_trans nat (link N).
Lemma link_sym N a b : link N a b -> link N b a.
Proof. intros [k [s [H [Ha Hb]]]]. now exists k, s. Qed.
Lemma joined_sym N a b : joined N a b -> joined N b a.
Proof. intros H. induction H as [x y H| |x y z _ IH1 _ IH2]; [apply rt_step, link_sym, H|apply rt_refl|now apply rt_trans with y]. Qed.
Definition num (N : net) (i : nat) : nat := nth i (numbers N) 0.
Lemma num_nth N i b : nth_error (n_bus N) i = Some b -> num N i = b_no b.
Proof. intros H. unfold num, numbers. apply nth_error_nth. now rewrite nth_error_map, H. Qed.
Lemma num_in N a : In a (numbers N) -> exists i, i < length (n_bus N) /\ num N i = a.
Proof.
  intros H. unfold numbers in H. apply in_map_iff in H as [b [<- H]]. apply In_nth_error in H as [i H]. exists i. split.
  - apply nth_error_Some. congruence.
  - now apply num_nth.
Qed.
Lemma in_els N k s : In s (els k N) -> In s (n_lines N ++ n_trafos N).
Proof. intros H. apply in_or_app. destruct k; auto. Qed.
Lemma in_both N s : In s (n_lines N ++ n_trafos N) -> exists k, In s (els k N).
Proof. intros H. apply in_app_or in H as [H|H]; [now exists Lines|now exists Trafos]. Qed.

Section Graph.
Variable N : net.
Hypothesis S : settled N.
Hypothesis W : wf N.
Hypothesis B0 : n_bus N <> [].
Hypothesis E0 : n_lines N ++ n_trafos N <> [].

Lemma nodes_ok : nodes N = Ok (seq 0 (length (n_bus N))).
Proof.
  unfold nodes. destruct (n_bus N) as [|b l] eqn:E; [congruence|]. rewrite <- E. f_equal. apply nth_error_ext. intros i.
  rewrite nth_error_map. destruct (nth_error (n_bus N) i) as [x|] eqn:Ei; cbn.
  - assert (i < length (n_bus N)) by (apply nth_error_Some; congruence).
    rewrite nth_error_nth' with (d := 0) by (rewrite seq_length; lia). rewrite seq_nth by lia. now rewrite (st_bus N S i x Ei).
  - symmetry. apply nth_error_None. rewrite seq_length. now apply nth_error_None.
Qed.
Lemma edges_ok : exists E, edges N = Ok E /\ Forall2 (fun s e => s_pos s = [fst e; snd e]) (n_lines N ++ n_trafos N) E.
Proof.
  assert (T : forall s, In s (n_lines N ++ n_trafos N) ->
    exists e, (do a <- at_ (s_pos s) 0; do b <- at_ (s_pos s) 1; Ok (a, b)) = Ok e /\ s_pos s = [fst e; snd e]).
  { intros s H. apply in_both in H as [k H]. destruct (s_pos_two N S W k s H) as [i [j [_ [_ [E _]]]]]. exists (i, j).
    rewrite E. now split. }
  assert (X : forall l, (forall s, In s l -> In s (n_lines N ++ n_trafos N)) -> exists E,
    mapM (fun s => do a <- at_ (s_pos s) 0; do b <- at_ (s_pos s) 1; Ok (a, b)) l = Ok E /\ Forall2 (fun s e => s_pos s = [fst e; snd e]) l E).
  { induction l as [|s l IH]; intros Hl; [exists []; split; [reflexivity|constructor]|].
    destruct (T s (Hl s (or_introl eq_refl))) as [e [He Pe]]. destruct IH as [E [HE PE]]; [intros x Hx; apply Hl; now right|].
    exists (e :: E). split; [|now constructor]. cbn. rewrite He. cbn. now rewrite HE. }
  destruct (X _ (fun s H => H)) as [E [HE PE]]. exists E. split; [|exact PE].
  unfold edges. destruct (n_lines N) as [|s l] eqn:EL, (n_trafos N) as [|u m] eqn:ET; try exact HE. now elim E0.
Qed.

Variable E : list (nat * nat).
Hypothesis HE : Forall2 (fun s e => s_pos s = [fst e; snd e]) (n_lines N ++ n_trafos N) E.

Lemma edge_series e : In e E -> exists k s, In s (els k N) /\ s_pos s = [fst e; snd e].
Proof.
  intros H. destruct (Forall2_in_r _ _ _ e HE H) as [s [Hs P]]. apply in_both in Hs as [k Hs]. now exists k, s.
Qed.
Lemma series_edge k s : In s (els k N) -> exists e, In e E /\ s_pos s = [fst e; snd e].
Proof.
  intros H. apply in_els in H. exact (Forall2_in_l _ _ _ s HE H).
Qed.
Lemma edge_nodes e : In e E -> fst e < length (n_bus N) /\ snd e < length (n_bus N).
Proof.
  intros H. destruct (edge_series e H) as [k [s [Hs P]]]. destruct (s_pos_two N S W k s Hs) as [i [j [bi [bj [E1 [_ [Hi [Hj _]]]]]]]].
  rewrite P in E1. injection E1 as -> ->. split; apply nth_error_Some; congruence.
Qed.
Lemma graph_nodes_ok : graph_nodes (seq 0 (length (n_bus N))) E = seq 0 (length (n_bus N)).
Proof.
  unfold graph_nodes. apply fromkeys_app; [apply seq_NoDup|]. intros x H. apply in_flat_map in H as [e [He H]].
  apply in_seq. destruct (edge_nodes e He). destruct H as [<-|[<-|[]]]; lia.
Qed.
Lemma conn_joined i j : conn E i j -> joined N (num N i) (num N j).
Proof.
  intros H. induction H as [x y I| |x y _ IH|x y z _ IH1 _ IH2].
  - destruct (edge_series _ I) as [k [s [Hs P]]]. cbn in P.
    assert (X : forall n, In n (s_pos s) -> In (num N n) (s_ends s)).
    { intros n Hn. apply (s_pos_in N S W k s Hs) in Hn as [b [Hb Ib]]. now rewrite (num_nth N n b Hb). }
    apply rt_step. exists k, s. sp; [exact Hs| |]; apply X; rewrite P; cbn; tauto.
  - apply rt_refl.
  - now apply joined_sym.
  - now apply rt_trans with (num N y).
Qed.
Lemma num_inj i j : i < length (n_bus N) -> j < length (n_bus N) -> num N i = num N j -> i = j.
Proof.
  intros Hi Hj. unfold num. apply (proj1 (NoDup_nth (numbers N) 0) (wf_bus N W)); unfold numbers; now rewrite map_length.
Qed.
Lemma joined_conn a b : joined N a b -> forall i j, i < length (n_bus N) -> j < length (n_bus N) -> num N i = a -> num N j = b -> conn E i j.
Proof.
  intros H. apply clos_rt_rt1n in H. induction H as [a|a m b L _ IH]; intros i j Hi Hj Ea Eb.
  - assert (i = j) as -> by (apply num_inj; congruence). apply rst_refl.
  - destruct L as [k [s [Hs [Ha Hm]]]].
    assert (Hmn : In m (numbers N)).
    { destruct (wf_ends N W k s Hs) as [x [y [Ee [_ [Hx Hy]]]]]. rewrite Ee in Hm. destruct Hm as [<-|[<-|[]]]; assumption. }
    destruct (num_in N m Hmn) as [p [Hp Ep]]. apply rst_trans with p; [|now apply IH].
    assert (Q : forall n, n < length (n_bus N) -> In (num N n) (s_ends s) -> In n (s_pos s)).
    { intros n Hn I. apply (s_pos_in N S W k s Hs). destruct (nth_error (n_bus N) n) as [b0|] eqn:X.
      - exists b0. split; [reflexivity|]. now rewrite <- (num_nth N n b0 X).
      - apply nth_error_None in X. lia. }
    assert (Ii : In i (s_pos s)) by (apply Q; [exact Hi|now rewrite Ea]).
    assert (Ip : In p (s_pos s)) by (apply Q; [exact Hp|now rewrite Ep]).
    destruct (series_edge k s Hs) as [[x y] [He P]]. cbn in P. rewrite P in Ii, Ip.
    destruct Ii as [<-|[<-|[]]], Ip as [<-|[<-|[]]]; try apply rst_refl.
    + now apply rst_step.
    + apply rst_sym. now apply rst_step.
Qed.
End Graph.

(** *** The elements collected for the classes *)
Lemma map_some_inj {A} (l m : list A) : map Some l = map Some m -> l = m.
Proof. revert m. induction l as [|x l IH]; intros [|y m] H; try discriminate; [reflexivity|]. cbn in H. injection H as -> H. f_equal. now apply IH. Qed.
Lemma at_some {A} (l : list A) p x : at_ l p = Ok x <-> nth_error l p = Some x.
Proof. unfold at_. destruct (nth_error l p); split; intros H; try discriminate; injection H as ->; reflexivity. Qed.
Lemma positions_perm {A} (l : list A) p1 p2 x1 x2 :
  Forall2 (fun p x => at_ l p = Ok x) p1 x1 -> Forall2 (fun p x => at_ l p = Ok x) p2 x2 -> Permutation p1 p2 -> Permutation x1 x2.
Proof.
  assert (M : forall p x, Forall2 (fun p x => at_ l p = Ok x) p x -> map (nth_error l) p = map Some x).
  { intros p x H. induction H as [|a b p x H _ IH]; [reflexivity|]. cbn. apply at_some in H. now rewrite H, IH. }
  intros H1 H2 P. apply (Permutation_map (nth_error l)) in P. rewrite (M _ _ H1), (M _ _ H2) in P.
  apply Permutation_map_inv in P as [z [E P]]. apply map_some_inj in E. subst z. now symmetry.
Qed.
Lemma Forall2_concat {A B} (R : A -> B -> Prop) P Q : Forall2 (Forall2 R) P Q -> Forall2 R (concat P) (concat Q).
Proof. intros H. induction H; cbn; [constructor|]. now apply Forall2_app. Qed.

Section Collect.
Context {A : Type}.
Variable l : list A.
Variable at_of : A -> nat.
Hypothesis Hl : in_place at_of l.
Variable ref : bus -> list nat.
Variable T : bus -> A -> Prop.
Variable BS : list (list bus).
Hypothesis R : forall B b, In B BS -> In b B -> forall p, In p (ref b) <-> exists x, nth_error l p = Some x /\ T b x.

Definition got (B : list bus) (xs : list A) : Prop := objects l (fromkeys (flat_map ref B)) = Ok xs.
Lemma keys_in B p : In B BS -> (In p (fromkeys (flat_map ref B)) <-> exists x, nth_error l p = Some x /\ exists b, In b B /\ T b x).
Proof.
  intros HB. rewrite fromkeys_in, in_flat_map. split.
  - intros [b [Hb H]]. apply (R B b HB Hb) in H as [x [Hx Tx]]. exists x. split; [exact Hx|now exists b].
  - intros [x [Hx [b [Hb Tx]]]]. exists b. split; [exact Hb|]. apply (R B b HB Hb). now exists x.
Qed.
Lemma collect_ok B : In B BS -> exists xs, got B xs.
Proof.
  intros HB. apply mapM_total. intros p Hp. apply (keys_in B p HB) in Hp as [x [Hx _]]. exists x. now apply at_some.
Qed.
Lemma collect_in B xs : In B BS -> got B xs -> forall x, In x xs <-> In x l /\ exists b, In b B /\ T b x.
Proof.
  intros HB G x. unfold got, objects in G. apply mapM_Ok in G. split.
  - intros H. destruct (Forall2_in_r _ _ _ x G H) as [p [Hp E]]. apply at_some in E. apply (keys_in B p HB) in Hp as [y [Hy Ty]].
    rewrite E in Hy. injection Hy as <-. split; [now apply nth_error_In in E|exact Ty].
  - intros [Hx Tx]. apply In_nth_error in Hx as [p Hp]. assert (K : In p (fromkeys (flat_map ref B))) by (apply (keys_in B p HB); now exists x).
    destruct (Forall2_in_l _ _ _ p G K) as [y [Hy E]]. apply at_some in E. rewrite Hp in E. now injection E as <-.
Qed.
Hypothesis U : forall x i j B C b c, In x l -> nth_error BS i = Some B -> nth_error BS j = Some C -> In b B -> In c C -> T b x -> T c x -> i = j.
Lemma collect_perm LS q : Forall2 got BS LS -> (forall x, In x l -> (q x = true <-> exists B b, In B BS /\ In b B /\ T b x)) ->
  Permutation (concat LS) (filter q l).
Proof.
  intros G Q. set (Pos := map (fun B => fromkeys (flat_map ref B)) BS).
  assert (F : Forall2 (Forall2 (fun p x => at_ l p = Ok x)) Pos LS).
  { unfold Pos. clear -G. induction G as [|B xs BS LS H _ IH]; cbn; constructor; [|exact IH]. now apply mapM_Ok. }
  apply (positions_perm l (concat Pos) (map at_of (filter q l))).
  - now apply Forall2_concat.
  - apply mapM_Ok. exact (objects_filter at_of q l Hl).
  - apply NoDup_Permutation.
    + apply nodup_concat.
      * apply Forall_forall. intros c Hc. unfold Pos in Hc. apply in_map_iff in Hc as [B [<- _]]. apply fromkeys_nodup.
      * intros i j c d p Hi Hj Hc Hd. unfold Pos in Hi, Hj. rewrite nth_error_map in Hi, Hj.
        destruct (nth_error BS i) as [B|] eqn:Ei; [|discriminate]. destruct (nth_error BS j) as [C|] eqn:Ej; [|discriminate].
        cbn in Hi, Hj. injection Hi as <-. injection Hj as <-.
        apply (keys_in B p (nth_error_In _ _ Ei)) in Hc as [x [Hx [b [Hb Tb]]]].
        apply (keys_in C p (nth_error_In _ _ Ej)) in Hd as [y [Hy [c [Hc Tc]]]].
        rewrite Hx in Hy. injection Hy as <-. apply (U x i j B C b c); try assumption. now apply nth_error_In in Hx.
    + assert (N : NoDup (map at_of l)).
      { replace (map at_of l) with (seq 0 (length l)); [apply seq_NoDup|]. apply nth_error_ext. intros i. rewrite nth_error_map.
        destruct (nth_error l i) as [x|] eqn:E; cbn.
        - assert (i < length l) by (apply nth_error_Some; congruence). rewrite nth_error_nth' with (d := 0) by (rewrite seq_length; lia).
          rewrite seq_nth by lia. now rewrite (Hl i x E).
        - apply nth_error_None. rewrite seq_length. now apply nth_error_None. }
      clear -N. induction l as [|x r IH]; cbn; [constructor|]. cbn in N. apply NoDup_cons_iff in N as [Hx N].
      destruct (q x); cbn; [|now apply IH]. constructor; [|now apply IH]. intros H. apply Hx. apply in_map_iff in H as [y [E H]].
      apply filter_In in H as [H _]. rewrite <- E. now apply in_map.
    + intros p. rewrite in_concat. split.
      * intros [c [Hc Hp]]. unfold Pos in Hc. apply in_map_iff in Hc as [B [<- HB]]. apply (keys_in B p HB) in Hp as [x [Hx [b [Hb Tb]]]].
        apply in_map_iff. exists x. split; [exact (Hl p x Hx)|]. apply nth_error_In in Hx. apply filter_In. split; [exact Hx|].
        apply (Q x Hx). now exists B, b.
      * intros H. apply in_map_iff in H as [x [<- H]]. apply filter_In in H as [H E]. apply (Q x H) in E as [B [b [HB [Hb Tb]]]].
        exists (fromkeys (flat_map ref B)). split; [unfold Pos; apply in_map_iff; now exists B|]. apply (keys_in B _ HB).
        apply In_nth_error in H as [p Hp]. exists x. split; [now rewrite (Hl p x Hp)|now exists b].
Qed.
End Collect.

Lemma bus_at_ok N i b : settled N -> nth_error (n_bus N) i = Some b -> bus_at N i = Ok b.
Proof.
  intros S H. unfold bus_at. destruct (find (fun b => b_at b =? i) (rev (n_bus N))) as [x|] eqn:F.
  - apply find_some in F as [Hx E]. apply in_rev in Hx. apply In_nth_error in Hx as [j Hj]. apply Nat.eqb_eq in E.
    rewrite (st_bus N S j x Hj) in E. subst j. rewrite H in Hj. now injection Hj as ->.
  - pose proof (find_none _ _ F b) as X. cbn in X. rewrite (st_bus N S i b H), Nat.eqb_refl in X. discriminate X. apply -> in_rev.
    now apply nth_error_In in H.
Qed.
Lemma filter_length_le {A} (f g : A -> bool) l : length (filter f (filter g l)) <= length (filter f l).
Proof. induction l as [|x l IH]; [reflexivity|]. cbn. destruct (g x); cbn; destruct (f x); cbn; lia. Qed.
Lemma perm_filter_length {A} (f : A -> bool) l m : Permutation l m -> length (filter f l) = length (filter f m).
Proof. intros H. induction H; cbn; try (destruct (f x)); try (destruct (f y)); cbn; lia. Qed.
Lemma concat_part {A} (L : list (list A)) l : In l L -> exists u v, concat L = u ++ l ++ v.
Proof. intros H. apply in_split in H as [X [Y ->]]. exists (concat X), (concat Y). rewrite concat_app. reflexivity. Qed.
Lemma nodup_mid {A} (u v w : list A) : NoDup (u ++ v ++ w) -> NoDup v.
Proof.
  intros H. induction u as [|x u IH]; cbn in H; [|apply NoDup_cons_iff in H as [_ H]; now apply IH].
  induction v as [|x v IH]; [constructor|]. cbn in H. apply NoDup_cons_iff in H as [Hx H]. constructor; [|now apply IH].
  intros I. apply Hx. apply in_or_app. now left.
Qed.

(** *** Islands *)
(** What the islands of a network without isolated buses or elements out of service are. *)
Record islands_of (N : net) (J : list net) : Prop := mkIslands {
  is_bus : Permutation (map bare_bus (flat_map n_bus J)) (map bare_bus (n_bus N));
  is_conn : forall i j X Y a b, nth_error J i = Some X -> nth_error J j = Some Y -> In a (numbers X) -> In b (numbers Y) ->
    (joined N a b <-> i = j);
  is_els : forall k, Permutation (map bare_series (flat_map (els k) J)) (map bare_series (els k N));
  is_gens : forall k, Permutation (map bare_gen (flat_map (gens k) J))
    (map bare_gen (filter (fun g => existsb (Nat.eqb (g_bus g)) (numbers N)) (gens k N)));
  is_wf : forall X, In X J -> wf X /\ settled X /\ n_bus X <> [];
  is_gen : forall X k g, In X J -> In g (gens k X) -> In (g_bus g) (numbers X) }.

Definition ends_at (b : bus) (s : series) : Prop := In (b_no b) (s_ends s).
Definition sits_at (b : bus) (g : gen) : Prop := g_bus g = b_no b.
Section Islands.
Variable N : net.
Hypothesis S : settled N.
Hypothesis W : wf N.
Hypothesis B0 : n_bus N <> [].
Hypothesis E0 : n_lines N ++ n_trafos N <> [].
Variable order : list (list nat) -> list (list nat).
Hypothesis O : forall P, same_classes P (order P).


(** An island before its positions are set. *)
Definition raw (c : list nat) : res net :=
  do B <- mapM (bus_at N) c;
  do C <- objects (n_conv N) (fromkeys (flat_map (fun b => r_conv (b_pos b)) B));
  do R <- objects (n_res N) (fromkeys (flat_map (fun b => r_res (b_pos b)) B));
  do H <- objects (n_hydro N) (fromkeys (flat_map (fun b => r_hydro (b_pos b)) B));
  do L <- objects (n_lines N) (fromkeys (flat_map (fun b => r_lines (b_pos b)) B));
  do T <- objects (n_trafos N) (fromkeys (flat_map (fun b => r_trafos (b_pos b)) B));
  Ok (mkNet B L T C R H).
Lemma island_raw c Y : raw c = Ok Y -> island N c = Ok (update_all Y).
Proof.
  unfold raw, island. intros H.
  destruct (mapM (bus_at N) c) as [B|e]; [rewrite bind_ok in H |- *|discriminate].
  destruct (objects (n_conv N) _) as [C|e]; [rewrite bind_ok in H |- *|discriminate].
  destruct (objects (n_res N) _) as [R|e]; [rewrite bind_ok in H |- *|discriminate].
  destruct (objects (n_hydro N) _) as [K|e]; [rewrite bind_ok in H |- *|discriminate].
  destruct (objects (n_lines N) _) as [L|e]; [rewrite bind_ok in H |- *|discriminate].
  destruct (objects (n_trafos N) _) as [T|e]; [rewrite bind_ok in H |- *|discriminate].
  now injection H as <-.
Qed.
Lemma raw_ok c : (forall i, In i c -> i < length (n_bus N)) -> exists Y, raw c = Ok Y /\
  Forall2 (fun i b => at_ (n_bus N) i = Ok b) c (n_bus Y) /\
  (forall k, got (els k N) (fun b => sref k (b_pos b)) (n_bus Y) (els k Y)) /\
  (forall k, got (gens k N) (fun b => gref k (b_pos b)) (n_bus Y) (gens k Y)).
Proof.
  intros Hc. assert (XB : exists B, mapM (at_ (n_bus N)) c = Ok B).
  { apply mapM_total. intros i Hi. specialize (Hc i Hi). destruct (nth_error (n_bus N) i) as [b|] eqn:X; [exists b; now apply at_some|].
    apply nth_error_None in X. lia. }
  destruct XB as [B XB]. assert (EB : mapM (bus_at N) c = Ok B).
  { apply mapM_Ok. apply mapM_Ok in XB. clear -XB S. induction XB as [|i b c B H _ IH]; constructor; [|exact IH].
    apply bus_at_ok; [exact S|now apply at_some]. }
  apply mapM_Ok in XB.
  assert (IB : forall b, In b B -> In b (n_bus N)).
  { intros b Hb. destruct (Forall2_in_r _ _ _ b XB Hb) as [i [_ E]]. apply at_some in E. now apply nth_error_In in E. }
  assert (XS : forall k, exists l, got (els k N) (fun b => sref k (b_pos b)) B l).
  { intros k. apply (collect_ok (els k N) (fun b => sref k (b_pos b)) ends_at [B]); [|now left].
    intros C b [<-|[]] Hb. apply (sref_in N S W). now apply IB. }
  assert (XG : forall k, exists l, got (gens k N) (fun b => gref k (b_pos b)) B l).
  { intros k. apply (collect_ok (gens k N) (fun b => gref k (b_pos b)) sits_at [B]); [|now left].
    intros C b [<-|[]] Hb. apply (gref_in N S W). now apply IB. }
  destruct (XS Lines) as [L HL]. destruct (XS Trafos) as [T HT].
  destruct (XG Conv) as [C HC]. destruct (XG Res) as [R HR]. destruct (XG Hydro) as [H HH].
  exists (mkNet B L T C R H). sp.
  - unfold raw. rewrite EB, bind_ok. unfold got in *. cbn [els gens sref gref] in *.
    rewrite HC, bind_ok, HR, bind_ok, HH, bind_ok, HL, bind_ok, HT, bind_ok. reflexivity.
  - exact XB.
  - intros []; assumption.
  - intros []; assumption.
Qed.

Theorem islands_found : exists J, find_islands order N = Ok J /\ islands_of N J.
Proof.
  destruct (edges_ok N S W E0) as [E [EE HE]].
  set (n := length (n_bus N)).
  assert (CL : classes (seq 0 n) E (order (components (seq 0 n) E))).
  { apply (classes_order _ _ (components (seq 0 n) E)); [apply O|]. apply classes_components.
    intros e He. destruct (edge_nodes N S W E HE e He). split; apply in_seq; unfold n; lia. }
  assert (FI : find_islands order N = mapM (island N) (order (components (seq 0 n) E))).
  { unfold find_islands. rewrite (nodes_ok N S B0), bind_ok, EE, bind_ok, (graph_nodes_ok N S W E HE). reflexivity. }
  remember (order (components (seq 0 n) E)) as Q eqn:EQ. clear EQ.
  (* the buses of the classes *)
  assert (IB : forall c, In c Q -> forall i, In i c -> i < n).
  { intros c Hc i Hi. assert (X : In i (seq 0 n)) by (apply (Permutation_in _ (cl_all _ _ _ CL)); apply in_concat; now exists c).
    apply in_seq in X. lia. }
  assert (XR : exists RW, Forall2 (fun c Y => raw c = Ok Y /\
    Forall2 (fun i b => at_ (n_bus N) i = Ok b) c (n_bus Y) /\
    (forall k, got (els k N) (fun b => sref k (b_pos b)) (n_bus Y) (els k Y)) /\
    (forall k, got (gens k N) (fun b => gref k (b_pos b)) (n_bus Y) (gens k Y))) Q RW).
  { clear -IB S W. induction Q as [|c Q IH]; [exists []; constructor|].
    destruct IH as [RW H]; [intros d Hd; apply IB; now right|]. destruct (raw_ok c (IB c (or_introl eq_refl))) as [Y HY].
    exists (Y :: RW). now constructor. }
  destruct XR as [RW FR].
  assert (EJ : find_islands order N = Ok (map update_all RW)).
  { rewrite FI. apply mapM_Ok. clear -FR. induction FR as [|c Y Q RW [H _] _ IH]; cbn; constructor; [|exact IH]. now apply island_raw. }
  exists (map update_all RW). split; [exact EJ|]. clear EJ FI.
  remember (map n_bus RW) as BS eqn:EBS.
  assert (FB : Forall2 (fun c B => Forall2 (fun i b => at_ (n_bus N) i = Ok b) c B) Q BS).
  { subst BS. clear -FR. induction FR as [|c Y Q RW [_ [H _]] _ IH]; cbn; constructor; assumption. }
  assert (BP : Permutation (concat BS) (n_bus N)).
  { apply (positions_perm (n_bus N) (concat Q) (seq 0 n)).
    - now apply Forall2_concat.
    - apply mapM_Ok. replace (seq 0 n) with (map b_at (filter (fun _ => true) (n_bus N))).
      + rewrite <- (filter_all (fun _ => true) (n_bus N)) at 3 by reflexivity. exact (objects_filter b_at (fun _ => true) _ (settled_buses N S)).
      + rewrite filter_all by reflexivity. pose proof (nodes_ok N S B0) as X. unfold nodes in X.
        unfold n. destruct (n_bus N) eqn:Y; [congruence|]. apply (f_equal (fun r => match r with Ok v => v | Err _ => [] end)) in X. exact X.
    - apply (cl_all _ _ _ CL). }
  assert (BI : forall B b, In B BS -> In b B -> In b (n_bus N)).
  { intros B b HB Hb. apply (Permutation_in _ BP). apply in_concat. now exists B. }
  assert (BX : forall i B b, nth_error BS i = Some B -> In b B -> exists c p, nth_error Q i = Some c /\ In p c /\ nth_error (n_bus N) p = Some b).
  { intros i B b HB Hb. clear -FB HB Hb. revert i HB. induction FB as [|c C Q BS H _ IH]; intros [|i] HB; try discriminate.
    - cbn in HB. injection HB as ->. destruct (Forall2_in_r _ _ _ b H Hb) as [p [Hp Ep]]. exists c, p. cbn. sp; try assumption; [reflexivity|].
      now apply at_some.
    - cbn in HB. exact (IH i HB). }
  assert (BY : forall i c p, nth_error Q i = Some c -> In p c -> exists B b, nth_error BS i = Some B /\ In b B /\ nth_error (n_bus N) p = Some b).
  { intros i c p Hc Hp. clear -FB Hc Hp. revert i Hc. induction FB as [|d C Q BS H _ IH]; intros [|i] Hc; try discriminate.
    - cbn in Hc. injection Hc as ->. destruct (Forall2_in_l _ _ _ p H Hp) as [b [Hb Eb]]. exists C, b. cbn. sp; try assumption; [reflexivity|].
      now apply at_some.
    - cbn in Hc. exact (IH i Hc). }
  assert (QN : NoDup (concat Q)) by (apply (Permutation_NoDup (Permutation_sym (cl_all _ _ _ CL))), seq_NoDup).
  assert (JC : forall i j B C b c, nth_error BS i = Some B -> nth_error BS j = Some C -> In b B -> In c C ->
    (joined N (b_no b) (b_no c) <-> i = j)).
  { intros i j B C b c HB HC Hb Hc. destruct (BX i B b HB Hb) as [u [p [Hu [Hp Ep]]]]. destruct (BX j C c HC Hc) as [v [q [Hv [Hq Eq]]]].
    assert (Lp : p < length (n_bus N)) by (apply nth_error_Some; congruence). assert (Lq : q < length (n_bus N)) by (apply nth_error_Some; congruence).
    rewrite <- (num_nth N p b Ep), <- (num_nth N q c Eq). split.
    - intros X. apply (joined_conn N S W E HE) with (i := p) (j := q) in X; try assumption; try reflexivity.
      apply (nodup_concat_inj Q QN i j u v q); try assumption. apply (classes_closed _ _ _ u p q CL); try assumption. now apply nth_error_In in Hu.
    - intros ->. rewrite Hu in Hv. injection Hv as <-. apply (conn_joined N S W E HE). apply (cl_conn _ _ _ CL u); try assumption.
      now apply nth_error_In in Hu. }
  (* the references of the buses *)
  assert (RS : forall k B b, In B BS -> In b B -> forall p, In p (sref k (b_pos b)) <-> exists s, nth_error (els k N) p = Some s /\ ends_at b s).
  { intros k B b HB Hb. apply (sref_in N S W). now apply (BI B). }
  assert (RG : forall k B b, In B BS -> In b B -> forall p, In p (gref k (b_pos b)) <-> exists g, nth_error (gens k N) p = Some g /\ sits_at b g).
  { intros k B b HB Hb. apply (gref_in N S W). now apply (BI B). }
  assert (US : forall k x i j B C b c, In x (els k N) -> nth_error BS i = Some B -> nth_error BS j = Some C -> In b B -> In c C ->
    ends_at b x -> ends_at c x -> i = j).
  { intros k x i j B C b c Hx HB HC Hb Hc Tb Tc. apply (JC i j B C b c); try assumption. apply rt_step. now exists k, x. }
  assert (UG : forall k x i j B C b c, In x (gens k N) -> nth_error BS i = Some B -> nth_error BS j = Some C -> In b B -> In c C ->
    sits_at b x -> sits_at c x -> i = j).
  { intros k x i j B C b c Hx HB HC Hb Hc Tb Tc. apply (JC i j B C b c); try assumption. unfold sits_at in Tb, Tc.
    replace (b_no c) with (b_no b) by congruence. apply rt_refl. }
  (* what is collected *)
  assert (GS : forall k, Forall2 (got (els k N) (fun b => sref k (b_pos b))) BS (map (els k) RW)).
  { intros k. subst BS. clear -FR. induction FR as [|c Y Q RW [_ [_ [H _]]] _ IH]; cbn; constructor; [apply H|assumption]. }
  assert (GG : forall k, Forall2 (got (gens k N) (fun b => gref k (b_pos b))) BS (map (gens k) RW)).
  { intros k. subst BS. clear -FR. induction FR as [|c Y Q RW [_ [_ [_ H]]] _ IH]; cbn; constructor; [apply H|assumption]. }
  assert (PS : forall k LS, Forall2 (got (els k N) (fun b => sref k (b_pos b))) BS LS -> Permutation (concat LS) (els k N)).
  { intros k LS G. rewrite <- (filter_all (fun _ => true) (els k N)) by reflexivity.
    apply (collect_perm (els k N) s_at (settled_series k N S) (fun b => sref k (b_pos b)) ends_at BS (RS k) (US k) LS); [exact G|].
    intros s Hs. split; [intros _|reflexivity]. destruct (wf_ends N W k s Hs) as [a [b [Ee [_ [Ha _]]]]].
    unfold numbers in Ha. apply in_map_iff in Ha as [x [Ex Hx]]. apply (Permutation_in _ (Permutation_sym BP)) in Hx.
    apply in_concat in Hx as [B [HB Hb]]. exists B, x. sp; try assumption. unfold ends_at. rewrite Ee, Ex. now left. }
  assert (PG : forall k LS, Forall2 (got (gens k N) (fun b => gref k (b_pos b))) BS LS ->
    Permutation (concat LS) (filter (fun g => existsb (Nat.eqb (g_bus g)) (numbers N)) (gens k N))).
  { intros k LS G.
    apply (collect_perm (gens k N) g_at (settled_gens k N S) (fun b => gref k (b_pos b)) sits_at BS (RG k) (UG k) LS); [exact G|].
    intros g Hg. rewrite existsb_eqb. unfold numbers. rewrite in_map_iff. split.
    - intros [x [Ex Hx]]. apply (Permutation_in _ (Permutation_sym BP)) in Hx. apply in_concat in Hx as [B [HB Hb]]. exists B, x. sp; try assumption. now symmetry.
    - intros [B [b [HB [Hb Tb]]]]. exists b. split; [now symmetry|now apply (BI B)]. }
  assert (NB : NoDup (map b_no (concat BS))) by (apply (Permutation_NoDup (Permutation_map b_no (Permutation_sym BP))), (wf_bus N W)).
  assert (IW : forall X i, nth_error RW i = Some X -> wf X /\ n_bus X <> [] /\ forall k g, In g (gens k X) -> In (g_bus g) (numbers X)).
  { intros X i HX. assert (HB : nth_error BS i = Some (n_bus X)) by (subst BS; now rewrite nth_error_map, HX).
    assert (HI : In X RW) by now apply nth_error_In in HX.
    assert (HBI : In (n_bus X) BS) by now apply nth_error_In in HB.
    assert (GX : forall k, got (els k N) (fun b => sref k (b_pos b)) (n_bus X) (els k X)).
    { intros k. destruct (Forall2_in_r _ _ _ X FR HI) as [c [_ [_ [_ [H _]]]]]. apply H. }
    assert (GY : forall k, got (gens k N) (fun b => gref k (b_pos b)) (n_bus X) (gens k X)).
    { intros k. destruct (Forall2_in_r _ _ _ X FR HI) as [c [_ [_ [_ [_ H]]]]]. apply H. }
    sp.
    - apply (wf_part N); [exact W| | | | |].
      + destruct (concat_part (map (map b_no) BS) (map b_no (n_bus X))) as [u [v Euv]]; [now apply in_map|].
        rewrite concat_map, Euv in NB. exact (nodup_mid _ _ _ NB).
      + intros k. pose proof (Permutation_NoDup (Permutation_map s_no (Permutation_sym (PS k _ (GS k)))) (wf_no N W k)) as ND.
        destruct (concat_part (map (map s_no) (map (els k) RW)) (map s_no (els k X))) as [u [v Euv]]; [apply in_map; now apply in_map|].
        rewrite concat_map, Euv in ND. exact (nodup_mid _ _ _ ND).
      + intros b Hb. exists b. split; [now apply (BI (n_bus X))|reflexivity].
      + intros k s Hs. apply (collect_in (els k N) (fun b => sref k (b_pos b)) ends_at BS (RS k) (n_bus X) _ HBI (GX k)) in Hs as [Hs [b [Hb Tb]]].
        exists s. sp; [exact Hs|reflexivity|]. intros a Ha.
        assert (Han : In a (numbers N)).
        { destruct (wf_ends N W k s Hs) as [x [y [Ee [_ [Hx Hy]]]]]. rewrite Ee in Ha. destruct Ha as [<-|[<-|[]]]; assumption. }
        unfold numbers in Han. apply in_map_iff in Han as [d [<- Hd]]. apply (Permutation_in _ (Permutation_sym BP)) in Hd.
        apply in_concat in Hd as [D [HD Hd]]. apply In_nth_error in HD as [j Hj].
        assert (i = j) by (apply (US k s i j (n_bus X) D b d); assumption). subst j. rewrite HB in Hj. injection Hj as <-.
        unfold numbers. now apply in_map.
      + intros k m. destruct (concat_part (map (gens k) RW) (gens k X)) as [u [v Euv]]; [now apply in_map|].
        pose proof (perm_filter_length (fun g => g_bus g =? m) _ _ (PG k _ (GG k))) as L. rewrite Euv, !filter_app, !app_length in L.
        pose proof (filter_length_le (fun g => g_bus g =? m) (fun g => existsb (Nat.eqb (g_bus g)) (numbers N)) (gens k N)). lia.
    - intros Z. destruct (Forall2_in_r _ _ _ X FR HI) as [c [Hc [_ [H _]]]]. rewrite Z in H. inversion H. subst c. now apply (cl_some _ _ _ CL []).
    - intros k g Hg. apply (collect_in (gens k N) (fun b => gref k (b_pos b)) sits_at BS (RG k) (n_bus X) _ HBI (GY k)) in Hg as [_ [b [Hb Tb]]].
      unfold sits_at in Tb. rewrite Tb. unfold numbers. now apply in_map. }
  constructor.
  - rewrite <- BP. subst BS. clear. rewrite flat_map_concat_map, !concat_map, !map_map.
    apply Permutation_refl' . f_equal. apply map_ext. intros X. apply bare_update_bus.
  - intros i j X Y a b HX HY Ha Hb. rewrite nth_error_map in HX, HY.
    destruct (nth_error RW i) as [X0|] eqn:EX; [|discriminate]. destruct (nth_error RW j) as [Y0|] eqn:EY; [|discriminate].
    cbn in HX, HY. injection HX as <-. injection HY as <-. rewrite numbers_bare, bare_update_bus, <- numbers_bare in Ha, Hb.
    unfold numbers in Ha, Hb. apply in_map_iff in Ha as [x [<- Ha]]. apply in_map_iff in Hb as [y [<- Hb]].
    apply (JC i j (n_bus X0) (n_bus Y0) x y); try assumption; subst BS; now rewrite nth_error_map, ?EX, ?EY.
  - intros k. rewrite <- (PS k _ (GS k)). clear. rewrite flat_map_concat_map, !concat_map, !map_map.
    apply Permutation_refl'. f_equal. apply map_ext. intros X. apply bare_update_els.
  - intros k. rewrite <- (PG k _ (GG k)). clear. rewrite flat_map_concat_map, !concat_map, !map_map.
    apply Permutation_refl'. f_equal. apply map_ext. intros X. apply bare_update_gens.
  - intros X HX. apply in_map_iff in HX as [X0 [<- HX]]. apply In_nth_error in HX as [i HX]. destruct (IW X0 i HX) as [H1 [H2 _]].
    sp; [now apply wf_update|apply settled_update|]. intros Z. pose proof (bare_update_bus X0) as E1. rewrite Z in E1. cbn in E1.
    destruct (n_bus X0); [congruence|discriminate].
  - intros X k g HX Hg. apply in_map_iff in HX as [X0 [<- HX]]. apply In_nth_error in HX as [i HX]. destruct (IW X0 i HX) as [_ [_ H3]].
    destruct (in_bare bare_gen (gens k X0) (gens k (update_all X0)) g) as [h [Hh Eh]]; [symmetry; apply bare_update_gens|exact Hg|].
    apply bare_gen_eq in Eh as [_ <-]. rewrite numbers_bare, bare_update_bus, <- numbers_bare. now apply (H3 k).
Qed.
End Islands.

(** *** Elements out of service *)
Definition same_kind (k k' : skind) : bool := match k, k' with Lines, Lines | Trafos, Trafos => true | _, _ => false end.
Lemma els_delete_series k k' pos N :
  els k' (delete_series k pos N) = if same_kind k' k then numbered set_s_at (without pos (els k N)) else els k' N.
Proof. destruct k, k'; reflexivity. Qed.
Lemma bare_refer k l B : map bare_bus (refer_series k l B) = map bare_bus B.
Proof. unfold refer_series. now rewrite map_map. Qed.
Lemma bare_numbered_series l : map bare_series (numbered set_s_at l) = map bare_series l.
Proof. now apply numbered_map. Qed.
Lemma nodup_map_filter {A} (f : A -> nat) (q : A -> bool) l : NoDup (map f l) -> NoDup (map f (filter q l)).
Proof.
  induction l as [|x l IH]; intros H; [constructor|]. cbn in H |- *. apply NoDup_cons_iff in H as [Hx H]. destruct (q x); [|now apply IH].
  cbn. constructor; [|now apply IH]. intros I. apply Hx. apply in_map_iff in I as [y [E I]]. apply filter_In in I as [I _]. rewrite <- E. now apply in_map.
Qed.

Lemma same_kind_eq k k' : same_kind k k' = true -> k = k'.
Proof. destruct k, k'; cbn; congruence. Qed.

Lemma drop_ok k N : settled N -> wf N -> exists N', drop_off k N = Ok (N', filter (fun s => negb (s_on s)) (els k N)) /\ settled N' /\ wf N' /\
  map bare_bus (n_bus N') = map bare_bus (n_bus N) /\
  (forall k', map bare_series (els k' N') = map bare_series (if same_kind k' k then filter s_on (els k N) else els k' N)) /\
  (forall g, gens g N' = gens g N).
Proof.
  intros S W. unfold drop_off. destruct (map s_at (filter (fun s => negb (s_on s)) (els k N))) as [|p pos] eqn:E.
  - apply map_eq_nil in E. exists N. rewrite E. sp; try assumption; try reflexivity.
    intros k'. destruct (same_kind k' k) eqn:K; [|reflexivity]. apply same_kind_eq in K. subst k'. f_equal. symmetry. apply filter_all.
    intros s Hs. destruct (s_on s) eqn:O; [reflexivity|]. exfalso.
    assert (X : In s (filter (fun s => negb (s_on s)) (els k N))) by (apply filter_In; now rewrite O). rewrite E in X. destruct X.
  - rewrite <- E. clear p pos E. set (pos := map s_at (filter (fun s => negb (s_on s)) (els k N))).
    assert (EW : without pos (els k N) = filter s_on (els k N)).
    { unfold pos. rewrite (without_filter s_at); [|now apply settled_series]. apply filter_ext. intros s. apply negb_involutive. }
    assert (EB : map bare_bus (n_bus (delete_series k pos N)) = map bare_bus (n_bus N)) by apply bare_refer.
    assert (ES : forall k', map bare_series (els k' (delete_series k pos N)) = map bare_series (if same_kind k' k then filter s_on (els k N) else els k' N)).
    { intros k'. rewrite els_delete_series. destruct (same_kind k' k); [|reflexivity]. now rewrite bare_numbered_series, EW. }
    assert (EN : numbers (delete_series k pos N) = numbers N) by (rewrite !numbers_bare; now rewrite EB).
    exists (delete_series k pos N). sp; try assumption.
    + unfold pos. rewrite (objects_filter s_at); [|now apply settled_series]. reflexivity.
    + now apply settled_delete_series.
    + apply (wf_part N); try assumption.
      * rewrite EN. apply (wf_bus N W).
      * intros k'. rewrite s_no_bare, ES, <- s_no_bare. destruct (same_kind k' k); [apply nodup_map_filter|]; apply (wf_no N W).
      * intros b' H. apply (in_bare bare_bus (n_bus N) (n_bus (delete_series k pos N)) b'); [now symmetry|exact H].
      * intros k' s' H. destruct (in_bare bare_series _ (els k' (delete_series k pos N)) s' (eq_sym (ES k')) H) as [s [Hs Es]].
        assert (Hs' : In s (els k' N)).
        { destruct (same_kind k' k) eqn:K; [|exact Hs]. apply same_kind_eq in K. subst k'. now apply filter_In in Hs. }
        exists s. sp; try assumption. intros a Ha. rewrite EN. destruct (wf_ends N W k' s Hs') as [x [y [Ee [_ [Hx Hy]]]]].
        rewrite Ee in Ha. destruct Ha as [<-|[<-|[]]]; assumption.
      * intros g n. destruct g; cbn; lia.
    + intros g. destruct g; reflexivity.
Qed.

(** *** Isolated buses *)
Definition alone (N : net) (b : bus) : bool :=
  negb (existsb (fun s => existsb (Nat.eqb (b_no b)) (s_ends s)) (n_lines N ++ n_trafos N)).
Lemma alone_false N b : alone N b = false <-> exists k s, In s (els k N) /\ In (b_no b) (s_ends s).
Proof.
  unfold alone. rewrite negb_false_iff, existsb_exists. split.
  - intros [s [Hs E]]. apply in_both in Hs as [k Hs]. exists k, s. split; [exact Hs|now apply existsb_eqb].
  - intros [k [s [Hs E]]]. exists s. split; [now apply (in_els N k)|now apply existsb_eqb].
Qed.
Lemma ninsert_low x l : (forall y, In y l -> x <= y) -> ninsert x l = x :: l.
Proof. destruct l as [|y l]; intros H; [reflexivity|]. cbn. destruct (Nat.leb_spec x y); [reflexivity|]. specialize (H y (or_introl eq_refl)). lia. Qed.
Lemma nsort_id f : forall len n, nsort (filter f (seq n len)) = filter f (seq n len).
Proof.
  induction len as [|len IH]; intros n; [reflexivity|]. cbn. destruct (f n); [|apply IH]. cbn. unfold nsort in IH. rewrite IH.
  apply ninsert_low. intros y Hy. apply filter_In in Hy as [Hy _]. apply in_seq in Hy. lia.
Qed.
Lemma filter_map_at (q : nat -> bool) l : filter q (map b_at l) = map b_at (filter (fun b => q (b_at b)) l).
Proof. induction l as [|b l IH]; [reflexivity|]. cbn. destruct (q (b_at b)); cbn; now rewrite IH. Qed.
Lemma gref_is N k b : settled N -> wf N -> In b (n_bus N) -> gref k (b_pos b) = map g_at (filter (fun g => g_bus g =? b_no b) (gens k N)).
Proof.
  intros S W Hb. rewrite (st_gref N S k b Hb). destruct (wf_gens N W k b Hb) as [F L]. rewrite (matched_same (b_no b)); [|exact F|].
  - rewrite filter_gen_keys. unfold gen_keys. now rewrite map_map.
  - rewrite filter_gen_keys. unfold gen_keys. now rewrite map_length.
Qed.
Definition gens_of (k : gkind) (N : net) (B : list bus) : list gen := flat_map (fun b => filter (fun g => g_bus g =? b_no b) (gens k N)) B.
Lemma gens_at_ok N k B : settled N -> wf N -> (forall b, In b B -> In b (n_bus N)) -> gens_at k N B = Ok (gens_of k N B).
Proof.
  intros S W HB. unfold gens_at, gens_of.
  assert (E : mapM (fun b => objects (gens k N) (gref k (b_pos b))) B = Ok (map (fun b => filter (fun g => g_bus g =? b_no b) (gens k N)) B)).
  { apply mapM_Ok. induction B as [|b B IH]; cbn; constructor.
    - rewrite (gref_is N k b S W) by (apply HB; now left). apply (objects_filter g_at). now apply settled_gens.
    - apply IH. intros x Hx. apply HB. now right. }
  rewrite E, bind_ok. now rewrite flat_map_concat_map.
Qed.

Lemma isolates_ok N : settled N -> wf N -> n_bus N <> [] -> n_lines N ++ n_trafos N <> [] -> exists N' G,
  find_isolates N = Ok (N', filter (alone N) (n_bus N), G) /\ settled N' /\ wf N' /\
  (forall k, gpick k G = gens_of k N (filter (alone N) (n_bus N))) /\
  map bare_bus (n_bus N') = map bare_bus (filter (fun b => negb (alone N b)) (n_bus N)) /\
  (forall k, map bare_series (els k N') = map bare_series (els k N)) /\ (forall k, map bare_gen (gens k N') = map bare_gen (gens k N)).
Proof.
  intros S W B0 E0. destruct (edges_ok N S W E0) as [E [EE HE]].
  assert (A : forall b, In b (n_bus N) -> isolated E (b_at b) = alone N b).
  { intros b Hb. apply In_nth_error in Hb as [i Hi]. rewrite (st_bus N S i b Hi). unfold isolated. apply eq_true_iff_eq.
    rewrite <- (negb_involutive (alone N b)). rewrite !negb_true_iff. rewrite <- !not_true_iff_false, negb_true_iff. apply not_iff_compat.
    rewrite alone_false, existsb_exists. split.
    - intros [e [He X]]. destruct (edge_series N E HE e He) as [k [s [Hs P]]]. exists k, s. split; [exact Hs|].
      assert (I : In i (s_pos s)).
      { rewrite P. apply orb_true_iff in X as [X|X]; apply Nat.eqb_eq in X; cbn; tauto. }
      apply (s_pos_in N S W k s Hs) in I as [b' [Hb' I]]. rewrite Hi in Hb'. now injection Hb' as <-.
    - intros [k [s [Hs I]]]. destruct (series_edge N E HE k s Hs) as [e [He P]]. exists e. split; [exact He|].
      assert (X : In i (s_pos s)) by (apply (s_pos_in N S W k s Hs); now exists b). rewrite P in X.
      destruct X as [X|[X|[]]]; rewrite X, Nat.eqb_refl; now rewrite ?orb_true_r. }
  assert (EL : filter (isolated E) (seq 0 (length (n_bus N))) = map b_at (filter (alone N) (n_bus N))).
  { pose proof (nodes_ok N S B0) as X. assert (Y : map b_at (n_bus N) = seq 0 (length (n_bus N))).
    { unfold nodes in X. destruct (n_bus N) eqn:Z; [congruence|]. apply (f_equal (fun r => match r with Ok v => v | Err _ => [] end)) in X. exact X. }
    rewrite <- Y, filter_map_at. f_equal. now apply filter_ext_in. }
  unfold find_isolates. rewrite (nodes_ok N S B0), bind_ok, EE, bind_ok, (graph_nodes_ok N S W E HE).
  destruct (filter (isolated E) (seq 0 (length (n_bus N)))) as [|p pos] eqn:EF.
  - symmetry in EL. apply map_eq_nil in EL. exists N, ([], [], []). rewrite EL. sp; try assumption; try reflexivity.
    + intros []; reflexivity.
    + f_equal. symmetry. apply filter_all. intros b Hb. destruct (alone N b) eqn:X; [|reflexivity]. exfalso.
      assert (I : In b (filter (alone N) (n_bus N))) by now apply filter_In. rewrite EL in I. destruct I.
  - assert (SO : nsort (p :: pos) = map b_at (filter (alone N) (n_bus N))) by (rewrite <- EF, nsort_id, EF; exact EL).
    cbv zeta. rewrite SO, (objects_filter b_at) by now apply settled_buses. rewrite bind_ok.
    assert (IB : forall b, In b (filter (alone N) (n_bus N)) -> In b (n_bus N)) by (intros b Hb; now apply filter_In in Hb).
    rewrite !(gens_at_ok N) by assumption. rewrite !bind_ok.
    set (at_alone := map b_at (filter (alone N) (n_bus N))).
    assert (EW : without at_alone (n_bus N) = filter (fun b => negb (alone N b)) (n_bus N)) by (apply (without_filter b_at); now apply settled_buses).
    assert (EB : map bare_bus (n_bus (delete_buses at_alone N)) = map bare_bus (filter (fun b => negb (alone N b)) (n_bus N))).
    { cbn [n_bus delete_buses]. rewrite EW. now apply numbered_map. }
    assert (ES : forall k, map bare_series (els k (delete_buses at_alone N)) = map bare_series (els k N)).
    { intros k. rewrite els_delete_buses. unfold place_series. now rewrite map_map. }
    assert (EG : forall k, map bare_gen (gens k (delete_buses at_alone N)) = map bare_gen (gens k N)).
    { intros k. rewrite gens_delete_buses. unfold place_gens. now rewrite map_map. }
    assert (EN : numbers (delete_buses at_alone N) = map b_no (filter (fun b => negb (alone N b)) (n_bus N))).
    { rewrite numbers_bare, EB, map_map. reflexivity. }
    eexists _, _. sp; [reflexivity| | | |exact EB|exact ES|exact EG].
    + now apply settled_delete_buses.
    + apply (wf_part N); try assumption.
      * rewrite EN. apply nodup_map_filter. apply (wf_bus N W).
      * intros k. rewrite s_no_bare, ES, <- s_no_bare. apply (wf_no N W).
      * intros b' H. destruct (in_bare bare_bus _ _ b' (eq_sym EB) H) as [b [Hb X]]. apply filter_In in Hb as [Hb _]. now exists b.
      * intros k s' H. destruct (in_bare bare_series _ _ s' (eq_sym (ES k)) H) as [s [Hs X]]. exists s. sp; try assumption.
        intros a Ha. rewrite EN. assert (Y : In a (numbers N)).
        { destruct (wf_ends N W k s Hs) as [x [y [Ee [_ [Hx Hy]]]]]. rewrite Ee in Ha. destruct Ha as [<-|[<-|[]]]; assumption. }
        unfold numbers in Y. apply in_map_iff in Y as [b [<- Hb]]. apply in_map. apply filter_In. split; [exact Hb|].
        rewrite negb_true_iff. apply alone_false. now exists k, s.
      * intros k n. rewrite (count_bare n (gens k (delete_buses at_alone N))), EG, <- count_bare. lia.
    + intros []; reflexivity.
Qed.

(** *** The whole analysis *)

Record analysed (N : net) (A : analysis) : Prop := mkAnalysed {
  an_bus : Permutation (map bare_bus (a_isolated A ++ flat_map n_bus (a_islands A))) (map bare_bus (n_bus N));
  an_alone : forall b, In b (a_isolated A) -> forall k s, In s (els k N) -> s_on s = true -> ~ In (b_no b) (s_ends s);
  an_tied : forall X a, In X (a_islands A) -> In a (numbers X) -> exists k s, In s (els k N) /\ s_on s = true /\ In a (s_ends s);
  an_conn : forall i j X Y a b, nth_error (a_islands A) i = Some X -> nth_error (a_islands A) j = Some Y ->
    In a (numbers X) -> In b (numbers Y) -> (connected N a b <-> i = j);
  an_els : forall k, Permutation (map bare_series (flat_map (els k) (a_islands A))) (map bare_series (filter s_on (els k N)));
  an_off : forall k, map bare_series (opick k (a_off A)) = map bare_series (filter (fun s => negb (s_on s)) (els k N));
  an_gens : forall k, Permutation (map bare_gen (gpick k (a_gens A) ++ flat_map (gens k) (a_islands A))) (map bare_gen (filter (housed N) (gens k N)));
  an_gen_alone : forall k g, In g (gpick k (a_gens A)) -> exists b, In b (a_isolated A) /\ b_no b = g_bus g;
  an_gen : forall X k g, In X (a_islands A) -> In g (gens k X) -> In (g_bus g) (numbers X);
  an_wf : forall X, In X (a_islands A) -> wf X /\ update_all X = X /\ n_bus X <> [] }.

Lemma perm_map_filter (q : gen -> bool) l m : (forall g h, bare_gen g = bare_gen h -> q g = q h) -> map bare_gen l = map bare_gen m ->
  map bare_gen (filter q l) = map bare_gen (filter q m).
Proof.
  intros Q. revert m. induction l as [|g l IH]; intros [|h m] E; try discriminate; [reflexivity|]. cbn in E. injection E as E1 E2 E.
  assert (X : bare_gen g = bare_gen h) by (unfold bare_gen; congruence). cbn. rewrite (Q g h X). destruct (q h); cbn; rewrite (IH m E); [now rewrite X|reflexivity].
Qed.
Lemma filter_split {A} (p q : A -> bool) l : (forall x, p x = true -> q x = false) ->
  Permutation (filter p l ++ filter q l) (filter (fun x => p x || q x) l).
Proof.
  intros D. induction l as [|x l IH]; [constructor|]. cbn. destruct (p x) eqn:P; cbn.
  - rewrite (D x P). now constructor.
  - destruct (q x); [|exact IH]. rewrite <- IH. symmetry. apply Permutation_middle.
Qed.
(** The generators collected bus by bus. *)
Lemma gens_of_perm N k B : NoDup (map b_no B) -> Permutation (gens_of k N B) (filter (fun g => existsb (Nat.eqb (g_bus g)) (map b_no B)) (gens k N)).
Proof.
  unfold gens_of. induction B as [|b B IH]; intros ND.
  - cbn. now rewrite filter_none.
  - cbn in ND |- *. apply NoDup_cons_iff in ND as [Hb ND]. rewrite (IH ND). apply filter_split.
    intros g E. apply Nat.eqb_eq in E. rewrite E. now apply existsb_eqb_false.
Qed.

Theorem analysis_ok order N : update_all N = N -> wf N -> (forall P, same_classes P (order P)) -> in_service N ->
  exists A, islands_isolations order N = Ok A /\ analysed N A.
Proof.
  intros S W O IS. apply settled_iff in S.
  destruct (drop_ok Lines N S W) as [N1 [D1 [S1 [W1 [B1 [L1 G1]]]]]].
  destruct (drop_ok Trafos N1 S1 W1) as [N2 [D2 [S2 [W2 [B2 [L2 G2]]]]]].
  assert (L3 : forall k, map bare_series (els k N2) = map bare_series (filter s_on (els k N))).
  { intros k. rewrite L2. destruct k; cbn [same_kind].
    - apply (L1 Lines).
    - assert (X : forall l m, map bare_series l = map bare_series m -> map bare_series (filter s_on l) = map bare_series (filter s_on m)).
      { clear. induction l as [|s l IH]; intros [|u m] E; try discriminate; [reflexivity|]. cbn [map] in E.
        assert (E1 : bare_series s = bare_series u) by congruence. assert (E2 : map bare_series l = map bare_series m) by congruence.
        cbn [filter]. destruct (bare_series_eq _ _ E1) as [_ [_ ->]]. destruct (s_on u); cbn [map]; [now rewrite E1, (IH m E2)|now apply IH]. }
      apply X. exact (L1 Trafos). }
  assert (E2 : n_lines N2 ++ n_trafos N2 <> []).
  { destruct IS as [k [s [Hs On]]]. destruct (in_bare bare_series (els k N2) (filter s_on (els k N)) s (L3 k)) as [s' [Hs' _]]; [now apply filter_In|].
    apply (in_els N2 k) in Hs'. intros Z. rewrite Z in Hs'. destruct Hs'. }
  assert (B20 : map bare_bus (n_bus N2) = map bare_bus (n_bus N)) by now rewrite B2.
  assert (NB2 : numbers N2 = numbers N) by (rewrite !numbers_bare; now rewrite B20).
  assert (F2 : n_bus N2 <> []).
  { destruct IS as [k [s [Hs _]]]. destruct (wf_ends N W k s Hs) as [a [b [_ [_ [Ha _]]]]]. rewrite <- NB2 in Ha. intros Z. unfold numbers in Ha.
    rewrite Z in Ha. destruct Ha. }
  destruct (isolates_ok N2 S2 W2 F2 E2) as [N3 [G [D3 [S3 [W3 [HG [B3 [L4 G3]]]]]]]].
  assert (L5 : forall k, map bare_series (els k N3) = map bare_series (filter s_on (els k N))) by (intros k; now rewrite L4).
  assert (E3 : n_lines N3 ++ n_trafos N3 <> []).
  { destruct IS as [k [s [Hs On]]]. destruct (in_bare bare_series (els k N3) (filter s_on (els k N)) s (L5 k)) as [s' [Hs' _]]; [now apply filter_In|].
    apply (in_els N3 k) in Hs'. intros Z. rewrite Z in Hs'. destruct Hs'. }
  assert (F3 : n_bus N3 <> []).
  { destruct IS as [k [s [Hs On]]]. destruct (in_bare bare_series (els k N3) (filter s_on (els k N)) s (L5 k)) as [s' [Hs' _]]; [now apply filter_In|].
    destruct (wf_ends N3 W3 k s' Hs') as [a [b [_ [_ [Ha _]]]]]. intros Z. unfold numbers in Ha. rewrite Z in Ha. destruct Ha. }
  destruct (islands_found N3 S3 W3 F3 E3 order O) as [J [EJ IJ]].
  (* links in terms of the network given *)
  assert (LK : forall k a b, (exists s, In s (els k N3) /\ In a (s_ends s) /\ In b (s_ends s)) <->
    exists s, In s (els k N) /\ s_on s = true /\ In a (s_ends s) /\ In b (s_ends s)).
  { intros k a b. split.
    - intros [s [Hs [Ha Hb]]]. destruct (in_bare bare_series (filter s_on (els k N)) (els k N3) s (eq_sym (L5 k)) Hs) as [u [Hu X]].
      apply filter_In in Hu as [Hu On]. apply bare_series_eq in X as [_ [X _]]. exists u. rewrite X. now sp.
    - intros [s [Hs [On [Ha Hb]]]]. destruct (in_bare bare_series (els k N3) (filter s_on (els k N)) s (L5 k)) as [u [Hu X]]; [now apply filter_In|].
      apply bare_series_eq in X as [_ [X _]]. exists u. rewrite X. now sp. }
  assert (LL : forall a b, link N3 a b <-> linked N a b).
  { intros a b. split; intros [k X]; exists k; now apply LK. }
  assert (JC : forall a b, joined N3 a b <-> connected N a b).
  { intros a b. split; intros X; induction X as [x y X| |x y z _ IH1 _ IH2]; try apply rt_refl; try (now apply rt_trans with y);
      apply rt_step; now apply LL. }
  assert (AL : forall b, alone N2 b = false <-> exists k s, In s (els k N) /\ s_on s = true /\ In (b_no b) (s_ends s)).
  { intros b. rewrite alone_false. split.
    - intros [k [s [Hs Hb]]]. destruct (in_bare bare_series (filter s_on (els k N)) (els k N2) s (eq_sym (L3 k)) Hs) as [u [Hu X]].
      apply filter_In in Hu as [Hu On]. apply bare_series_eq in X as [_ [X _]]. exists k, u. rewrite X. now sp.
    - intros [k [s [Hs [On Hb]]]]. destruct (in_bare bare_series (els k N2) (filter s_on (els k N)) s (L3 k)) as [u [Hu X]]; [now apply filter_In|].
      apply bare_series_eq in X as [_ [X _]]. exists k, u. rewrite X. now sp. }
  exists (mkAnalysis J (filter (alone N2) (n_bus N2)) G (filter (fun s => negb (s_on s)) (els Lines N), filter (fun s => negb (s_on s)) (els Trafos N1))).
  split.
  { unfold islands_isolations. rewrite D1, bind_ok. cbn [fst snd]. rewrite D2, bind_ok. cbn [fst snd]. rewrite D3, bind_ok. rewrite EJ, bind_ok. reflexivity. }
  constructor; cbn [a_isolated a_islands a_gens a_off].
  - rewrite map_app, (is_bus N3 J IJ), B3, <- map_app, <- B20. apply Permutation_map.
    clear. induction (n_bus N2) as [|b l IH]; [constructor|]. cbn. destruct (alone N2 b); cbn; [now constructor|].
    rewrite <- Permutation_middle. now constructor.
  - intros b Hb k s Hs On I. apply filter_In in Hb as [_ Hb]. assert (X : alone N2 b = false) by (apply AL; now exists k, s). congruence.
  - intros X a HX Ha. assert (I : In a (numbers N3)).
    { rewrite numbers_bare. apply (Permutation_in _ (Permutation_map b_no (is_bus N3 J IJ))).
      unfold numbers in Ha. apply in_map_iff in Ha as [b [<- Hb]]. rewrite map_map. apply in_map_iff. exists b. split; [reflexivity|].
      apply in_flat_map. now exists X. }
    rewrite numbers_bare, B3, map_map in I. apply in_map_iff in I as [b [<- Hb]]. apply filter_In in Hb as [_ Hb]. apply AL. now apply negb_true_iff in Hb.
  - intros i j X Y a b HX HY Ha Hb. rewrite <- JC. now apply (is_conn N3 J IJ i j X Y).
  - intros k. rewrite (is_els N3 J IJ k), L5. reflexivity.
  - intros k. destruct k; cbn [opick fst snd]; [reflexivity|].
    assert (X : forall l m, map bare_series l = map bare_series m -> map bare_series (filter (fun s => negb (s_on s)) l) = map bare_series (filter (fun s => negb (s_on s)) m)).
    { clear. induction l as [|s l IH]; intros [|u m] E; try discriminate; [reflexivity|]. cbn [map] in E.
      assert (E1 : bare_series s = bare_series u) by congruence. assert (E2 : map bare_series l = map bare_series m) by congruence.
      cbn [filter]. destruct (bare_series_eq _ _ E1) as [_ [_ ->]]. destruct (s_on u); cbn [negb map]; [now apply IH|now rewrite E1, (IH m E2)]. }
    apply X. exact (L1 Trafos).
  - intros k. rewrite map_app, (is_gens N3 J IJ k), HG.
    rewrite (perm_map_filter _ (gens k N3) (gens k N2)); [|intros g h X; apply bare_gen_eq in X as [_ ->]; reflexivity|apply G3].
    rewrite <- map_app, <- (G1 k), <- (G2 k). apply Permutation_map.
    assert (ND : NoDup (map b_no (filter (alone N2) (n_bus N2)))) by (apply nodup_map_filter, (wf_bus N2 W2)).
    rewrite (gens_of_perm N2 k _ ND).
    assert (E4 : numbers N3 = map b_no (filter (fun b => negb (alone N2 b)) (n_bus N2))) by (rewrite numbers_bare, B3, map_map; reflexivity).
    rewrite filter_split.
    + apply Permutation_refl'. apply filter_ext. intros g. unfold housed. rewrite <- NB2, E4. apply eq_true_iff_eq.
      rewrite orb_true_iff, !existsb_eqb. unfold numbers. rewrite !in_map_iff. split.
      * intros [[b [E Hb]]|[b [E Hb]]]; exists b; (split; [exact E|]); now apply filter_In in Hb.
      * intros [b [E Hb]]. destruct (alone N2 b) eqn:X; [left|right]; exists b; (split; [exact E|]); apply filter_In; (split; [exact Hb|now rewrite X]).
    + intros g X. apply existsb_eqb in X. apply existsb_eqb_false. rewrite E4. intros Y. apply in_map_iff in X as [b [Eb Hb]]. apply in_map_iff in Y as [c [Ec Hc]].
      apply filter_In in Hb as [Hb Ab]. apply filter_In in Hc as [Hc Ac].
      assert (b = c); [|subst c; rewrite Ab in Ac; discriminate].
      apply In_nth_error in Hb as [i Hi]. apply In_nth_error in Hc as [j Hj].
      assert (i = j); [|congruence]. apply (num_inj N2 W2); try (apply nth_error_Some; congruence).
      rewrite (num_nth N2 i b Hi), (num_nth N2 j c Hj). congruence.
  - intros k g Hg. rewrite HG in Hg. unfold gens_of in Hg. apply in_flat_map in Hg as [b [Hb Hg]]. apply filter_In in Hg as [_ Hg]. apply Nat.eqb_eq in Hg.
    exists b. now split.
  - intros X k g HX Hg. now apply (is_gen N3 J IJ X k).
  - intros X HX. destruct (is_wf N3 J IJ X HX) as [H1 [H2 H3]]. sp; try assumption. now apply settled_iff.
Qed.

(** With nothing in service there is no analysis. *)
Theorem analysis_none order N : update_all N = N -> wf N -> ~ in_service N -> islands_isolations order N = Err AssertionError.
Proof.
  intros S W IS. apply settled_iff in S.
  destruct (drop_ok Lines N S W) as [N1 [D1 [S1 [W1 [B1 [L1 G1]]]]]].
  destruct (drop_ok Trafos N1 S1 W1) as [N2 [D2 [S2 [W2 [B2 [L2 G2]]]]]].
  assert (Z : forall k, els k N2 = []).
  { intros k. destruct (els k N2) as [|u l] eqn:E; [reflexivity|]. exfalso.
    assert (Y : In u (els k N2)) by (rewrite E; now left). destruct (in_bare bare_series _ (els k N2) u (eq_sym (L2 k)) Y) as [v [Hv Ev]].
    apply IS. destruct k; cbn [same_kind] in Hv.
    - destruct (in_bare bare_series _ (els Lines N1) v (eq_sym (L1 Lines)) Hv) as [w [Hw Ew]]. cbn [same_kind] in Hw. apply filter_In in Hw as [Hw On].
      now exists Lines, w.
    - apply filter_In in Hv as [Hv On]. destruct (in_bare bare_series _ (els Trafos N1) v (eq_sym (L1 Trafos)) Hv) as [w [Hw Ew]]. cbn [same_kind] in Hw.
      exists Trafos, w. split; [exact Hw|]. apply bare_series_eq in Ew as [_ [_ ->]]. exact On. }
  unfold islands_isolations. rewrite D1, bind_ok. cbn [fst snd]. rewrite D2, bind_ok. cbn [fst snd]. unfold find_isolates, nodes, edges.
  pose proof (Z Lines) as Z1. pose proof (Z Trafos) as Z2. cbn [els] in Z1, Z2. rewrite Z1, Z2. destruct (n_bus N2); reflexivity.
Qed.
