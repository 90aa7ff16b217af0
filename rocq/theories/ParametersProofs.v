(** The positions kept by the network container: what [update_all] leaves, what deletion keeps. *)
From Coq Require Import List ZArith QArith Bool Lia Arith Permutation.
From Verif Require Import Base Cases Parameters AnalyserSpec GraphDataProofs.
Import ListNotations.
Open Scope list_scope.
Open Scope nat_scope.

Ltac sp := repeat match goal with |- _ /\ _ => split end.

Lemma existsb_eqb a l : existsb (Nat.eqb a) l = true <-> In a l.
Proof.
  rewrite existsb_exists. split.
  - intros [x [Hx E]]. apply Nat.eqb_eq in E. now subst.
  - intros H. exists a. split; [exact H|apply Nat.eqb_refl].
Qed.
Lemma existsb_eqb_false a l : existsb (Nat.eqb a) l = false <-> ~ In a l.
Proof. rewrite <- existsb_eqb. destruct (existsb _ l); split; congruence. Qed.

(** *** Numbering *)
Lemma numbered_from {A} (set : nat -> A -> A) l : forall n i,
  nth_error (map (fun ix => set (fst ix) (snd ix)) (combine (seq n (length l)) l)) i
  = match nth_error l i with Some x => Some (set (n + i) x) | None => None end.
Proof.
  induction l as [|x l IH]; intros n [|i]; cbn; try reflexivity.
  - now rewrite Nat.add_0_r.
  - rewrite IH. now rewrite Nat.add_succ_r.
Qed.
Lemma numbered_nth {A} (set : nat -> A -> A) l i :
  nth_error (numbered set l) i = match nth_error l i with Some x => Some (set i x) | None => None end.
Proof. unfold numbered. now rewrite numbered_from. Qed.
Lemma numbered_length {A} (set : nat -> A -> A) l : length (numbered set l) = length l.
Proof. unfold numbered. rewrite map_length, combine_length, seq_length. lia. Qed.
Lemma numbered_map {A B} (set : nat -> A -> A) (f : A -> B) l : (forall i x, f (set i x) = f x) -> map f (numbered set l) = map f l.
Proof.
  intros Hf. apply nth_error_ext. intros i. rewrite !nth_error_map, numbered_nth.
  destruct (nth_error l i); cbn; [now rewrite Hf|reflexivity].
Qed.

(** *** Matching *)
Lemma drop_one_other a x l : x <> a -> existsb (Nat.eqb x) (drop_one a l) = existsb (Nat.eqb x) l.
Proof.
  intros D. induction l as [|y l IH]; [reflexivity|]. cbn. destruct (Nat.eqb_spec a y) as [->|E]; cbn.
  - destruct (Nat.eqb_spec x y); [congruence|reflexivity].
  - now rewrite IH.
Qed.
Lemma matched_drop a : forall keys wanted, ~ In a (map fst keys) -> matched keys (drop_one a wanted) = matched keys wanted.
Proof.
  induction keys as [|[k p] r IH]; intros wanted Ha; [reflexivity|]. cbn in Ha |- *.
  rewrite drop_one_other by intuition.
  destruct (existsb (Nat.eqb k) wanted).
  - f_equal. rewrite <- (IH (drop_one k wanted)) by intuition.
    assert (C : forall l, drop_one k (drop_one a l) = drop_one a (drop_one k l)).
    { induction l as [|y l IHl]; [reflexivity|]. cbn. destruct (Nat.eqb_spec a y) as [->|A], (Nat.eqb_spec k y) as [->|K]; cbn.
      - intuition.
      - now rewrite Nat.eqb_refl.
      - now rewrite Nat.eqb_refl.
      - destruct (Nat.eqb_spec a y); [congruence|]. destruct (Nat.eqb_spec k y); [congruence|]. now rewrite IHl. }
    now rewrite C.
  - apply IH. intuition.
Qed.
(** With distinct keys the flags of the entries used do not matter. *)
Lemma matched_distinct : forall keys wanted, NoDup (map fst keys) ->
  matched keys wanted = map snd (filter (fun kp => existsb (Nat.eqb (fst kp)) wanted) keys).
Proof.
  induction keys as [|[k p] r IH]; intros wanted ND; [reflexivity|]. cbn in ND |- *. apply NoDup_cons_iff in ND as [Hk ND].
  destruct (existsb (Nat.eqb k) wanted); cbn.
  - now rewrite matched_drop, IH.
  - now apply IH.
Qed.
(** A list that holds nothing but [n] takes the keys [n] until it is used up. *)
Lemma matched_same n : forall keys wanted, Forall (eq n) wanted ->
  length (filter (fun kp => fst kp =? n) keys) <= length wanted ->
  matched keys wanted = map snd (filter (fun kp => fst kp =? n) keys).
Proof.
  induction keys as [|[k p] r IH]; intros wanted F L; [reflexivity|]. cbn in L |- *.
  destruct (Nat.eqb_spec k n) as [->|D].
  - cbn in L. destruct wanted as [|w ws]; [cbn in L; lia|]. inversion F as [|? ? E F']; subst. cbn in L |- *.
    rewrite Nat.eqb_refl. cbn. f_equal. apply IH; [exact F'|lia].
  - replace (existsb (Nat.eqb k) wanted) with false; [now apply IH|].
    symmetry. apply existsb_eqb_false. intros H. rewrite Forall_forall in F. apply D. symmetry. now apply F.
Qed.

Lemma first_at_in keys w old : (exists p, In (w, p) keys) -> In (w, first_at keys w old) keys.
Proof.
  intros [p Hp]. unfold first_at. destruct (find _ keys) as [[k q]|] eqn:F.
  - apply find_some in F as [H E]. cbn in E |- *. apply Nat.eqb_eq in E. now subst.
  - apply (find_none _ _ F) in Hp. cbn in Hp. now rewrite Nat.eqb_refl in Hp.
Qed.
Lemma first_at_idem keys w old : first_at keys w (first_at keys w old) = first_at keys w old.
Proof. unfold first_at. destruct (find _ keys); reflexivity. Qed.

(** *** Networks whose positions are up to date *)
Record settled (N : net) : Prop := mkSettled {
  st_bus : forall i b, nth_error (n_bus N) i = Some b -> b_at b = i;
  st_ser : forall k i s, nth_error (els k N) i = Some s -> s_at s = i /\ s_pos s = matched (bus_keys (n_bus N)) (s_ends s);
  st_gen : forall k i g, nth_error (gens k N) i = Some g ->
    g_at g = i /\ g_pos g = first_at (bus_keys (n_bus N)) (g_bus g) (g_pos g);
  st_sref : forall k b, In b (n_bus N) -> sref k (b_pos b) = matched (series_keys (els k N)) (sref k (b_nos b));
  st_gref : forall k b, In b (n_bus N) -> gref k (b_pos b) = matched (gen_keys (gens k N)) (gref k (b_nos b)) }.

(** The lists [update_all] leaves. *)
Definition refreshed (N : net) (b : bus) : bus :=
  set_bus_pos (mkRefs (matched (series_keys (n_lines N)) (r_lines (b_nos b))) (matched (series_keys (n_trafos N)) (r_trafos (b_nos b)))
    (matched (gen_keys (n_conv N)) (r_conv (b_nos b))) (matched (gen_keys (n_res N)) (r_res (b_nos b)))
    (matched (gen_keys (n_hydro N)) (r_hydro (b_nos b)))) b.
Lemma update_els k N : els k (update_all N) = place_series (numbered set_bus_at (n_bus N)) (numbered set_s_at (els k N)).
Proof. destruct k; reflexivity. Qed.
Lemma update_gens k N : gens k (update_all N) = place_gens (numbered set_bus_at (n_bus N)) (numbered set_g_at (gens k N)).
Proof. destruct k; reflexivity. Qed.
Lemma update_bus N : n_bus (update_all N) = map (refreshed (update_all N)) (numbered set_bus_at (n_bus N)).
Proof.
  unfold update_all, refer_series, refer_gens. cbn [n_bus]. rewrite !map_map. apply map_ext. intros b. reflexivity.
Qed.
Lemma bus_keys_refreshed N l : bus_keys (map (refreshed N) l) = bus_keys l.
Proof. unfold bus_keys. rewrite map_map. reflexivity. Qed.
Lemma update_keys N : bus_keys (n_bus (update_all N)) = bus_keys (numbered set_bus_at (n_bus N)).
Proof. now rewrite update_bus, bus_keys_refreshed. Qed.

Theorem settled_update N : settled (update_all N).
Proof.
  constructor.
  - intros i b H. rewrite update_bus, nth_error_map, numbered_nth in H. destruct (nth_error (n_bus N) i); [|discriminate].
    cbn in H. injection H as <-. reflexivity.
  - intros k i s H. rewrite update_keys. rewrite update_els in H. unfold place_series in H. rewrite nth_error_map, numbered_nth in H.
    destruct (nth_error (els k N) i); [|discriminate]. cbn in H. injection H as <-. split; reflexivity.
  - intros k i g H. rewrite update_keys. rewrite update_gens in H. unfold place_gens in H. rewrite nth_error_map, numbered_nth in H.
    destruct (nth_error (gens k N) i); [|discriminate]. cbn in H. injection H as <-. split; [reflexivity|].
    cbn [g_pos g_bus set_g_pos set_g_at]. now rewrite first_at_idem.
  - intros k b H. rewrite update_bus in H. apply in_map_iff in H as [b0 [<- _]]. destruct k; reflexivity.
  - intros k b H. rewrite update_bus in H. apply in_map_iff in H as [b0 [<- _]]. destruct k; reflexivity.
Qed.

Lemma numbered_id {A} (set : nat -> A -> A) (at_of : A -> nat) l :
  (forall x, set (at_of x) x = x) -> (forall i x, nth_error l i = Some x -> at_of x = i) -> numbered set l = l.
Proof.
  intros Hs Ha. apply nth_error_ext. intros i. rewrite numbered_nth. destruct (nth_error l i) as [x|] eqn:E; [|reflexivity].
  f_equal. now rewrite <- (Ha i x E), Hs.
Qed.
Lemma map_id_in {A} (f : A -> A) l : (forall x, In x l -> f x = x) -> map f l = l.
Proof. intros H. rewrite <- (map_id l) at 2. now apply map_ext_in. Qed.

Theorem settled_fixed N : settled N -> update_all N = N.
Proof.
  intros S.
  assert (EB : numbered set_bus_at (n_bus N) = n_bus N) by (apply (numbered_id _ b_at); [now intros []|apply (st_bus N S)]).
  assert (ES : forall k, place_series (n_bus N) (numbered set_s_at (els k N)) = els k N).
  { intros k. rewrite (numbered_id _ s_at); [|now intros []|intros i x H; now apply (st_ser N S k i x)].
    apply map_id_in. intros s H. apply In_nth_error in H as [i H]. destruct (st_ser N S k i s H) as [_ E].
    rewrite <- E. now destruct s. }
  assert (EG : forall k, place_gens (n_bus N) (numbered set_g_at (gens k N)) = gens k N).
  { intros k. rewrite (numbered_id _ g_at); [|now intros []|intros i x H; now apply (st_gen N S k i x)].
    apply map_id_in. intros s H. apply In_nth_error in H as [i H]. destruct (st_gen N S k i s H) as [_ E].
    rewrite <- E. now destruct s. }
  assert (Ek : forall k, els k (update_all N) = els k N) by (intros k; rewrite update_els, EB; apply ES).
  assert (Eg : forall k, gens k (update_all N) = gens k N) by (intros k; rewrite update_gens, EB; apply EG).
  assert (Eb : n_bus (update_all N) = n_bus N).
  { rewrite update_bus, EB. apply map_id_in. intros b H. unfold refreshed.
    change (n_lines (update_all N)) with (els Lines (update_all N)). change (n_trafos (update_all N)) with (els Trafos (update_all N)).
    change (n_conv (update_all N)) with (gens Conv (update_all N)). change (n_res (update_all N)) with (gens Res (update_all N)).
    change (n_hydro (update_all N)) with (gens Hydro (update_all N)). rewrite !Ek, !Eg.
    change (r_lines (b_nos b)) with (sref Lines (b_nos b)). change (r_trafos (b_nos b)) with (sref Trafos (b_nos b)).
    change (r_conv (b_nos b)) with (gref Conv (b_nos b)). change (r_res (b_nos b)) with (gref Res (b_nos b)).
    change (r_hydro (b_nos b)) with (gref Hydro (b_nos b)).
    rewrite <- !(st_sref N S _ b H), <- !(st_gref N S _ b H).
    destruct b as [? ? ? ? ? ? ? ? []]; reflexivity. }
  pose proof (Ek Lines) as E1. pose proof (Ek Trafos) as E2. pose proof (Eg Conv) as E3. pose proof (Eg Res) as E4. pose proof (Eg Hydro) as E5.
  cbn [els gens] in *. destruct (update_all N), N; cbn in *; congruence.
Qed.
Theorem settled_iff N : update_all N = N <-> settled N.
Proof. split; [intros E; rewrite <- E; apply settled_update|apply settled_fixed]. Qed.

(** *** What the positions refer to *)
Lemma filter_gen_keys n l : filter (fun kp => fst kp =? n) (gen_keys l) = gen_keys (filter (fun g => g_bus g =? n) l).
Proof. unfold gen_keys. induction l as [|g l IH]; [reflexivity|]. cbn. destruct (g_bus g =? n); cbn; now rewrite IH. Qed.
Lemma two_of (l : list nat) i j : NoDup l -> i <> j -> (forall x, In x l <-> x = i \/ x = j) -> l = [i; j] \/ l = [j; i].
Proof.
  intros ND D H. assert (P : Permutation l [i; j]).
  { apply NoDup_Permutation; [exact ND| |intros x; rewrite H; cbn; intuition]. constructor; [cbn; intuition|].
    constructor; [intros []|constructor]. }
  apply Permutation_sym in P. apply Permutation_length_2_inv in P. intuition.
Qed.
Lemma nodup_filter {A} (f : A -> bool) l : NoDup l -> NoDup (filter f l).
Proof.
  intros H. induction H as [|x l Hx H IH]; cbn; [constructor|]. destruct (f x); [|exact IH]. constructor; [|exact IH].
  rewrite filter_In. intuition.
Qed.
Section Settled.
Variable N : net.
Hypothesis S : settled N.
Hypothesis W : wf N.

Lemma fst_bus_keys : map fst (bus_keys (n_bus N)) = numbers N.
Proof. unfold bus_keys, numbers. rewrite map_map. reflexivity. Qed.
Lemma in_bus_keys n i : In (n, i) (bus_keys (n_bus N)) <-> exists b, nth_error (n_bus N) i = Some b /\ b_no b = n.
Proof.
  unfold bus_keys. rewrite in_map_iff. split.
  - intros [b [E H]]. injection E as <- <-. apply In_nth_error in H as [j H]. rewrite (st_bus N S j b H). now exists b.
  - intros [b [H E]]. exists b. split; [|now apply nth_error_In in H]. now rewrite (st_bus N S i b H), E.
Qed.
Lemma s_pos_in k s : In s (els k N) -> forall i, In i (s_pos s) <-> exists b, nth_error (n_bus N) i = Some b /\ In (b_no b) (s_ends s).
Proof.
  intros Hs i. apply In_nth_error in Hs as [j Hs]. destruct (st_ser N S k j s Hs) as [_ ->].
  rewrite matched_distinct by (rewrite fst_bus_keys; apply (wf_bus N W)). rewrite in_map_iff. split.
  - intros [[n p] [E H]]. cbn in E. subst p. apply filter_In in H as [H E]. cbn in E. apply existsb_eqb in E.
    apply in_bus_keys in H as [b [H <-]]. now exists b.
  - intros [b [H E]]. exists (b_no b, i). split; [reflexivity|]. apply filter_In. split; [apply in_bus_keys; now exists b|].
    now apply existsb_eqb.
Qed.
Lemma sref_in k b : In b (n_bus N) -> forall p, In p (sref k (b_pos b)) <-> exists s, nth_error (els k N) p = Some s /\ In (b_no b) (s_ends s).
Proof.
  intros Hb p. rewrite (st_sref N S k b Hb).
  rewrite matched_distinct by (unfold series_keys; rewrite map_map; apply (wf_no N W)). rewrite in_map_iff. split.
  - intros [[n q] [E H]]. cbn in E. subst q. apply filter_In in H as [H E]. cbn in E. apply existsb_eqb in E.
    unfold series_keys in H. apply in_map_iff in H as [s [Es H]]. injection Es as <- <-.
    exists s. split; [|now apply (wf_refs N W k s b)].
    apply In_nth_error in H as [j H]. now rewrite (proj1 (st_ser N S k j s H)).
  - intros [s [H E]]. exists (s_no s, p). split; [reflexivity|]. pose proof (nth_error_In _ _ H) as Hs. apply filter_In. split.
    + unfold series_keys. apply in_map_iff. exists s. split; [|exact Hs]. now rewrite (proj1 (st_ser N S k p s H)).
    + cbn. apply existsb_eqb. now apply (wf_refs N W k s b).
Qed.
Lemma gref_in k b : In b (n_bus N) -> forall p, In p (gref k (b_pos b)) <-> exists g, nth_error (gens k N) p = Some g /\ g_bus g = b_no b.
Proof.
  intros Hb p. rewrite (st_gref N S k b Hb). destruct (wf_gens N W k b Hb) as [F L].
  rewrite (matched_same (b_no b)); [|exact F|].
  2:{ rewrite filter_gen_keys. unfold gen_keys. now rewrite map_length. }
  rewrite in_map_iff. split.
  - intros [[n q] [E H]]. cbn in E. subst q. apply filter_In in H as [H E]. cbn in E. apply Nat.eqb_eq in E.
    unfold gen_keys in H. apply in_map_iff in H as [g [Es H]]. injection Es as <- <-.
    exists g. split; [|exact E]. apply In_nth_error in H as [j H]. now rewrite (proj1 (st_gen N S k j g H)).
  - intros [g [H E]]. exists (g_bus g, p). split; [reflexivity|]. pose proof (nth_error_In _ _ H) as Hs. apply filter_In. split.
    + unfold gen_keys. apply in_map_iff. exists g. split; [|exact Hs]. now rewrite (proj1 (st_gen N S k p g H)).
    + cbn. now apply Nat.eqb_eq.
Qed.
Lemma s_pos_two k s : In s (els k N) -> exists i j bi bj,
  s_pos s = [i; j] /\ i <> j /\ nth_error (n_bus N) i = Some bi /\ nth_error (n_bus N) j = Some bj /\
  Permutation [b_no bi; b_no bj] (s_ends s).
Proof.
  intros Hs. destruct (wf_ends N W k s Hs) as [a [b [E [D [Ha Hb]]]]].
  unfold numbers in Ha, Hb. apply in_map_iff in Ha as [ba [<- Ha]]. apply in_map_iff in Hb as [bb [<- Hb]].
  apply In_nth_error in Ha as [i Ha]. apply In_nth_error in Hb as [j Hb].
  assert (Dij : i <> j) by (intros ->; rewrite Ha in Hb; injection Hb as ->; now apply D).
  assert (ND : NoDup (s_pos s)).
  { apply In_nth_error in Hs as [x Hs]. destruct (st_ser N S k x s Hs) as [_ ->].
    rewrite matched_distinct by (rewrite fst_bus_keys; apply (wf_bus N W)).
    assert (NB : NoDup (map b_at (n_bus N))).
    { replace (map b_at (n_bus N)) with (seq 0 (length (n_bus N))); [apply seq_NoDup|]. apply nth_error_ext. intros p.
      rewrite nth_error_map. destruct (nth_error (n_bus N) p) as [b|] eqn:Ep; cbn.
      - assert (p < length (n_bus N)) by (apply nth_error_Some; congruence). rewrite nth_error_nth' with (d := 0) by (rewrite seq_length; lia).
        rewrite seq_nth by lia. now rewrite (st_bus N S p b Ep).
      - apply nth_error_None. rewrite seq_length. now apply nth_error_None. }
    clear -NB. unfold bus_keys. induction (n_bus N) as [|b l IH]; cbn; [constructor|]. cbn in NB. apply NoDup_cons_iff in NB as [Hn NB].
    destruct (existsb (Nat.eqb (b_no b)) (s_ends s)); cbn; [|now apply IH]. constructor; [|now apply IH].
    intros H. apply Hn. apply in_map_iff in H as [[u v] [E H]]. cbn in E. subst v. apply filter_In in H as [H _].
    apply in_map_iff in H as [c [Ec H]]. injection Ec as _ <-. now apply in_map. }
  assert (IN : forall x, In x (s_pos s) <-> x = i \/ x = j).
  { intros x. rewrite (s_pos_in k s Hs). rewrite E. split.
    - intros [b [Hx [Eb|[Eb|[]]]]].
      + left. apply (proj1 (NoDup_nth_error (numbers N)) (wf_bus N W)).
        * unfold numbers. rewrite map_length. apply nth_error_Some. congruence.
        * unfold numbers. rewrite !nth_error_map, Hx, Ha. cbn. now rewrite Eb.
      + right. apply (proj1 (NoDup_nth_error (numbers N)) (wf_bus N W)).
        * unfold numbers. rewrite map_length. apply nth_error_Some. congruence.
        * unfold numbers. rewrite !nth_error_map, Hx, Hb. cbn. now rewrite Eb.
    - intros [->| ->]; [exists ba|exists bb]; (split; [assumption|cbn; tauto]). }
  destruct (two_of (s_pos s) i j ND Dij IN) as [El|El].
  - exists i, j, ba, bb. sp; try assumption. rewrite E. apply Permutation_refl.
  - exists j, i, bb, ba. sp; try assumption; [congruence|]. rewrite E. apply perm_swap.
Qed.
Lemma g_pos_ok k g : In g (gens k N) -> In (g_bus g) (numbers N) -> exists b, nth_error (n_bus N) (g_pos g) = Some b /\ b_no b = g_bus g.
Proof.
  intros Hg Hn. apply In_nth_error in Hg as [i Hg]. destruct (st_gen N S k i g Hg) as [_ E]. rewrite E.
  apply in_bus_keys. apply first_at_in. unfold numbers in Hn. apply in_map_iff in Hn as [b [Eb Hb]]. apply In_nth_error in Hb as [p Hp].
  exists p. apply in_bus_keys. now exists b.
Qed.
End Settled.

(** *** Deletion *)
Definition in_place {A} (at_of : A -> nat) (l : list A) : Prop := forall i x, nth_error l i = Some x -> at_of x = i.
Lemma combine_at {A} (l : list A) : forall n ix, In ix (combine (seq n (length l)) l) -> n <= fst ix /\ nth_error l (fst ix - n) = Some (snd ix).
Proof.
  induction l as [|x l IH]; intros n ix H; [destruct H|]. cbn in H. destruct H as [<-|H].
  - cbn. rewrite Nat.sub_diag. cbn. split; [lia|reflexivity].
  - apply IH in H as [H1 H2]. split; [lia|]. replace (fst ix - n) with (Datatypes.S (fst ix - Datatypes.S n)) by lia. exact H2.
Qed.
Lemma map_snd_filter {A B} (q : B -> bool) (l : list (A * B)) : map snd (filter (fun x => q (snd x)) l) = filter q (map snd l).
Proof. induction l as [|x l IH]; [reflexivity|]. cbn. destruct (q (snd x)); cbn; now rewrite IH. Qed.
Lemma map_snd_combine {A} (l : list A) : forall n, map snd (combine (seq n (length l)) l) = l.
Proof. induction l as [|x l IH]; intros n; [reflexivity|]. cbn. now rewrite IH. Qed.
Lemma without_filter {A} (at_of : A -> nat) (q : A -> bool) l :
  in_place at_of l -> without (map at_of (filter q l)) l = filter (fun x => negb (q x)) l.
Proof.
  intros Ha. unfold without. transitivity (filter (fun x => negb (q x)) (map snd (combine (seq 0 (length l)) l))); [|now rewrite map_snd_combine].
  rewrite <- map_snd_filter. f_equal. apply filter_ext_in.
  intros ix Hix. apply combine_at in Hix as [_ H]. rewrite Nat.sub_0_r in H. f_equal. pose proof (Ha _ _ H) as E.
  destruct (q (snd ix)) eqn:Q.
  - apply existsb_eqb. rewrite <- E. apply in_map. apply filter_In. split; [now apply nth_error_In in H|exact Q].
  - apply existsb_eqb_false. intros I. apply in_map_iff in I as [y [Ey I]]. apply filter_In in I as [I Qy].
    apply In_nth_error in I as [j I]. rewrite (Ha _ _ I) in Ey. subst j. rewrite H in I. injection I as <-. congruence.
Qed.
Lemma objects_filter {A} (at_of : A -> nat) (q : A -> bool) l :
  in_place at_of l -> objects l (map at_of (filter q l)) = Ok (filter q l).
Proof.
  intros Ha. unfold objects. apply mapM_Ok. assert (H : forall x, In x (filter q l) -> at_ l (at_of x) = Ok x).
  { intros x Hx. apply filter_In in Hx as [Hx _]. apply In_nth_error in Hx as [i Hx]. unfold at_. now rewrite (Ha _ _ Hx), Hx. }
  induction (filter q l) as [|x r IH]; [constructor|]. cbn. constructor; [apply H; now left|]. apply IH. intros y Hy. apply H. now right.
Qed.
Lemma settled_buses N : settled N -> in_place b_at (n_bus N).
Proof. intros S i b. apply (st_bus N S). Qed.
Lemma settled_series k N : settled N -> in_place s_at (els k N).
Proof. intros S i b H. now apply (st_ser N S k) in H. Qed.
Lemma settled_gens k N : settled N -> in_place g_at (gens k N).
Proof. intros S i b H. now apply (st_gen N S k) in H. Qed.

Lemma els_set k k' l N : els k (set_els k' l N) = match k, k' with Lines, Lines | Trafos, Trafos => l | _, _ => els k N end.
Proof. destruct k, k'; reflexivity. Qed.
Lemma refer_keys k l B : bus_keys (refer_series k l B) = bus_keys B.
Proof. unfold bus_keys, refer_series. now rewrite map_map. Qed.

(** Deleting lines or transformers leaves the positions up to date. *)
Theorem settled_delete_series k pos N : settled N -> settled (delete_series k pos N).
Proof.
  intros S. constructor.
  - intros i b H. cbn [n_bus delete_series] in H. unfold refer_series in H. rewrite nth_error_map in H.
    destruct (nth_error (n_bus N) i) as [b0|] eqn:E; [|discriminate]. cbn in H. injection H as <-. exact (st_bus N S i b0 E).
  - intros k' i s H. cbn [n_bus delete_series]. rewrite refer_keys.
    destruct k, k'; cbn [els delete_series set_els n_lines n_trafos] in H;
      try (exact (st_ser N S Lines i s H)); try (exact (st_ser N S Trafos i s H));
      rewrite numbered_nth in H; destruct (nth_error (without pos _) i) as [s0|] eqn:E; try discriminate; injection H as <-;
      (split; [reflexivity|]); cbn; apply nth_error_In in E; unfold without in E; apply in_map_iff in E as [ix [<- E]];
      apply filter_In in E as [E _]; apply combine_at in E as [_ E].
    + exact (proj2 (st_ser N S Lines _ _ E)).
    + exact (proj2 (st_ser N S Trafos _ _ E)).
  - intros k' i g H. cbn [n_bus delete_series]. rewrite refer_keys. destruct k, k'; cbn in H;
      first [exact (st_gen N S Conv i g H) | exact (st_gen N S Res i g H) | exact (st_gen N S Hydro i g H)].
  - intros k' b H. cbn [n_bus delete_series] in H. unfold refer_series in H. apply in_map_iff in H as [b0 [<- H]].
    destruct k, k'; cbn; try reflexivity; [exact (st_sref N S Trafos b0 H)|exact (st_sref N S Lines b0 H)].
  - intros k' b H. cbn [n_bus delete_series] in H. unfold refer_series in H. apply in_map_iff in H as [b0 [<- H]].
    destruct k, k'; cbn;
      first [exact (st_gref N S Conv b0 H) | exact (st_gref N S Res b0 H) | exact (st_gref N S Hydro b0 H)].
Qed.

Lemma els_delete_buses k pos N :
  els k (delete_buses pos N) = place_series (numbered set_bus_at (without pos (n_bus N))) (els k N).
Proof. destruct k; reflexivity. Qed.
Lemma gens_delete_buses k pos N :
  gens k (delete_buses pos N) = place_gens (numbered set_bus_at (without pos (n_bus N))) (gens k N).
Proof. destruct k; reflexivity. Qed.
Lemma series_keys_place B l : series_keys (place_series B l) = series_keys l.
Proof. unfold series_keys, place_series. now rewrite map_map. Qed.
Lemma gen_keys_place B l : gen_keys (place_gens B l) = gen_keys l.
Proof. unfold gen_keys, place_gens. now rewrite map_map. Qed.
(** Deleting buses leaves the positions up to date. *)
Theorem settled_delete_buses pos N : settled N -> settled (delete_buses pos N).
Proof.
  intros S. constructor.
  - intros i b H. cbn [n_bus delete_buses] in H. rewrite numbered_nth in H. destruct (nth_error (without pos _) i); [|discriminate].
    now injection H as <-.
  - intros k i s H. rewrite els_delete_buses in H. unfold place_series in H. rewrite nth_error_map in H.
    destruct (nth_error (els k N) i) as [s0|] eqn:E; [|discriminate]. injection H as <-. split; [|reflexivity].
    exact (proj1 (st_ser N S k i s0 E)).
  - intros k i s H. rewrite gens_delete_buses in H. unfold place_gens in H. rewrite nth_error_map in H.
    destruct (nth_error (gens k N) i) as [s0|] eqn:E; [|discriminate]. injection H as <-. split.
    + exact (proj1 (st_gen N S k i s0 E)).
    + cbn [g_pos g_bus set_g_pos]. symmetry. apply first_at_idem.
  - intros k b H. rewrite els_delete_buses, series_keys_place. cbn [n_bus delete_buses] in H. unfold numbered in H.
    apply in_map_iff in H as [ix [<- H]]. destruct ix as [i x]. apply in_combine_r in H. unfold without in H. apply in_map_iff in H as [jy [Ey H]].
    apply filter_In in H as [H _]. destruct jy as [j y]. cbn in Ey. subst y. apply in_combine_r in H.
    exact (st_sref N S k _ H).
  - intros k b H. rewrite gens_delete_buses, gen_keys_place. cbn [n_bus delete_buses] in H. unfold numbered in H.
    apply in_map_iff in H as [ix [<- H]]. destruct ix as [i x]. apply in_combine_r in H. unfold without in H. apply in_map_iff in H as [jy [Ey H]].
    apply filter_In in H as [H _]. destruct jy as [j y]. cbn in Ey. subst y. apply in_combine_r in H.
    exact (st_gref N S k _ H).
Qed.
