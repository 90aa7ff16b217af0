(** The reduction of a network: what is cut out, what is put back. *)
From Coq Require Import List ZArith QArith Bool Lia Arith Permutation Relation_Operators Operators_Properties Setoid.
From Verif Require Import Base GraphData Network Cases InputOutputProofs HydroTables ConverterOpen Parameters Analyser Reduction AnalyserSpec ReductionSpec GraphDataProofs ParametersProofs AnalyserProofs AnalyserIslands ReductionTrack.
From Verif Require ClusteringProofs.
Import ListNotations.
Open Scope list_scope.
Open Scope nat_scope.

Lemma high_spec three vol b : high three vol b = true <-> ~ is_low three vol b.
Proof.
  unfold high, is_low. rewrite andb_true_iff, Qle_bool_iff, negb_true_iff. split.
  - intros [H1 H2] [H|H]; [apply (Qle_not_lt _ _ H1 H)|]. apply Qeq_bool_iff in H. congruence.
  - intros H. split; [apply Qnot_lt_le; tauto|]. destruct (Qeq_bool (b_kv b) three) eqn:E; [|reflexivity]. apply Qeq_bool_iff in E. tauto.
Qed.
Lemma high_false three vol b : high three vol b = false <-> is_low three vol b.
Proof.
  destruct (high three vol b) eqn:E.
  - apply high_spec in E. split; [discriminate|tauto].
  - split; [|reflexivity]. intros _. unfold high in E. apply andb_false_iff in E as [E|E].
    + left. apply Qnot_le_lt. intros H. apply Qle_bool_iff in H. congruence.
    + right. apply negb_false_iff in E. now apply Qeq_bool_iff.
Qed.

Lemma objects_perm {A} (l : list A) pos pos' r : Permutation pos pos' -> objects l pos = Ok r -> exists r', objects l pos' = Ok r' /\ Permutation r r'.
Proof.
  unfold objects. intros P H. apply mapM_Ok in H. revert r H. induction P as [|x p p' P IH|x y p|p1 p2 p3 P1 IH1 P2 IH2]; intros r H.
  - inversion H; subst. exists []. split; [reflexivity|constructor].
  - inversion H as [|? a ? r0 Ha H']; subst. destruct (IH r0 H') as [r' [E Q]]. exists (a :: r'). split; [|now constructor]. apply mapM_Ok. constructor; [exact Ha|now apply mapM_Ok].
  - inversion H as [|? a ? r0 Ha H']; subst. inversion H' as [|? b ? r1 Hb H'']; subst. exists (b :: a :: r1). split; [|apply perm_swap]. apply mapM_Ok. repeat constructor; assumption.
  - destruct (IH1 r H) as [r1 [E1 Q1]]. apply mapM_Ok in E1. destruct (IH2 r1 E1) as [r2 [E2 Q2]]. exists r2. split; [exact E2|]. now apply Permutation_trans with r1.
Qed.
Lemma objects_flat {A B} (l : list A) (f : B -> list nat) U Rs : Forall2 (fun u r => objects l (f u) = Ok r) U Rs -> objects l (flat_map f U) = Ok (concat Rs).
Proof.
  unfold objects. intros H. apply mapM_Ok. induction H as [|u r U Rs E _ IH]; [constructor|]. cbn. apply Forall2_app; [now apply mapM_Ok|exact IH].
Qed.
Lemma objects_nth {A} (l : list A) pos r : objects l pos = Ok r <-> Forall2 (fun p x => nth_error l p = Some x) pos r.
Proof.
  unfold objects. rewrite mapM_Ok. split; intros H; induction H as [|p x pos r E _ IH]; constructor; try assumption.
  - unfold at_ in E. destruct (nth_error l p); [congruence|discriminate].
  - unfold at_. now rewrite E.
Qed.
Lemma objects_total {A} (l : list A) pos : Forall (fun p => p < length l) pos -> exists r, objects l pos = Ok r.
Proof.
  intros H. induction H as [|p pos Hp _ [r IH]]; [exists []; reflexivity|]. destruct (nth_error l p) as [x|] eqn:E; [|apply nth_error_None in E; lia].
  exists (x :: r). apply objects_nth. constructor; [exact E|now apply objects_nth].
Qed.

Section Cut.
Variables (three vol : Q) (N : net).
Hypothesis S : settled N.
Hypothesis W : wf N.
Variables (f : flags) (U : list super).
Hypothesis I : inv three vol N f U.
Hypothesis All : forall p, p < length (n_bus N) -> nth_error (f_bus f) p = Some true.

Lemma low_pos p : In p (flat_map u_bus U) <-> low three vol N p.
Proof.
  split; [apply (i_low _ _ _ _ _ I)|]. intros H. apply (i_bus _ _ _ _ _ I p H). apply All. now apply (low_lt three vol N).
Qed.
Lemma el_pos k x : In x (flat_map (u_els k) U) <-> exists q, low three vol N q /\ inc N k x q.
Proof.
  split.
  - intros H. apply in_flat_map in H as [u [Hu Hx]]. pose proof (i_sup _ _ _ _ _ I) as F. rewrite Forall_forall in F.
    apply (so_el _ _ _ _ (F u Hu)) in Hx as [q [H1 H2]]. exists q. split; [|exact H1]. apply low_pos. apply in_flat_map. now exists u.
  - intros [q [L H]]. apply low_pos in L as L'. apply in_flat_map in L' as [u [Hu Hq]]. pose proof (i_sup _ _ _ _ _ I) as F. rewrite Forall_forall in F.
    apply in_flat_map. exists u. split; [exact Hu|]. apply (so_el _ _ _ _ (F u Hu)). now exists q.
Qed.
(** Buses and elements that stay. *)
Definition stays (s : series) : bool := forallb (fun q => match nth_error (n_bus N) q with Some b => high three vol b | None => false end) (s_pos s).
Lemma bus_stays b : In b (n_bus N) -> existsb (Nat.eqb (b_at b)) (flat_map u_bus U) = negb (high three vol b).
Proof.
  intros H. apply In_nth_error in H as [p H]. rewrite (st_bus N S p b H). destruct (high three vol b) eqn:E; cbn.
  - apply existsb_eqb_false. intros X. apply low_pos in X as [b' [H' E']]. congruence.
  - apply existsb_eqb. apply low_pos. now exists b.
Qed.
Lemma el_stays k s : In s (els k N) -> existsb (Nat.eqb (s_at s)) (flat_map (u_els k) U) = negb (stays s).
Proof.
  intros H. pose proof H as Hin. apply In_nth_error in H as [x H]. rewrite (proj1 (st_ser N S k x s H)). destruct (stays s) eqn:E; cbn.
  - apply existsb_eqb_false. intros X. apply el_pos in X as [q [[b [Hb Hl]] [s' [Hs' Hq]]]]. rewrite H in Hs'. injection Hs' as <-.
    unfold stays in E. rewrite forallb_forall in E. specialize (E q Hq). rewrite Hb in E. congruence.
  - apply existsb_eqb. apply el_pos. unfold stays in E. 
    assert (X : exists q, In q (s_pos s) /\ match nth_error (n_bus N) q with Some b => high three vol b | None => false end = false).
    { clear -E. induction (s_pos s) as [|q l IH]; [discriminate|]. cbn in E. apply andb_false_iff in E as [E|E]; [exists q; split; [now left|exact E]|].
      destruct (IH E) as [r [H1 H2]]. exists r. split; [now right|exact H2]. }
    destruct X as [q [Hq Eq]]. pose proof Hq as Hq'. apply (s_pos_in N S W k s Hin) in Hq' as [b [Hb _]]. rewrite Hb in Eq. exists q. split; [now exists b|]. now exists s.
Qed.

Definition worth_fact (u : super) (x : worth) : Prop :=
  objects (n_bus N) (u_bus u) = Ok (w_buses x) /\ objects (n_bus N) (u_coupling u) = Ok (w_coupling x) /\ objects (n_lines N) (u_lines u) = Ok (w_lines x) /\
  w_p x = qsum (map b_p (w_buses x)) /\ w_q x = qsum (map b_q (w_buses x)) /\
  (exists c z, hd_error (u_coupling u) = Some c /\ nth_error (n_bus N) c = Some z /\ w_zone x = b_zone z).
Lemma worth_inv u x : worth_of N u = Ok x -> worth_fact u x.
Proof.
  unfold worth_of. intros H. apply bind_inv in H as [B [H1 H]]. apply bind_inv in H as [C [H2 H]]. apply bind_inv in H as [L [H3 H]].
  apply bind_inv in H as [T [H4 H]]. apply bind_inv in H as [c [H5 H]]. apply bind_inv in H as [z [H6 H]]. injection H as <-.
  unfold worth_fact. cbn. sp; try assumption; try reflexivity. exists c, z. assert (AT : forall A (l : list A) i a, at_ l i = Ok a -> nth_error l i = Some a) by (intros A l i a; unfold at_; destruct (nth_error l i); congruence). apply AT in H5, H6. split; [|split; [exact H6|reflexivity]]. destruct (u_coupling u); exact H5.
Qed.
Lemma super_in u : In u U -> super_ok three vol N u.
Proof. pose proof (i_sup _ _ _ _ _ I) as F. rewrite Forall_forall in F. apply F. Qed.
Lemma u_bus_low u p : In u U -> In p (u_bus u) -> low three vol N p.
Proof. intros Hu Hp. apply low_pos. apply in_flat_map. now exists u. Qed.
Lemma coupling_lt u : In u U -> Forall (fun c => c < length (n_bus N)) (u_coupling u).
Proof.
  intros Hu. pose proof (so_pair _ _ _ _ (super_in u Hu)) as F. induction F as [|c s C A [k [x [q H]]] _ IH]; constructor; [apply H|exact IH].
Qed.
Lemma els_lt k u : In u U -> Forall (fun x => x < length (els k N)) (u_els k u).
Proof.
  intros Hu. apply Forall_forall. intros x Hx. apply (so_el _ _ _ _ (super_in u Hu)) in Hx as [q [[s [Hs _]] _]]. apply nth_error_Some. congruence.
Qed.
Lemma worth_total u : In u U -> u_coupling u <> [] -> exists x, worth_of N u = Ok x.
Proof.
  intros Hu NE. unfold worth_of. destruct (objects_total (n_bus N) (u_bus u)) as [B EB].
  { apply Forall_forall. intros p Hp. apply (low_lt three vol N). now apply (u_bus_low u). }
  rewrite EB, bind_ok. destruct (objects_total _ _ (coupling_lt u Hu)) as [C EC]. rewrite EC, bind_ok.
  destruct (objects_total _ _ (els_lt Lines u Hu)) as [L EL]. cbn [els u_els] in EL. rewrite EL, bind_ok.
  destruct (objects_total _ _ (els_lt Trafos u Hu)) as [T ET]. cbn [els u_els] in ET. rewrite ET, bind_ok.
  pose proof (coupling_lt u Hu) as F. destruct (u_coupling u) as [|c l] eqn:Ec; [congruence|]. assert (H0 : at_ (c :: l) 0 = Ok c) by reflexivity. rewrite H0, bind_ok.
  apply Forall_cons_iff in F as [Lc _]. destruct (nth_error (n_bus N) c) as [z|] eqn:Ez; [|apply nth_error_None in Ez; lia].
  unfold at_. rewrite Ez, bind_ok. eexists. reflexivity.
Qed.
Lemma worth_alone u : In u U -> u_coupling u = [] -> worth_of N u = Err IndexError.
Proof.
  intros Hu NE. unfold worth_of. destruct (objects_total (n_bus N) (u_bus u)) as [B EB].
  { apply Forall_forall. intros p Hp. apply (low_lt three vol N). now apply (u_bus_low u). }
  rewrite EB, bind_ok. destruct (objects_total _ _ (coupling_lt u Hu)) as [C EC]. rewrite EC, bind_ok.
  destruct (objects_total _ _ (els_lt Lines u Hu)) as [L EL]. cbn [els u_els] in EL. rewrite EL, bind_ok.
  destruct (objects_total _ _ (els_lt Trafos u Hu)) as [T ET]. cbn [els u_els] in ET. rewrite ET, bind_ok. now rewrite NE.
Qed.

(** The network that is left. *)
Definition rest : net := delete_series Trafos (flat_map u_trafos U) (delete_series Lines (flat_map u_lines U) (delete_buses (flat_map u_bus U) N)).
Lemma rest_settled : settled rest.
Proof. apply settled_delete_series, settled_delete_series, settled_delete_buses, S. Qed.
Lemma without_ext {A} (at_of : A -> nat) (q : A -> bool) pos l : in_place at_of l -> (forall x, In x l -> existsb (Nat.eqb (at_of x)) pos = negb (q x)) ->
  without pos l = filter q l.
Proof.
  intros Ha H. unfold without. transitivity (filter q (map snd (combine (seq 0 (length l)) l))); [|now rewrite map_snd_combine].
  rewrite <- map_snd_filter. f_equal. apply filter_ext_in. intros ix Hix. apply combine_at in Hix as [_ E]. rewrite Nat.sub_0_r in E.
  rewrite <- (Ha _ _ E), (H _ (nth_error_In _ _ E)). apply negb_involutive.
Qed.
Lemma rest_bus : map bare_bus (n_bus rest) = map bare_bus (filter (high three vol) (n_bus N)).
Proof.
  unfold rest, delete_series, refer_series. cbn [n_bus delete_buses set_els els]. rewrite !map_map. cbn [n_bus].
  rewrite <- (without_ext b_at (high three vol) (flat_map u_bus U) (n_bus N) (settled_buses N S) bus_stays).
  etransitivity; [|apply (numbered_map set_bus_at bare_bus); reflexivity]. reflexivity.
Qed.
Lemma rest_els k : map bare_series (els k rest) = map bare_series (filter stays (els k N)).
Proof.
  set (N1 := delete_buses (flat_map u_bus U) N).
  assert (E1 : forall k, map bare_series (els k N1) = map bare_series (els k N)) by (intros k'; unfold N1; rewrite els_delete_buses; unfold place_series; now rewrite map_map).
  assert (X : forall (pos : list nat) l l0, map bare_series l = map bare_series l0 -> in_place s_at l -> in_place s_at l0 -> (forall s, In s l0 -> existsb (Nat.eqb (s_at s)) pos = negb (stays s)) ->
     map bare_series (numbered set_s_at (without pos l)) = map bare_series (filter stays l0)).
  { intros pos l l0 E A1 A2 H. rewrite numbered_map by reflexivity. rewrite <- (without_ext s_at stays pos l0 A2 H). unfold without.
    assert (Len : length l = length l0) by (rewrite <- (map_length bare_series l), E; apply map_length). rewrite Len. generalize 0. clear -E. revert l0 E.
    induction l as [|s l IH]; intros [|s0 l0] E n; try discriminate; [reflexivity|]. cbn [map] in E.
    assert (E1 : bare_series s = bare_series s0) by congruence. assert (E2 : map bare_series l = map bare_series l0) by congruence.
    cbn [length seq combine filter fst]. destruct (negb (existsb (Nat.eqb n) pos)); cbn [map snd]; [rewrite E1; f_equal|]; apply IH; exact E2. }
  assert (S1 : settled N1) by (apply settled_delete_buses, S).
  destruct k.
  - change (els Lines rest) with (numbered set_s_at (without (flat_map u_lines U) (els Lines N1))).
    apply X; [apply E1|apply settled_series, S1|apply settled_series, S|]. intros s Hs. exact (el_stays Lines s Hs).
  - change (els Trafos rest) with (numbered set_s_at (without (flat_map u_trafos U) (els Trafos N1))).
    apply X; [apply E1|apply settled_series, S1|apply settled_series, S|]. intros s Hs. exact (el_stays Trafos s Hs).
Qed.
Lemma rest_gens k : map bare_gen (gens k rest) = map bare_gen (gens k N).
Proof.
  transitivity (map bare_gen (gens k (delete_buses (flat_map u_bus U) N))); [destruct k; reflexivity|]. rewrite gens_delete_buses. unfold place_gens. now rewrite map_map.
Qed.
Lemma rest_numbers : numbers rest = map b_no (filter (high three vol) (n_bus N)).
Proof. rewrite numbers_bare, rest_bus, map_map. reflexivity. Qed.

Lemma removed_total k : exists r, removed_of (delete_buses (flat_map u_bus U) N) k U = Ok r /\
  Permutation r (flat_map (fun s => match s_ends s with [a; b] => [(a, b)] | _ => [] end) (filter (fun s => negb (stays s)) (els k N))).
Proof.
  set (N1 := delete_buses (flat_map u_bus U) N).
  assert (P : Permutation (flat_map (u_els k) U) (map s_at (filter (fun s => negb (stays s)) (els k N)))).
  { apply NoDup_Permutation.
    - apply (i_elnodup _ _ _ _ _ I).
    - assert (NA : NoDup (map s_at (els k N))).
      { apply NoDup_nth_error. intros i j Hi Hj. rewrite map_length in Hi. rewrite !nth_error_map in Hj.
        destruct (nth_error (els k N) i) as [a|] eqn:Ea; [|apply nth_error_None in Ea; lia]. destruct (nth_error (els k N) j) as [b|] eqn:Eb; [|discriminate].
        cbn in Hj. injection Hj as Hj. now rewrite (proj1 (st_ser N S k i a Ea)), (proj1 (st_ser N S k j b Eb)) in Hj. }
      clear -NA. induction (els k N) as [|s l IH]; [constructor|]. cbn in NA. apply NoDup_cons_iff in NA as [Hs NA]. cbn. destruct (negb (stays s)); [|now apply IH].
      cbn. constructor; [|now apply IH]. intros H. apply Hs. apply in_map_iff in H as [t [E H]]. apply filter_In in H as [H _]. rewrite <- E. now apply in_map.
    - intros x. split.
      + intros H. pose proof H as Hp. apply el_pos in H as [q [_ [s [Hs _]]]]. pose proof (proj1 (st_ser N S k x s Hs)) as At. rewrite <- At. apply in_map. apply filter_In.
        split; [now apply nth_error_In in Hs|]. rewrite <- (el_stays k s (nth_error_In _ _ Hs)). apply existsb_eqb. now rewrite At.
      + intros H. apply in_map_iff in H as [s [<- H]]. apply filter_In in H as [H E]. rewrite <- (el_stays k s H) in E. now apply existsb_eqb. }
  set (g := fun x => do s <- at_ (els k N1) x; do a <- at_ (s_ends s) 0; do b <- at_ (s_ends s) 1; Ok (a, b)).
  change (exists r, mapM g (flat_map (u_els k) U) = Ok r /\ Permutation r (flat_map (fun s => match s_ends s with [a; b] => [(a, b)] | _ => [] end) (filter (fun s => negb (stays s)) (els k N)))).
  assert (Q : mapM g (map s_at (filter (fun s => negb (stays s)) (els k N))) = Ok (flat_map (fun s => match s_ends s with [a; b] => [(a, b)] | _ => [] end) (filter (fun s => negb (stays s)) (els k N)))).
  { apply mapM_Ok. assert (F : forall s, In s (filter (fun s => negb (stays s)) (els k N)) -> exists a b, s_ends s = [a; b] /\ g (s_at s) = Ok (a, b)).
    { intros s Hs. apply filter_In in Hs as [Hs _]. destruct (wf_ends N W k s Hs) as [a [b [E _]]]. exists a, b. split; [exact E|]. apply In_nth_error in Hs as [x Hs].
      rewrite (proj1 (st_ser N S k x s Hs)). unfold g, N1. rewrite els_delete_buses. unfold place_series, at_. rewrite nth_error_map, Hs. cbn [option_map]. rewrite bind_ok. cbn [s_ends set_s_pos].
      rewrite E. reflexivity. }
    clear P. induction (filter (fun s => negb (stays s)) (els k N)) as [|s l IH]; [constructor|]. destruct (F s (or_introl eq_refl)) as [a [b [E G]]]. cbn [flat_map map]. rewrite E. cbn.
    constructor; [exact G|]. apply IH. intros t Ht. apply F. now right. }
  clear -P Q. clearbody g. symmetry in P. revert P Q. generalize (flat_map (fun s => match s_ends s with [a; b] => [(a, b)] | _ => [] end) (filter (fun s => negb (stays s)) (els k N))).
  generalize (map s_at (filter (fun s => negb (stays s)) (els k N))). generalize (flat_map (u_els k) U). intros m l r P. revert r. induction P as [|x p p' P IH|x y p|p1 p2 p3 P1 IH1 P2 IH2]; intros r Q.
  - exists []. split; [reflexivity|]. injection Q as <-. constructor.
  - apply mapM_Ok in Q. inversion Q as [|? a ? r0 Ha Q']; subst. destruct (IH r0) as [r' [E R]]; [now apply mapM_Ok|]. exists (a :: r'). split; [|now constructor]. apply mapM_Ok. constructor; [exact Ha|now apply mapM_Ok].
  - apply mapM_Ok in Q. inversion Q as [|? a ? r0 Ha Q']; subst. inversion Q' as [|? b ? r1 Hb Q'']; subst. exists (b :: a :: r1). split; [apply mapM_Ok; repeat constructor; assumption|apply perm_swap].
  - destruct (IH1 r Q) as [r1 [E1 Q1]]. destruct (IH2 r1 E1) as [r2 [E2 Q2]]. exists r2. split; [exact E2|]. now apply Permutation_trans with r1.
Qed.

Lemma cut_ok : Forall (fun u => u_coupling u <> []) U -> exists Ws rem, cut N U = Ok (rest, Ws, rem) /\ Forall2 worth_fact U Ws.
Proof.
  intros F. assert (X : exists Ws, mapM (worth_of N) U = Ok Ws).
  { assert (G : forall u, In u U -> exists x, worth_of N u = Ok x) by (intros u Hu; apply worth_total; [exact Hu|rewrite Forall_forall in F; now apply F]).
    clear -G. induction U as [|u l IH]; [exists []; reflexivity|]. destruct (G u (or_introl eq_refl)) as [x Ex]. destruct IH as [r Er]; [intros v Hv; apply G; now right|].
    exists (x :: r). apply mapM_Ok. constructor; [exact Ex|now apply mapM_Ok]. }
  destruct X as [Ws EW]. destruct (removed_total Lines) as [r1 [E1 _]]. destruct (removed_total Trafos) as [r2 [E2 _]].
  exists Ws, (r1 ++ r2). split; [unfold cut; rewrite EW, bind_ok, E1, bind_ok, E2, bind_ok; reflexivity|].
  apply mapM_Ok in EW. clear -EW. induction EW as [|u x l r E _ IH]; constructor; [now apply worth_inv|exact IH].
Qed.
Lemma cut_inv N1 Ws rem : cut N U = Ok (N1, Ws, rem) -> N1 = rest /\ Forall2 worth_fact U Ws /\ Forall (fun u => u_coupling u <> []) U /\
  Permutation rem (flat_map (fun s => match s_ends s with [a; b] => [(a, b)] | _ => [] end) (filter (fun s => negb (stays s)) (n_lines N ++ n_trafos N))).
Proof.
  unfold cut. intros H. apply bind_inv in H as [Ws' [EW H]]. destruct (removed_total Lines) as [r1 [E1 P1]]. destruct (removed_total Trafos) as [r2 [E2 P2]].
  rewrite E1, bind_ok, E2, bind_ok in H. injection H as <- <- <-. split; [reflexivity|]. apply mapM_Ok in EW. split; [|split].
  - clear -EW. induction EW as [|u x l r E _ IH]; constructor; [now apply worth_inv|exact IH].
  - apply Forall_forall. intros u Hu E. destruct (Forall2_in_l _ _ _ u EW Hu) as [x [_ Ex]]. rewrite (worth_alone u Hu E) in Ex. discriminate.
  - rewrite filter_app, flat_map_app. now apply Permutation_app.
Qed.
(** The buses cut out are those below the level. *)
Lemma cut_buses Ws : Forall2 worth_fact U Ws -> Permutation (flat_map w_buses Ws) (filter (fun b => negb (high three vol b)) (n_bus N)).
Proof.
  intros F. assert (O : objects (n_bus N) (flat_map u_bus U) = Ok (concat (map w_buses Ws))).
  { apply objects_flat. clear -F. induction F as [|u x l r H _ IH]; constructor; [apply H|exact IH]. }
  rewrite flat_map_concat_map.
  assert (P : Permutation (flat_map u_bus U) (map b_at (filter (fun b => negb (high three vol b)) (n_bus N)))).
  { apply NoDup_Permutation.
    - apply (i_nodup _ _ _ _ _ I).
    - assert (NA : NoDup (map b_at (n_bus N))).
      { apply NoDup_nth_error. intros i j Hi Hj. rewrite map_length in Hi. rewrite !nth_error_map in Hj.
        destruct (nth_error (n_bus N) i) as [a|] eqn:Ea; [|apply nth_error_None in Ea; lia]. destruct (nth_error (n_bus N) j) as [b|] eqn:Eb; [|discriminate].
        cbn in Hj. injection Hj as Hj. now rewrite (st_bus N S i a Ea), (st_bus N S j b Eb) in Hj. }
      clear -NA. induction (n_bus N) as [|s l IH]; [constructor|]. cbn in NA. apply NoDup_cons_iff in NA as [Hs NA]. cbn. destruct (negb (high three vol s)); [|now apply IH].
      cbn. constructor; [|now apply IH]. intros H. apply Hs. apply in_map_iff in H as [t [E H]]. apply filter_In in H as [H _]. rewrite <- E. now apply in_map.
    - intros p. rewrite low_pos. split.
      + intros [b [Hb E]]. rewrite <- (st_bus N S p b Hb). apply in_map. apply filter_In. split; [now apply nth_error_In in Hb|now rewrite E].
      + intros H. apply in_map_iff in H as [b [<- H]]. apply filter_In in H as [H E]. apply In_nth_error in H as [q H]. rewrite (st_bus N S q b H). exists b. split; [exact H|now apply negb_true_iff]. }
  destruct (objects_perm (n_bus N) _ _ _ P O) as [r' [E R]]. rewrite (objects_filter b_at _ _ (settled_buses N S)) in E. injection E as <-. exact R.
Qed.
End Cut.
