(** Theorems on the positions of the network container and on the islands of a network. *)
From Coq Require Import List ZArith QArith Bool Lia Arith Permutation Relation_Operators.
From Verif Require Import Base Parameters Analyser AnalyserSpec ParametersProofs AnalyserProofs AnalyserIslands AnalyserExamples.
Import ListNotations.
Open Scope list_scope.
Open Scope nat_scope.

(** ** C214 *)

(** After [update_all_positions] the position of every element is its place in the list, the positions of the ends of a line or
    transformer are those of its two buses, the positions listed by a bus are those of the elements with an end at it, and those of
    generators are of the bus they are at; nothing else changes. *)
Theorem C214_positions : forall N, wf N -> let M := update_all N in
  (forall i b, nth_error (n_bus M) i = Some b -> b_at b = i) /\
  (forall k i s, nth_error (els k M) i = Some s -> s_at s = i) /\
  (forall k i g, nth_error (gens k M) i = Some g -> g_at g = i) /\
  (forall k s, In s (els k M) -> exists i j bi bj, s_pos s = [i; j] /\ nth_error (n_bus M) i = Some bi /\ nth_error (n_bus M) j = Some bj /\
     Permutation [b_no bi; b_no bj] (s_ends s)) /\
  (forall k b p, In b (n_bus M) -> (In p (sref k (b_pos b)) <-> exists s, nth_error (els k M) p = Some s /\ In (b_no b) (s_ends s))) /\
  (forall k b p, In b (n_bus M) -> (In p (gref k (b_pos b)) <-> exists g, nth_error (gens k M) p = Some g /\ g_bus g = b_no b)) /\
  (forall k g, In g (gens k M) -> In (g_bus g) (numbers N) -> exists b, nth_error (n_bus M) (g_pos g) = Some b /\ b_no b = g_bus g) /\
  map bare_bus (n_bus M) = map bare_bus (n_bus N) /\ (forall k, map bare_series (els k M) = map bare_series (els k N)) /\
  (forall k, map bare_gen (gens k M) = map bare_gen (gens k N)).
Proof.
  intros N W M. pose proof (settled_update N) as S. pose proof (wf_update N W) as W'. fold M in S, W'. repeat apply conj.
  - intros i b. apply (st_bus M S).
  - intros k i s H. apply (st_ser M S k i s H).
  - intros k i g H. apply (st_gen M S k i g H).
  - intros k s H. destruct (s_pos_two M S W' k s H) as [i [j [bi [bj [H1 [_ [H2 [H3 H4]]]]]]]]. exists i, j, bi, bj. tauto.
  - intros k b p H. apply (sref_in M S W' k b H).
  - intros k b p H. apply (gref_in M S W' k b H).
  - intros k g H I. apply (g_pos_ok M S k g H). replace (numbers M) with (numbers N); [exact I|].
    rewrite !numbers_bare. unfold M. now rewrite bare_update_bus.
  - apply bare_update_bus.
  - intros k. apply bare_update_els.
  - intros k. apply bare_update_gens.
Qed.
Print Assumptions C214_positions.
(** Doing it again changes nothing. *)
Theorem C214_again : forall N, update_all (update_all N) = update_all N.
Proof. intros N. apply settled_fixed, settled_update. Qed.
Print Assumptions C214_again.
(** The positions of the ends are not in the order of the ends: "from" and "to" are swapped. *)
Theorem C214_order_refuted : exists N s b0 b1 i j, wf N /\ In s (els Lines (update_all N)) /\ s_pos s = [i; j] /\
  nth_error (n_bus (update_all N)) i = Some b0 /\ nth_error (n_bus (update_all N)) j = Some b1 /\ s_ends s = [b_no b1; b_no b0] /\ b_no b0 <> b_no b1.
Proof.
  exists six_raw. do 5 eexists. split; [exact six_wf|]. split; [left; reflexivity|]. split; [reflexivity|].
  split; [reflexivity|]. split; [reflexivity|]. split; [reflexivity|]. vm_compute. discriminate.
Qed.
Print Assumptions C214_order_refuted.
(** A line between a bus and itself gets a single position, and the search for islands fails on it. *)
Theorem C214_loop_refuted : exists N s a, In s (els Lines (update_all N)) /\ s_ends s = [a; a] /\ In a (numbers N) /\ length (s_pos s) = 1 /\
  forall order, islands_isolations order (update_all N) = Err IndexError.
Proof.
  exists loop_raw. do 2 eexists. split; [left; reflexivity|]. split; [reflexivity|]. split; [vm_compute; tauto|]. split; [reflexivity|].
  intros order. vm_compute. reflexivity.
Qed.
Print Assumptions C214_loop_refuted.

Example C214_witness : wf six_raw /\ update_all six_raw <> six_raw.
Proof. split; [exact six_wf|]. vm_compute. discriminate. Qed.

(* ------------------------------------------------------------------ *)
(** ** C215 *)

Lemma at_filter {A} (at_of : A -> nat) (pos : list nat) l : in_place at_of l ->
  without pos l = filter (fun x => negb (mem (at_of x) pos)) l.
Proof.
  intros Ha. unfold without. transitivity (filter (fun x => negb (mem (at_of x) pos)) (map snd (combine (seq 0 (length l)) l))); [|now rewrite map_snd_combine].
  rewrite <- map_snd_filter. f_equal. apply filter_ext_in. intros ix Hix. apply combine_at in Hix as [_ H]. rewrite Nat.sub_0_r in H.
  unfold mem. now rewrite (Ha _ _ H).
Qed.
(** Deleting lines, transformers or buses takes out those at the positions given, keeps the others in order, and leaves all
    positions up to date. *)
Theorem C215_deletion : forall N pos, update_all N = N ->
  (forall k, let M := delete_series k pos N in update_all M = M /\ map bare_bus (n_bus M) = map bare_bus (n_bus N) /\
     map bare_series (els k M) = map bare_series (filter (fun s => negb (existsb (Nat.eqb (s_at s)) pos)) (els k N)) /\
     (forall k', k' <> k -> els k' M = els k' N) /\ (forall g, gens g M = gens g N)) /\
  (let M := delete_buses pos N in update_all M = M /\
     map bare_bus (n_bus M) = map bare_bus (filter (fun b => negb (existsb (Nat.eqb (b_at b)) pos)) (n_bus N)) /\
     (forall k, map bare_series (els k M) = map bare_series (els k N)) /\ (forall k, map bare_gen (gens k M) = map bare_gen (gens k N))).
Proof.
  intros N pos F. apply settled_iff in F. split.
  - intros k M. split; [apply settled_fixed, settled_delete_series, F|]. split; [|split; [|split]].
    + unfold M, delete_series, refer_series. cbn [n_bus]. rewrite map_map. reflexivity.
    + transitivity (map bare_series (numbered set_s_at (without pos (els k N)))); [destruct k; reflexivity|].
      rewrite numbered_map by reflexivity. now rewrite (at_filter s_at pos _ (settled_series k N F)).
    + intros k' D. destruct k, k'; try reflexivity; now contradiction D.
    + intros g. destruct k, g; reflexivity.
  - intros M. split; [apply settled_fixed, settled_delete_buses, F|]. split; [|split].
    + unfold M, delete_buses. cbn [n_bus]. rewrite numbered_map by reflexivity. now rewrite (at_filter b_at pos _ (settled_buses N F)).
    + intros k. unfold M. rewrite els_delete_buses. unfold place_series. now rewrite map_map.
    + intros k. unfold M. rewrite gens_delete_buses. unfold place_gens. now rewrite map_map.
Qed.
Print Assumptions C215_deletion.
(** Deleting a generator does not: the buses lose the others of its kind. *)
Theorem C215_generators_refuted : exists N pos g b p, wf N /\ update_all N = N /\ let M := delete_gens Conv pos N in
  nth_error (gens Conv M) p = Some g /\ In b (n_bus M) /\ g_bus g = b_no b /\ ~ In p (gref Conv (b_pos b)) /\ update_all M <> M.
Proof.
  exists six, [1]. do 3 eexists. split; [apply wf_update, six_wf|]. split; [apply C214_again|]. cbv zeta.
  split; [exact (eq_refl : nth_error (gens Conv (delete_gens Conv [1] six)) 0 = Some _)|]. split; [left; reflexivity|]. split; [reflexivity|].
  split; [vm_compute; intros []|]. vm_compute. discriminate.
Qed.
Print Assumptions C215_generators_refuted.

Example C215_witness : update_all six = six /\ length (n_lines (delete_series Lines [0; 2] six)) = 1 /\ length (n_bus (delete_buses [5] six)) = 5.
Proof. split; [apply C214_again|]. split; reflexivity. Qed.

(* ------------------------------------------------------------------ *)
(** ** C216 *)

(** The search for islands and isolated nodes succeeds as soon as some line or transformer is in service, whatever the order in
    which networkx lists the components; every bus is then reported once, as isolated or in one island. *)
Theorem C216_partition : forall order N, update_all N = N -> wf N -> (forall P, same_classes P (order P)) -> in_service N ->
  exists A, islands_isolations order N = Ok A /\
    Permutation (map bare_bus (a_isolated A ++ flat_map n_bus (a_islands A))) (map bare_bus (n_bus N)) /\
    NoDup (map b_no (a_isolated A ++ flat_map n_bus (a_islands A))).
Proof.
  intros order N U W O S. destruct (analysis_ok order N U W O S) as [A [E H]]. exists A. split; [exact E|]. pose proof (an_bus N A H) as P.
  split; [exact P|]. assert (X : forall l, map b_no l = map b_no (map bare_bus l)) by (intros l; rewrite map_map; reflexivity).
  apply (Permutation_NoDup (l := numbers N)); [|exact (wf_bus N W)]. unfold numbers. rewrite X, (X (_ ++ _)). symmetry. now apply Permutation_map.
Qed.
Print Assumptions C216_partition.
(** With nothing in service it fails instead of reporting all buses as isolated. *)
Theorem C216_nothing : forall order N, update_all N = N -> wf N -> ~ in_service N -> islands_isolations order N = Err AssertionError.
Proof. exact analysis_none. Qed.
Print Assumptions C216_nothing.
Theorem C216_nothing_refuted : exists N, update_all N = N /\ wf N /\ n_bus N <> [] /\ forall order, islands_isolations order N = Err AssertionError.
Proof.
  exists (update_all pair_raw). split; [apply C214_again|]. split; [apply wf_update, pair_wf|]. split; [discriminate|]. intros order. reflexivity.
Qed.
Print Assumptions C216_nothing_refuted.

Definition plain_order (P : list (list nat)) : list (list nat) := P.
Lemma plain_ok P : same_classes P (plain_order P).
Proof. exists P. split; [apply Permutation_refl|]. induction P as [|c P IH]; constructor; [apply Permutation_refl|exact IH]. Qed.
Lemma backwards_ok P : same_classes P (rev (map (@rev nat) P)).
Proof.
  exists (rev P). split; [apply Permutation_rev|]. rewrite <- map_rev. induction (rev P) as [|c Q IH]; constructor; [apply Permutation_rev|exact IH].
Qed.
Lemma six_in_service : in_service six.
Proof. exists Lines. eexists. split; [left; reflexivity|reflexivity]. Qed.
Definition outline (A : analysis) : list nat * list (list nat) := (map b_no (a_isolated A), map numbers (a_islands A)).
Example C216_witness : update_all six = six /\ wf six /\ (forall P, same_classes P (rev (map (@rev nat) P))) /\ in_service six /\
  exists A, islands_isolations (fun P => rev (map (@rev nat) P)) six = Ok A /\ fst (outline A) = [60] /\ length (snd (outline A)) = 2.
Proof.
  split; [apply C214_again|]. split; [apply wf_update, six_wf|]. split; [exact backwards_ok|]. split; [exact six_in_service|].
  eexists. split; [vm_compute; reflexivity|]. split; vm_compute; reflexivity.
Qed.

(* ------------------------------------------------------------------ *)
(** ** C217 *)

Lemma found order N A : update_all N = N -> wf N -> (forall P, same_classes P (order P)) -> islands_isolations order N = Ok A -> analysed N A.
Proof.
  intros U W O E.
  assert (S : in_service N).
  { destruct (existsb s_on (n_lines N) || existsb s_on (n_trafos N)) eqn:X.
    - apply orb_true_iff in X as [X|X]; apply existsb_exists in X as [s [H1 H2]]; [now exists Lines, s|now exists Trafos, s].
    - assert (Z : ~ in_service N).
      { intros [k [s [H1 H2]]]. apply orb_false_iff in X as [X1 X2].
        destruct k; cbn in H1; [assert (Y : existsb s_on (n_lines N) = true)|assert (Y : existsb s_on (n_trafos N) = true)]; try (apply existsb_exists; now exists s); congruence. }
      rewrite (analysis_none order N U W Z) in E. discriminate. }
  destruct (analysis_ok order N U W O S) as [A' [E' H]]. rewrite E in E'. injection E' as <-. exact H.
Qed.
(** Two buses are in the same island exactly if a chain of elements in service leads from one to the other; a bus is reported as
    isolated exactly if it is the end of no element in service. *)
Theorem C217_connected : forall order N A, update_all N = N -> wf N -> (forall P, same_classes P (order P)) -> islands_isolations order N = Ok A ->
  (forall i j X Y a b, nth_error (a_islands A) i = Some X -> nth_error (a_islands A) j = Some Y -> In a (numbers X) -> In b (numbers Y) ->
     (connected N a b <-> i = j)) /\
  (forall a, In a (numbers N) ->
     (In a (map b_no (a_isolated A)) <-> forall k s, In s (els k N) -> s_on s = true -> ~ In a (s_ends s)) /\
     ((exists X, In X (a_islands A) /\ In a (numbers X)) <-> exists k s, In s (els k N) /\ s_on s = true /\ In a (s_ends s))).
Proof.
  intros order N A U W O E.
  pose proof (found order N A U W O E) as H.
  split; [exact (an_conn N A H)|]. intros a Ha.
  assert (D : In a (map b_no (a_isolated A)) \/ exists X, In X (a_islands A) /\ In a (numbers X)).
  { pose proof (Permutation_map b_no (an_bus N A H)) as P. rewrite !map_map in P.
    assert (Q : In a (map (fun x => b_no (bare_bus x)) (a_isolated A ++ flat_map n_bus (a_islands A)))) by (apply (Permutation_in _ (Permutation_sym P)); exact Ha).
    apply in_map_iff in Q as [b [<- Q]]. apply in_app_or in Q as [Q|Q]; [left; exact (in_map b_no _ _ Q)|].
    right. apply in_flat_map in Q as [X [H1 H2]]. exists X. split; [exact H1|]. exact (in_map b_no _ _ H2). }
  assert (D1 : In a (map b_no (a_isolated A)) -> forall k s, In s (els k N) -> s_on s = true -> ~ In a (s_ends s)).
  { intros I. apply in_map_iff in I as [b [<- I]]. exact (an_alone N A H b I). }
  assert (D2 : (exists X, In X (a_islands A) /\ In a (numbers X)) -> exists k s, In s (els k N) /\ s_on s = true /\ In a (s_ends s)).
  { intros [X [H1 H2]]. exact (an_tied N A H X a H1 H2). }
  split; (split; [assumption|]).
  - intros F. destruct D as [D|D]; [exact D|]. destruct (D2 D) as [k [s [H1 [H2 H3]]]]. exfalso. exact (F k s H1 H2 H3).
  - intros [k [s [H1 [H2 H3]]]]. destruct D as [D|D]; [|exact D]. exfalso. exact (D1 D k s H1 H2 H3).
Qed.
Print Assumptions C217_connected.

Example C217_witness : exists A, islands_isolations plain_order six = Ok A /\ (forall P, same_classes P (plain_order P)) /\ connected six 10 30 /\
  map numbers (a_islands A) = [[10; 20; 30]; [40; 50]] /\ ~ linked six 30 40.
Proof.
  eexists. split; [vm_compute; reflexivity|]. split; [exact plain_ok|]. split; [|split; [vm_compute; reflexivity|]].
  - apply rt_trans with 20; apply rt_step; [exists Lines|exists Trafos]; eexists; (split; [left; reflexivity|]); (split; [reflexivity|]); vm_compute; tauto.
  - intros [k [s [H [On [I J]]]]]. destruct k; cbn in H; repeat destruct H as [<-|H]; try destruct H; vm_compute in On, I, J; intuition discriminate.
Qed.

(* ------------------------------------------------------------------ *)
(** ** C218 *)

(** Every line and transformer in service is in exactly one island, with both its ends; those out of service are reported apart, in
    order.  No other element is reported. *)
Theorem C218_elements : forall order N A, update_all N = N -> wf N -> (forall P, same_classes P (order P)) -> islands_isolations order N = Ok A -> forall k,
  Permutation (map bare_series (flat_map (els k) (a_islands A))) (map bare_series (filter s_on (els k N))) /\
  map bare_series (opick k (a_off A)) = map bare_series (filter (fun s => negb (s_on s)) (els k N)) /\
  (forall X s a, In X (a_islands A) -> In s (els k X) -> In a (s_ends s) -> In a (numbers X)).
Proof.
  intros order N A U W O E k. pose proof (found order N A U W O E) as H. split; [exact (an_els N A H k)|]. split; [exact (an_off N A H k)|].
  intros X s a HX Hs Ha. destruct (an_wf N A H X HX) as [WX _]. destruct (wf_ends X WX k s Hs) as [u [v [Es [_ [Hu Hv]]]]].
  rewrite Es in Ha. destruct Ha as [<-|[<-|[]]]; assumption.
Qed.
Print Assumptions C218_elements.

Example C218_witness : exists A, islands_isolations plain_order six = Ok A /\ map s_no (flat_map n_lines (a_islands A)) = [1; 2] /\
  map s_no (flat_map n_trafos (a_islands A)) = [7] /\ map s_no (fst (a_off A)) = [3].
Proof. eexists. split; [vm_compute; reflexivity|]. repeat split; vm_compute; reflexivity. Qed.

(* ------------------------------------------------------------------ *)
(** ** C219 *)

(** Every generator at a bus of the network is reported once, of its own kind: with the isolated nodes if its bus is isolated, else
    in the island of its bus. *)
Theorem C219_generators : forall order N A, update_all N = N -> wf N -> (forall P, same_classes P (order P)) -> islands_isolations order N = Ok A -> forall k,
  Permutation (map bare_gen (gpick k (a_gens A) ++ flat_map (gens k) (a_islands A))) (map bare_gen (filter (housed N) (gens k N))) /\
  (forall g, In g (gpick k (a_gens A)) -> exists b, In b (a_isolated A) /\ b_no b = g_bus g) /\
  (forall X g, In X (a_islands A) -> In g (gens k X) -> In (g_bus g) (numbers X)).
Proof.
  intros order N A U W O E k. pose proof (found order N A U W O E) as H. split; [exact (an_gens N A H k)|].
  split; [exact (an_gen_alone N A H k)|]. intros X g. exact (an_gen N A H X k g).
Qed.
Print Assumptions C219_generators.

Example C219_witness : exists A, islands_isolations plain_order six = Ok A /\ map g_name (gpick Conv (a_gens A)) = [2] /\
  map (fun X => map g_name (gens Conv X)) (a_islands A) = [[1; 3]; []] /\ map (fun X => map g_name (gens Hydro X)) (a_islands A) = [[]; [5]].
Proof. eexists. split; [vm_compute; reflexivity|]. repeat split; vm_compute; reflexivity. Qed.

(* ------------------------------------------------------------------ *)
(** ** C220 *)

Lemma same_island N A X Y a : analysed N A -> In X (a_islands A) -> In Y (a_islands A) -> In a (numbers X) -> In a (numbers Y) -> X = Y.
Proof.
  intros H HX HY Ia Ja. apply In_nth_error in HX as [i HX]. apply In_nth_error in HY as [j HY].
  assert (E : i = j) by (apply (an_conn N A H i j X Y a a HX HY Ia Ja); apply rt_refl). subst j. congruence.
Qed.
(** An element in service at a bus of an island is in that island. *)
Lemma link_within N A X k s a : analysed N A -> In X (a_islands A) -> In a (numbers X) -> In s (els k N) -> s_on s = true -> In a (s_ends s) ->
  exists s', In s' (els k X) /\ bare_series s' = bare_series s.
Proof.
  intros H HX Ia Hs On Ha.
  assert (I : In (bare_series s) (map bare_series (flat_map (els k) (a_islands A)))).
  { apply (Permutation_in _ (Permutation_sym (an_els N A H k))). apply in_map, filter_In. now split. }
  apply in_map_iff in I as [s' [E I]]. apply in_flat_map in I as [Y [HY I]]. exists s'. split; [|exact E].
  destruct (an_wf N A H Y HY) as [WY _]. destruct (wf_ends Y WY k s' I) as [u [v [Es [_ [Hu Hv]]]]].
  assert (Ja : In a (numbers Y)). { replace (s_ends s) with (s_ends s') in Ha by (apply bare_series_eq in E; tauto). rewrite Es in Ha. destruct Ha as [<-|[<-|[]]]; assumption. }
  now rewrite (same_island N A X Y a H HX HY Ia Ja).
Qed.
Lemma island_on N A X k s : analysed N A -> In X (a_islands A) -> In s (els k X) -> s_on s = true.
Proof.
  intros H HX Hs. assert (I : In (bare_series s) (map bare_series (filter s_on (els k N)))).
  { apply (Permutation_in _ (an_els N A H k)). apply in_map, in_flat_map. now exists X. }
  apply in_map_iff in I as [t [E I]]. apply filter_In in I as [_ On]. apply bare_series_eq in E as [_ [_ E]]. congruence.
Qed.
Lemma island_connected N A X a b : analysed N A -> In X (a_islands A) -> In a (numbers X) -> In b (numbers X) -> connected X a b.
Proof.
  intros H HX Ha Hb. destruct (In_nth_error _ _ HX) as [i Hi].
  assert (C : connected N a b) by (apply (an_conn N A H i i X X a b Hi Hi Ha Hb); reflexivity).
  apply Operators_Properties.clos_rt_rt1n in C. clear Hb. induction C as [a|a c b L _ IH]; [apply rt_refl|].
  destruct L as [k [s [Hs [On [Ea Ec]]]]]. destruct (link_within N A X k s a H HX Ha Hs On Ea) as [s' [Hs' E]].
  assert (Ends : s_ends s' = s_ends s) by (apply bare_series_eq in E; tauto).
  destruct (an_wf N A H X HX) as [WX _]. destruct (wf_ends X WX k s' Hs') as [u [v [Es [_ [Hu Hv]]]]].
  apply rt_trans with c.
  - apply rt_step. exists k, s'. rewrite Ends. split; [exact Hs'|]. split; [exact (island_on N A X k s' H HX Hs')|]. now split.
  - apply IH. rewrite <- Ends, Es in Ec. destruct Ec as [<-|[<-|[]]]; assumption.
Qed.
(** Every island is itself a network in order, with positions up to date, that is not empty and is connected; looking for the
    islands of an island gives one island, with the same buses and elements, and nothing isolated or out of service. *)
Theorem C220_islands : forall order N A X, update_all N = N -> wf N -> (forall P, same_classes P (order P)) -> islands_isolations order N = Ok A ->
  In X (a_islands A) -> wf X /\ update_all X = X /\ n_bus X <> [] /\
  (forall a b, In a (numbers X) -> In b (numbers X) -> connected X a b) /\
  exists A' Y, islands_isolations order X = Ok A' /\ a_islands A' = [Y] /\ a_isolated A' = [] /\ Permutation (map bare_bus (n_bus Y)) (map bare_bus (n_bus X)) /\
    (forall k, Permutation (map bare_series (els k Y)) (map bare_series (els k X)) /\ opick k (a_off A') = []) /\
    (forall k, Permutation (map bare_gen (gens k Y)) (map bare_gen (gens k X)) /\ gpick k (a_gens A') = []).
Proof.
  intros order N A X U W O E HX. pose proof (found order N A U W O E) as H. destruct (an_wf N A H X HX) as [WX [UX NX]].
  split; [exact WX|]. split; [exact UX|]. split; [exact NX|]. split; [intros a b; exact (island_connected N A X a b H HX)|].
  assert (T : forall a, In a (numbers X) -> exists k s, In s (els k X) /\ s_on s = true /\ In a (s_ends s)).
  { intros a Ha. destruct (an_tied N A H X a HX Ha) as [k [s [Hs [On Ea]]]]. destruct (link_within N A X k s a H HX Ha Hs On Ea) as [s' [Hs' Es]].
    exists k, s'. apply bare_series_eq in Es as [_ [E1 E2]]. rewrite E1, E2. now split. }
  assert (Fo : forall k, filter s_on (els k X) = els k X /\ filter (fun s => negb (s_on s)) (els k X) = []).
  { intros k. assert (F : Forall (fun s => s_on s = true) (els k X)) by (apply Forall_forall; intros s; exact (island_on N A X k s H HX)).
    clear -F. induction F as [|s l P _ [I1 I2]]; [split; reflexivity|]. cbn. rewrite P. cbn. now rewrite I1, I2. }
  assert (Z : exists a, In a (numbers X)) by (unfold numbers; destruct (n_bus X) as [|b l]; [congruence|exists (b_no b); now left]).
  assert (IS : in_service X) by (destruct Z as [a Ha]; destruct (T a Ha) as [k [s [H1 [H2 _]]]]; now exists k, s).
  destruct (analysis_ok order X UX WX O IS) as [A' [E' H']]. exists A'.
  assert (No : a_isolated A' = []).
  { destruct (a_isolated A') as [|b l] eqn:Ei; [reflexivity|]. exfalso. assert (I : In b (a_isolated A')) by (rewrite Ei; now left).
    assert (Ib : In (b_no b) (numbers X)).
    { pose proof (Permutation_map b_no (an_bus X A' H')) as P. rewrite !map_map in P. apply (Permutation_in _ P).
      apply (in_map (fun x => b_no (bare_bus x)) _ b). apply in_or_app. now left. }
    destruct (T _ Ib) as [k [s [H1 [H2 H3]]]]. exact (an_alone X A' H' b I k s H1 H2 H3). }
  assert (One : exists Y, a_islands A' = [Y]).
  { destruct (a_islands A') as [|Y [|Y' l]] eqn:Ei.
    - exfalso. pose proof (Permutation_length (an_bus X A' H')) as L. rewrite No, Ei in L. rewrite !map_length in L. cbn in L. destruct (n_bus X); [congruence|discriminate].
    - now exists Y.
    - exfalso. assert (N0 : nth_error (a_islands A') 0 = Some Y) by now rewrite Ei. assert (N1 : nth_error (a_islands A') 1 = Some Y') by now rewrite Ei.
      assert (M : forall V, In V (a_islands A') -> exists a, In a (numbers V) /\ In a (numbers X)).
      { intros V HV. destruct (an_wf X A' H' V HV) as [_ [_ NV]]. destruct (n_bus V) as [|b r] eqn:Eb; [congruence|]. exists (b_no b). split.
        - unfold numbers. rewrite Eb. now left.
        - pose proof (Permutation_map b_no (an_bus X A' H')) as P. rewrite !map_map in P. apply (Permutation_in _ P).
          apply (in_map (fun x => b_no (bare_bus x)) _ b). apply in_or_app. right. apply in_flat_map. exists V. split; [exact HV|rewrite Eb; now left]. }
      destruct (M Y) as [a [Ha1 Ha2]]; [rewrite Ei; now left|]. destruct (M Y') as [b [Hb1 Hb2]]; [rewrite Ei; right; now left|].
      assert (D : 0 = 1) by (apply (an_conn X A' H' 0 1 Y Y' a b N0 N1 Ha1 Hb1); exact (island_connected N A X a b H HX Ha2 Hb2)). discriminate. }
  destruct One as [Y EY]. exists Y. split; [exact E'|]. split; [exact EY|]. split; [exact No|]. split; [|split].
  - pose proof (an_bus X A' H') as P. rewrite No, EY in P. cbn [flat_map List.app] in P. now rewrite app_nil_r in P.
  - intros k. destruct (Fo k) as [F1 F2]. split.
    + pose proof (an_els X A' H' k) as P. rewrite EY, F1 in P. cbn [flat_map] in P. now rewrite app_nil_r in P.
    + pose proof (an_off X A' H' k) as P. rewrite F2 in P. destruct (opick k (a_off A')); [reflexivity|discriminate].
  - intros k. assert (G : gpick k (a_gens A') = []).
    { destruct (gpick k (a_gens A')) as [|g l] eqn:Eg; [reflexivity|]. exfalso. destruct (an_gen_alone X A' H' k g) as [b [Hb _]]; [rewrite Eg; now left|].
      rewrite No in Hb. destruct Hb. }
    split; [|exact G]. pose proof (an_gens X A' H' k) as P. rewrite G, EY in P. cbn [flat_map List.app] in P. rewrite app_nil_r in P.
    replace (filter (housed X) (gens k X)) with (gens k X) in P; [exact P|]. symmetry.
    assert (F : Forall (fun g => housed X g = true) (gens k X)) by (apply Forall_forall; intros g Hg; apply existsb_eqb; exact (an_gen N A H X k g HX Hg)).
    clear -F. induction F as [|g l P _ IH]; [reflexivity|]. cbn. now rewrite P, IH.
Qed.
Print Assumptions C220_islands.

Example C220_witness : exists A X, islands_isolations plain_order six = Ok A /\ nth_error (a_islands A) 0 = Some X /\ numbers X = [10; 20; 30] /\ map s_pos (n_trafos X) = [[1; 2]].
Proof. do 2 eexists. split; [vm_compute; reflexivity|]. split; [reflexivity|]. split; vm_compute; reflexivity. Qed.
