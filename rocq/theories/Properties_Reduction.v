(** Theorems on the reduction of a network to a voltage level. *)
From Coq Require Import List ZArith QArith Bool Lia Arith Permutation Relation_Operators Operators_Properties Setoid Lqa.
From Verif Require Import Base GraphData Network Cases HydroTables ConverterOpen Parameters Analyser Reduction AnalyserSpec ReductionSpec GraphDataProofs ParametersProofs AnalyserProofs AnalyserIslands ReductionTrack ReductionProofs ReductionPlace ReductionParts ReductionMain ReductionLinks ReductionExamples.
From Verif Require ClusteringProofs.
Import ListNotations.
Open Scope list_scope.
Open Scope nat_scope.
Local Arguments multi _ : simpl never.

(** ** C221 *)

(** The search for supernodes always ends.  The supernodes are the connected parts of the buses below the level: every such bus is in
    exactly one, and two are in the same one when a chain of lines and transformers joins them below the level.  A supernode has the
    lines and transformers with an end in it, each element is in at most one supernode, and the pairs of coupling bus and element are
    one for every element of the supernode with its other end above. *)
Theorem C221_supernodes : forall three vol N, update_all N = N -> wf N -> exists f U, find_supers three vol N = Ok (f, U) /\
  NoDup (flat_map (fun u => nos_at N (u_bus u)) U) /\
  (forall a, low_no three vol N a <-> exists u, In u U /\ In a (nos_at N (u_bus u))) /\
  (forall k, NoDup (flat_map (u_els k) U)) /\
  forall u, In u U ->
    (exists r, In r (nos_at N (u_bus u)) /\ forall a, In a (nos_at N (u_bus u)) <-> low_connected three vol N r a) /\
    (forall k s, In s (els_at k N (u_els k u)) <-> In s (els k N) /\ exists a, In a (s_ends s) /\ In a (nos_at N (u_bus u))) /\
    Forall2 (fun c s => (exists k, In s (els k N)) /\ high_no three vol N c /\ exists b, In b (nos_at N (u_bus u)) /\ Permutation [c; b] (s_ends s))
      (nos_at N (u_coupling u)) (u_art u) /\
    Permutation (u_art u) (filter (crossing_up three vol N) (els_at Lines N (u_lines u) ++ els_at Trafos N (u_trafos u))).
Proof.
  intros three vol N E W. apply settled_iff in E as S. destruct (supers_ok three vol N S W) as [f [U [EF [I All]]]]. exists f, U. split; [exact EF|].
  split; [now apply (parts_nodup three vol N W f U I)|]. split; [|split; [apply (i_elnodup _ _ _ _ _ I)|]].
  - intros a. split; [apply (part_cover three vol N W f U I All a)|]. intros [u [Hu Ha]]. now apply (part_low three vol N W f U I u).
  - intros u Hu. split; [now apply (part_connected three vol N S W f U I)|]. split; [intros k s; now apply (part_els three vol N S W f U I All)|].
    split; [exact (coupling_nos three vol N S W f U I All u Hu)|exact (art_perm three vol N S W f U I u Hu)].
Qed.
Print Assumptions C221_supernodes.
(** Elements out of service join buses into a supernode all the same. *)
Theorem C221_status_refuted : exists N f U u a b, update_all N = N /\ wf N /\ find_supers 1 220 N = Ok (f, U) /\ In u U /\
  In a (nos_at N (u_bus u)) /\ In b (nos_at N (u_bus u)) /\ ~ connected N a b.
Proof.
  exists AnalyserExamples.six. do 3 eexists. exists 30, 40. split; [apply settled_iff, settled_update|]. split; [apply wf_update, AnalyserExamples.six_wf|]. split; [vm_compute; reflexivity|]. split; [left; reflexivity|].
  split; [vm_compute; tauto|]. split; [vm_compute; tauto|].
  assert (X : forall a b, connected AnalyserExamples.six a b -> (a = 10 \/ a = 20 \/ a = 30) -> (b = 10 \/ b = 20 \/ b = 30)).
  { intros a b H. apply clos_rt_rt1n in H. induction H as [|x y z L _ IH]; [tauto|]. intros Hx. apply IH. destruct L as [k [s [Hs [On [Ha Hb]]]]].
    destruct k; vm_compute in Hs; repeat (destruct Hs as [<-|Hs]; [vm_compute in On, Ha, Hb; intuition (discriminate || lia)|]); destruct Hs. }
  intros H. apply X in H; [|tauto]. lia.
Qed.
Print Assumptions C221_status_refuted.

Example C221_witness : update_all grid = grid /\ wf grid /\ exists f U, find_supers 1 220 grid = Ok (f, U) /\ map (fun u => nos_at grid (u_bus u)) U = [[3; 4]; [5]] /\
  map (fun u => nos_at grid (u_coupling u)) U = [[2; 1]; [2]].
Proof.
  split; [apply settled_iff, settled_update|]. split; [apply wf_update, grid_wf|]. do 2 eexists. split; [vm_compute; reflexivity|]. split; vm_compute; reflexivity.
Qed.

(* ------------------------------------------------------------------ *)
(** ** C222 *)

Lemma bare_sum (h : bus -> Q) : (forall b, h (bare_bus b) = h b) -> forall l l', map bare_bus l = map bare_bus l' -> map h l = map h l'.
Proof. intros H l l' E. transitivity (map h (map bare_bus l)); [rewrite map_map; apply map_ext; intros b; now rewrite H|]. rewrite E, map_map. apply map_ext. intros b. now rewrite H. Qed.
Lemma demand_total three vol bus0 line0 N d (g : worth -> Q) (h : bus -> Q) : settled N -> wf N -> reduce three vol bus0 line0 N = Ok d ->
  (forall b, h (bare_bus b) = h b) -> (forall u x, worth_fact N u x -> g x = qsum (map h (w_buses x))) ->
  (forall e b, node_ok e b -> h b = g (snd (snd e))) ->
  (forall U Ws M P no line kept nodes es, outcome N U Ws bus0 line0 M P no line kept nodes es -> (qsum (map h kept) == qsum (map h (n_bus (rest N U))) + stay_total g (combine U Ws))%Q) ->
  (qsum (map h (n_bus (d_net d))) == qsum (map h (n_bus N)))%Q.
Proof.
  intros S W H Hb Hw Hn Hk. destruct (reduce_inv three vol bus0 line0 N d S W H) as [f [_ [I [All [[_ ->]|[Ws [no [line [kept [nodes [es [HU [F [NE [O _]]]]]]]]]]]]]]]; [reflexivity|].
  rewrite (bare_sum h Hb _ _ (o_bus _ _ _ _ _ _ _ _ _ _ _ _ O)), map_app, ClusteringProofs.qsum_app, (Hk _ _ _ _ _ _ _ _ _ O), (bare_sum h Hb _ _ (rest_bus three vol N S f _ I All)).
  assert (X : map h nodes = map (fun e => g (snd (snd e))) (plan no line (combine (d_supers d) Ws))).
  { pose proof (o_nodes _ _ _ _ _ _ _ _ _ _ _ _ O) as F2. clear -F2 Hn. induction F2 as [|e b l r Heb _ IH]; [reflexivity|]. cbn. now rewrite (Hn e b Heb), IH. }
  rewrite X. rewrite <- (split_total h (high three vol) (n_bus N)), <- (worths_total three vol N S f _ I All Ws F g h Hw), <- (plan_worths no line (combine (d_supers d) Ws) g). lra.
Qed.
(** Active and reactive demand are conserved by every reduction that gives a result. *)
Theorem C222_demand : forall three vol bus0 line0 N d, update_all N = N -> wf N -> reduce three vol bus0 line0 N = Ok d ->
  (total_p (d_net d) == total_p N)%Q /\ (total_q (d_net d) == total_q N)%Q.
Proof.
  intros three vol bus0 line0 N d E W H. apply settled_iff in E as S. split.
  - apply (demand_total three vol bus0 line0 N d w_p b_p S W H); [reflexivity| | |].
    + intros u x X. apply X.
    + intros e b X. apply X.
    + intros U Ws M P no line kept nodes es O. apply (o_p _ _ _ _ _ _ _ _ _ _ _ _ O).
  - apply (demand_total three vol bus0 line0 N d w_q b_q S W H); [reflexivity| | |].
    + intros u x X. apply X.
    + intros e b X. apply X.
    + intros U Ws M P no line kept nodes es O. apply (o_q _ _ _ _ _ _ _ _ _ _ _ _ O).
Qed.
Print Assumptions C222_demand.

Lemma objects_at N l r : objects (n_bus N) l = Ok r -> r = buses_at N l.
Proof. intros H. apply objects_nth in H. induction H as [|p b l r E _ IH]; [reflexivity|]. unfold buses_at in *. cbn. rewrite E. cbn. now rewrite <- IH. Qed.
Lemma comes_only N U Ws (g : worth -> Q) (h : bus -> Q) a : Forall2 (worth_fact N) U Ws -> (forall u x, In (u, x) (combine U Ws) -> fit (numbers (rest N U)) (u, x)) ->
  (forall u x, worth_fact N u x -> g x = qsum (map h (w_buses x))) ->
  (comes g a (combine U Ws) == qsum (map (fun u => if only_at N (u_coupling u) a then qsum (map h (buses_at N (u_bus u))) else 0%Q) U))%Q.
Proof.
  intros F Fit Hg. unfold comes. revert Fit. generalize (numbers (rest N U)). intros nos Fit. induction F as [|u x l r H _ IH]; [reflexivity|]. cbn [combine map]. rewrite !qsum_cons, IH by (intros v y Hv; apply Fit; now right).
  assert (E : goes a (u, x) = only_at N (u_coupling u) a).
  { destruct (Fit u x (or_introl eq_refl)) as [L1 _]. cbn [fst snd] in L1. pose proof H as [_ [H2 _]]. apply (objects_nos N) in H2. unfold goes, only_at, multi. cbn [fst snd]. rewrite <- H2, <- L1.
    destruct (w_coupling x) as [|c [|c' r']]; cbn; reflexivity. }
  rewrite E. cbn [snd]. rewrite (Hg u x H). pose proof H as [H1 _]. apply objects_at in H1. rewrite H1. destruct (only_at N (u_coupling u) a); reflexivity.
Qed.
Lemma same_rest U R R' : Forall2 (same_but U) R R' -> forall b, In b R -> exists b', In b' R' /\ same_but U b b'.
Proof. intros F b H. destruct (Forall2_in_l _ _ _ b F H) as [b' [H1 H2]]. now exists b'. Qed.
(** A bus of the level keeps its voltage and zone and gets, on top of its own demand, the demand of the parts below the level whose
    only connection is one element to it. *)
Theorem C222_bus : forall three vol bus0 line0 N d b, update_all N = N -> wf N -> reduce three vol bus0 line0 N = Ok d -> In b (n_bus N) -> ~ is_low three vol b ->
  exists b', In b' (n_bus (d_net d)) /\ b_no b' = b_no b /\ b_kv b' = b_kv b /\ b_zone b' = b_zone b /\
    (b_p b' == b_p b + qsum (map (fun u => if only_at N (u_coupling u) (b_no b) then part_p N (u_bus u) else 0%Q) (d_supers d)))%Q /\
    (b_q b' == b_q b + qsum (map (fun u => if only_at N (u_coupling u) (b_no b) then part_q N (u_bus u) else 0%Q) (d_supers d)))%Q.
Proof.
  intros three vol bus0 line0 N d b E W H Hb L. apply settled_iff in E as S. destruct (reduce_inv three vol bus0 line0 N d S W H) as [f [_ [I [All D]]]].
  destruct D as [[_ ->]|[Ws [no [line [kept [nodes [es [HU [F [NE [O _]]]]]]]]]]].
  { exists b. cbn [d_net d_supers map]. change (qsum []) with 0%Q. split; [exact Hb|]. split; [reflexivity|]. split; [reflexivity|]. split; [reflexivity|]. split; lra. }
  assert (Hf : In b (filter (high three vol) (n_bus N))) by (apply filter_In; split; [exact Hb|now apply high_spec]).
  destruct (in_bare bare_bus _ _ b (rest_bus three vol N S f _ I All) Hf) as [b0 [H0 E0]]. destruct (same_rest _ _ _ (o_kept _ _ _ _ _ _ _ _ _ _ _ _ O) b0 H0) as [b1 [H1 [Q1 [Q2 [Q3 [_ [_ [Q4 [Q5 _]]]]]]]]].
  destruct (in_bare bare_bus _ _ b1 (o_bus _ _ _ _ _ _ _ _ _ _ _ _ O) (in_or_app _ _ _ (or_introl H1))) as [b2 [H2 E2]].
  assert (Fit : forall u x, In (u, x) (combine (d_supers d) Ws) -> fit (numbers (rest N (d_supers d))) (u, x)).
  { pose proof (fits three vol N S W f _ I All Ws F NE) as X. rewrite Forall_forall in X. intros u x. apply X. }
  rewrite (comes_only N _ Ws w_p b_p (b_no b0) F Fit) in Q4 by (intros u x X; apply X). rewrite (comes_only N _ Ws w_q b_q (b_no b0) F Fit) in Q5 by (intros u x X; apply X).
  assert (B0 : b_no b0 = b_no b /\ b_kv b0 = b_kv b /\ b_zone b0 = b_zone b /\ b_p b0 = b_p b /\ b_q b0 = b_q b) by (unfold bare_bus in E0; injection E0; intros; subst; tauto).
  assert (B2 : b_no b2 = b_no b1 /\ b_kv b2 = b_kv b1 /\ b_zone b2 = b_zone b1 /\ b_p b2 = b_p b1 /\ b_q b2 = b_q b1) by (unfold bare_bus in E2; injection E2; intros; subst; tauto).
  destruct B0 as [A1 [A2 [A3 [A4 A5]]]], B2 as [C1 [C2 [C3 [C4 C5]]]]. rewrite A1, A4 in Q4. rewrite A1, A5 in Q5. exists b2.
  split; [exact H2|]. split; [congruence|]. split; [congruence|]. split; [congruence|]. unfold part_p, part_q. rewrite C4, C5. split; assumption.
Qed.
Print Assumptions C222_bus.
(** Non technical losses are not: those of an element that becomes an artificial line are counted at the artificial bus as well. *)
Theorem C222_losses_refuted : exists N d, update_all N = N /\ wf N /\ reduce 1 220 None None N = Ok d /\ ~ (total_losses (d_net d) == total_losses N)%Q.
Proof.
  exists off. eexists. split; [apply settled_iff, settled_update|]. split; [apply wf_update, off_wf|]. split; [vm_compute; reflexivity|]. vm_compute. discriminate.
Qed.
Print Assumptions C222_losses_refuted.

Example C222_witness : update_all grid = grid /\ wf grid /\ exists d, reduce 1 220 None None grid = Ok d /\ d_supers d <> [] /\ map b_p (n_bus (d_net d)) = [10; 25; 7]%Q.
Proof.
  split; [apply settled_iff, settled_update|]. split; [apply wf_update, grid_wf|]. eexists. split; [vm_compute; reflexivity|]. split; [discriminate|]. vm_compute. reflexivity.
Qed.

(* ------------------------------------------------------------------ *)
(** ** C223 *)

Lemma none_low three vol N f : settled N -> wf N -> inv three vol N f [] -> (forall p, p < length (n_bus N) -> nth_error (f_bus f) p = Some true) ->
  (forall b, In b (n_bus N) -> high three vol b = true) /\ forall k s, In s (els k N) -> all_up three vol N s = true.
Proof.
  intros S W I All. assert (X : forall a, ~ low_no three vol N a) by (intros a H; destruct (part_cover three vol N W f [] I All a H) as [u [[] _]]). split.
  - intros b Hb. destruct (high three vol b) eqn:E; [reflexivity|]. exfalso. apply (X (b_no b)). exists b. split; [exact Hb|]. split; [reflexivity|now apply high_false].
  - intros k s Hs. unfold all_up. apply forallb_forall. intros a Ha. apply upper_high. destruct (end_pos N W k s a Hs Ha) as [p [b [Hp <-]]].
    destruct (high_or_low three vol N (b_no b)) as [H|H]; [apply in_map; now apply nth_error_In in Hp|exact H|exfalso; now apply (X (b_no b))].
Qed.
Lemma filter_all {A} (q : A -> bool) l : (forall x, In x l -> q x = true) -> filter q l = l.
Proof. induction l as [|x l IH]; intros H; [reflexivity|]. cbn. rewrite (H x (or_introl eq_refl)), IH; [reflexivity|]. intros y Hy. apply H. now right. Qed.
Lemma filter_none {A} (q : A -> bool) l : (forall x, In x l -> q x = true) -> filter (fun x => negb (q x)) l = [].
Proof. induction l as [|x l IH]; intros H; [reflexivity|]. cbn. rewrite (H x (or_introl eq_refl)). cbn. apply IH. intros y Hy. apply H. now right. Qed.
Definition card (b : bus) : nat * Q * nat := (b_no b, b_kv b, b_zone b).
Definition ends_pair (s : series) : list (nat * nat) := match s_ends s with [a; b] => [(a, b)] | _ => [] end.
(** The buses of the level stay, in order, before the artificial ones; lines and transformers between two of them stay as they were;
    no other transformer does, and no other line but the artificial ones.  The branches reported as removed are the others. *)
Theorem C223_kept : forall three vol bus0 line0 N d, update_all N = N -> wf N -> reduce three vol bus0 line0 N = Ok d ->
  exists nodes lines, map card (n_bus (d_net d)) = map card (filter (fun b => upper three vol N (b_no b)) (n_bus N)) ++ map card nodes /\
    map bare_series (n_lines (d_net d)) = map bare_series (filter (all_up three vol N) (n_lines N)) ++ lines /\
    map bare_series (n_trafos (d_net d)) = map bare_series (filter (all_up three vol N) (n_trafos N)) /\
    length nodes = length (filter (fun u => 1 <? length (u_coupling u)) (d_supers d)) /\
    length lines = length (flat_map u_coupling (filter (fun u => 1 <? length (u_coupling u)) (d_supers d))) /\
    Permutation (d_removed d) (flat_map ends_pair (filter (fun s => negb (all_up three vol N s)) (n_lines N ++ n_trafos N))).
Proof.
  intros three vol bus0 line0 N d E W H. apply settled_iff in E as S. destruct (reduce_inv three vol bus0 line0 N d S W H) as [f [_ [I [All D]]]].
  assert (Up : forall b, In b (n_bus N) -> upper three vol N (b_no b) = high three vol b).
  { intros b Hb. apply eq_true_iff_eq. rewrite upper_high. split.
    - intros Hh. destruct (high three vol b) eqn:Eh; [reflexivity|]. exfalso. apply (high_not_low three vol N W _ Hh). exists b. split; [exact Hb|]. split; [reflexivity|now apply high_false].
    - intros Hh. exists b. split; [exact Hb|]. split; [reflexivity|now apply high_spec]. }
  destruct D as [[EU ->]|[Ws [no [line [kept [nodes [es [HU [F [NE [O R]]]]]]]]]]].
  - cbn [d_supers] in *. destruct (none_low three vol N f S W I All) as [B L]. exists [], []. cbn [d_net d_removed map]. rewrite !List.app_nil_r.
    rewrite (filter_all (fun b => upper three vol N (b_no b))) by (intros b Hb; rewrite Up by exact Hb; now apply B).
    rewrite (filter_all _ (n_lines N)) by (intros s Hs; exact (L Lines s Hs)). rewrite (filter_all _ (n_trafos N)) by (intros s Hs; exact (L Trafos s Hs)).
    rewrite filter_none by (intros s Hs; apply in_app_or in Hs as [Hs|Hs]; [exact (L Lines s Hs)|exact (L Trafos s Hs)]). cbn. repeat split; constructor.
  - exists nodes, (map bare_series (flat_map plan_lines (plan no line (combine (d_supers d) Ws)))).
    assert (X : forall l, map card l = map card (map bare_bus l)) by (intros l; rewrite map_map; reflexivity).
    assert (Len : length (d_supers d) = length Ws) by (apply (Forall2_length _ _ _ F)).
    assert (Y : length (filter (fun ux => multi (fst ux)) (combine (d_supers d) Ws)) = length (filter multi (d_supers d))).
    { clear -Len. revert Ws Len. induction (d_supers d) as [|u l IH]; intros [|x r] L; try discriminate; [reflexivity|]. injection L as L. cbn [combine filter fst]. destruct (multi u); cbn [length]; now rewrite IH. }
    split; [|split; [|split; [|split; [|split]]]].
    + rewrite X, (o_bus _ _ _ _ _ _ _ _ _ _ _ _ O), <- X, map_app. f_equal. rewrite (filter_ext_in _ (high three vol)) by exact Up.
      rewrite (X (filter _ _)), <- (rest_bus three vol N S f _ I All), <- X. pose proof (o_kept _ _ _ _ _ _ _ _ _ _ _ _ O) as K. clear -K. induction K as [|b b' l l' [H1 [H2 [H3 _]]] _ IH]; [reflexivity|]. cbn. unfold card at 1 3. now rewrite H1, H2, H3, IH.
    + rewrite (o_lines _ _ _ _ _ _ _ _ _ _ _ _ O), map_app. f_equal. change (n_lines (rest N (d_supers d))) with (els Lines (rest N (d_supers d))). rewrite (rest_els three vol N S W f _ I All Lines). f_equal.
      apply filter_ext_in. intros s Hs. exact (stays_up three vol N S W Lines s Hs).
    + rewrite (o_trafos _ _ _ _ _ _ _ _ _ _ _ _ O). change (n_trafos (rest N (d_supers d))) with (els Trafos (rest N (d_supers d))). rewrite (rest_els three vol N S W f _ I All Trafos). f_equal.
      apply filter_ext_in. intros s Hs. exact (stays_up three vol N S W Trafos s Hs).
    + rewrite <- (Forall2_length _ _ _ (o_nodes _ _ _ _ _ _ _ _ _ _ _ _ O)), plan_len. exact Y.
    + rewrite map_length. pose proof (fits three vol N S W f _ I All Ws F NE) as Fit. clear -Fit Len. change (fun u => 1 <? length (u_coupling u)) with multi. revert Fit. generalize (numbers (rest N (d_supers d))). intros nos Fit. revert no line Ws Len Fit.
      induction (d_supers d) as [|u l IH]; intros no line [|x r] L Fit; try discriminate; [reflexivity|]. injection L as L. cbn [combine] in Fit. apply Forall_cons_iff in Fit as [Fu Fit]. cbn [combine plan filter fst]. destruct (multi u); [|now apply IH].
      cbn [flat_map]. rewrite !app_length, IH by assumption. f_equal. unfold plan_lines, art_lines. cbn [fst snd]. rewrite map_length, !combine_length, seq_length. destruct Fu as [X1 [X2 _]]. cbn [fst snd] in *. lia.
    + rewrite R. unfold ends_pair. apply Permutation_refl'. f_equal. apply filter_ext_in. intros s Hs. f_equal. apply in_app_or in Hs as [Hs|Hs]; [exact (stays_up three vol N S W Lines s Hs)|exact (stays_up three vol N S W Trafos s Hs)].
Qed.
Print Assumptions C223_kept.

Example C223_witness : update_all grid = grid /\ wf grid /\ exists d, reduce 1 220 None None grid = Ok d /\ numbers (d_net d) = [1; 2; 10] /\ map s_no (n_lines (d_net d)) = [1; 10; 11] /\ d_removed d = [(3, 4); (4, 2); (1, 3); (2, 5)].
Proof.
  split; [apply settled_iff, settled_update|]. split; [apply wf_update, grid_wf|]. eexists. split; [vm_compute; reflexivity|]. split; [reflexivity|]. split; reflexivity.
Qed.

(* ------------------------------------------------------------------ *)
(** ** C224 *)

(** A part of the network, the artificial bus it becomes, in the zone of the first bus above it, and the artificial lines: one per element that leads above, with its data,
    from the bus above to the artificial bus. *)
Definition stand_in (three vol : Q) (N : net) (t : super * bus * list series) : Prop :=
  let '(u, b, ls) := t in
  b_kv b = 0%Q /\ (b_p b == part_p N (u_bus u))%Q /\ (b_q b == part_q N (u_bus u))%Q /\ r_lines (b_nos b) = map s_no ls /\ r_trafos (b_nos b) = [] /\
  (exists c z, hd_error (u_coupling u) = Some c /\ nth_error (n_bus N) c = Some z /\ b_zone b = b_zone z) /\
  Forall2 (fun s l => data l = data s /\ s_on l = true /\ exists c, high_no three vol N c /\ In c (s_ends s) /\ s_ends l = [c; b_no b]) (u_art u) ls.
Lemma stand_in_ok three vol N f U I All Ws : settled N -> wf N -> inv three vol N f U -> (forall p, p < length (n_bus N) -> nth_error (f_bus f) p = Some true) ->
  I = tt -> All = tt -> Forall2 (worth_fact N) U Ws -> Forall (fun u => u_coupling u <> []) U ->
  forall e b, In (snd e) (combine U Ws) -> node_ok e b -> stand_in three vol N (fst (snd e), b, plan_lines e).
Proof.
  intros S W HI HAll _ _ F NE [[no line] [u x]] b Hin [K1 [K2 [K3 [K4 [_ [K6 [K7 K8]]]]]]]. cbn [fst snd] in *. pose proof (pair_fit N U Ws F u x Hin) as [Hu Wf].
  destruct Wf as [W1 [W2 [_ [W4 [W5 [wc [wz [Z1 [Z2 Z3]]]]]]]]]. apply objects_at in W1. unfold stand_in. split; [exact K2|]. split; [rewrite K3, W4, W1; reflexivity|]. split; [rewrite K4, W5, W1; reflexivity|]. split; [exact K6|]. split; [exact K7|]. split; [exists wc, wz; split; [exact Z1|split; [exact Z2|congruence]]|].
  pose proof (coupling_nos three vol N S W f U HI HAll u Hu) as C. rewrite <- (objects_nos N _ _ W2) in C. unfold plan_lines, art_lines. cbn [fst snd]. rewrite K1. cbn [fst].
  assert (Len : length (u_coupling u) = length (w_coupling x)) by (apply objects_nth in W2; apply (Forall2_length _ _ _ W2)). rewrite Len. clear -C.
  match goal with |- Forall2 ?R (u_art u) (map ?g (combine (seq 0 ?n) (combine ?cs _))) => set (h := g); cut (forall A i, Forall2 (leads three vol N u) (map b_no cs) A -> Forall2 R A (map h (combine (seq i (length cs)) (combine cs A)))); [intros X; now apply X|] end.
  clear C. induction (w_coupling x) as [|c l IH]; intros A i C; inversion C as [|? s ? A' H C']; subst; [constructor|].
  cbn [length seq combine map]. constructor; [|now apply IH]. split; [reflexivity|]. split; [reflexivity|]. exists (b_no c). destruct H as [_ [H1 [q [_ P]]]]. split; [exact H1|]. split; [apply (Permutation_in _ P); now left|reflexivity].
Qed.
(** Every part with several connections becomes one artificial bus with one line per connection, with consecutive numbers for buses and for
    lines; when no first number is given they are larger than all numbers in use. *)
Theorem C224_artificial : forall three vol bus0 line0 N d, update_all N = N -> wf N -> reduce three vol bus0 line0 N = Ok d ->
  exists T no line, map (fun t => fst (fst t)) T = filter (fun u => 1 <? length (u_coupling u)) (d_supers d) /\ Forall (stand_in three vol N) T /\
    map bare_bus (skipn (length (filter (fun b => upper three vol N (b_no b)) (n_bus N))) (n_bus (d_net d))) = map (fun t => bare_bus (snd (fst t))) T /\
    map bare_series (skipn (length (filter (all_up three vol N) (n_lines N))) (n_lines (d_net d))) = map bare_series (flat_map snd T) /\
    map (fun t => b_no (snd (fst t))) T = seq no (length T) /\ map s_no (flat_map snd T) = seq line (length (flat_map snd T)) /\
    match bus0 with Some n => T <> [] -> no = n | None => forall a, In a (numbers N) -> a < no end /\
    match line0 with Some n => T <> [] -> line = n | None => forall s, In s (n_lines N) -> s_no s < line end.
Proof.
  intros three vol bus0 line0 N d E W H. apply settled_iff in E as S. destruct (reduce_inv three vol bus0 line0 N d S W H) as [f [_ [I [All D]]]].
  assert (Up : forall b, In b (n_bus N) -> upper three vol N (b_no b) = high three vol b).
  { intros b Hb. apply eq_true_iff_eq. rewrite upper_high. split.
    - intros Hh. destruct (high three vol b) eqn:Eh; [reflexivity|]. exfalso. apply (high_not_low three vol N W _ Hh). exists b. split; [exact Hb|]. split; [reflexivity|now apply high_false].
    - intros Hh. exists b. split; [exact Hb|]. split; [reflexivity|now apply high_spec]. }
  destruct D as [[EU ->]|[Ws [no [line [kept [nodes [es [HU [F [NE [O _]]]]]]]]]]].
  - cbn [d_supers d_net] in *. destruct (none_low three vol N f S W I All) as [B L]. exists [], (1 + list_max (numbers N)), (1 + list_max (map s_no (n_lines N))).
    rewrite (filter_all (fun b => upper three vol N (b_no b))) by (intros b Hb; rewrite Up by exact Hb; now apply B). rewrite (filter_all _ (n_lines N)) by (intros s Hs; exact (L Lines s Hs)). rewrite !skipn_all. cbn [map flat_map filter length seq].
    split; [reflexivity|]. split; [constructor|]. split; [reflexivity|]. split; [reflexivity|]. split; [reflexivity|]. split; [reflexivity|]. split.
    + destruct bus0; [congruence|]. intros a Ha. pose proof (proj1 (list_max_le (numbers N) _) (le_n _)) as M. rewrite Forall_forall in M. specialize (M a Ha). lia.
    + destruct line0; [congruence|]. intros s Hs. pose proof (proj1 (list_max_le (map s_no (n_lines N)) _) (le_n _)) as M. rewrite Forall_forall in M. specialize (M (s_no s) (in_map _ _ _ Hs)). lia.
  - set (PL := plan no line (combine (d_supers d) Ws)) in *. exists (map (fun eb => (fst (snd (fst eb)), snd eb, plan_lines (fst eb))) (combine PL nodes)), no, line.
    pose proof (o_nodes _ _ _ _ _ _ _ _ _ _ _ _ O) as ON. fold PL in ON. pose proof (Forall2_length _ _ _ ON) as Len. pose proof (Forall2_length _ _ _ F) as LenU.
    assert (C1 : map fst (combine PL nodes) = PL) by (now apply map_fst_combine').
    assert (C2 : map snd (combine PL nodes) = nodes). { clear -Len. clearbody PL. revert nodes Len. induction PL as [|e l IH]; intros [|b r] L; try discriminate; [reflexivity|]. injection L as L. cbn. now rewrite IH. }
    assert (Fit : Forall (fit (numbers (rest N (d_supers d)))) (combine (d_supers d) Ws)) by (apply (fits three vol N S W f _ I All Ws F NE)).
    assert (FM : flat_map snd (map (fun eb => (fst (snd (fst eb)), snd eb, plan_lines (fst eb))) (combine PL nodes)) = flat_map plan_lines PL).
    { rewrite flat_map_concat_map, map_map. cbn [snd]. rewrite <- (map_map fst plan_lines), C1. now rewrite flat_map_concat_map. }
    rewrite FM, !map_map, !map_length. cbn [fst snd].
    split; [|split; [|split; [|split; [|split; [|split; [|split]]]]]].
    + rewrite <- (map_map fst (fun e => fst (snd e))), C1. unfold PL. change (fun u => 1 <? length (u_coupling u)) with multi. clear -LenU. revert no line Ws LenU. induction (d_supers d) as [|u l IH]; intros no line [|x r] L; try discriminate; [reflexivity|]. injection L as L.
      cbn [combine plan filter fst]. destruct (multi u); [|now apply IH]. cbn [map snd fst]. now rewrite IH.
    + apply Forall_forall. intros t Ht. apply in_map_iff in Ht as [[e b] [<- Hc]]. cbn [fst snd]. apply (stand_in_ok three vol N f (d_supers d) tt tt Ws S W I All eq_refl eq_refl F NE).
      * apply in_combine_l in Hc. now apply plan_in in Hc.
      * apply (combine_rel _ _ _ ON e b Hc).
    + rewrite <- (map_map snd bare_bus), C2. rewrite <- skipn_map, (o_bus _ _ _ _ _ _ _ _ _ _ _ _ O), map_app. rewrite (filter_ext_in _ (high three vol)) by exact Up.
      assert (LK : length (map bare_bus kept) = length (filter (high three vol) (n_bus N))).
      { rewrite map_length, <- (Forall2_length _ _ _ (o_kept _ _ _ _ _ _ _ _ _ _ _ _ O)), <- (map_length bare_bus (n_bus _)), (rest_bus three vol N S f _ I All). apply map_length. }
      rewrite <- LK, skipn_app, skipn_all, Nat.sub_diag. reflexivity.
    + rewrite <- skipn_map, (o_lines _ _ _ _ _ _ _ _ _ _ _ _ O), map_app. fold PL.
      assert (LK : length (map bare_series (n_lines (rest N (d_supers d)))) = length (filter (all_up three vol N) (n_lines N))).
      { change (n_lines (rest N (d_supers d))) with (els Lines (rest N (d_supers d))). rewrite (rest_els three vol N S W f _ I All Lines), map_length. f_equal. apply filter_ext_in. intros s Hs. exact (stays_up three vol N S W Lines s Hs). }
      rewrite <- LK, skipn_app, skipn_all, Nat.sub_diag. reflexivity.
    + rewrite <- (map_map snd b_no), C2. rewrite combine_length, <- Len, Nat.min_id. unfold PL. rewrite <- (plan_nos no line (combine (d_supers d) Ws)). fold PL. clear -ON. induction ON as [|e b l r [H _] _ IH]; [reflexivity|]. cbn. now rewrite H, IH.
    + unfold PL. now apply (plan_line_nos _ no line _ Fit).
    + pose proof (o_no _ _ _ _ _ _ _ _ _ _ _ _ O) as X. unfold start_no in X. destruct bus0; [intros _|]; exact X.
    + pose proof (o_line _ _ _ _ _ _ _ _ _ _ _ _ O) as X. unfold start_line in X. destruct line0; [intros _|]; exact X.
Qed.
Print Assumptions C224_artificial.
(** The buses above do not list the artificial lines: after the positions are updated they still do not. *)
Theorem C224_listing_refuted : exists N d s b p, update_all N = N /\ wf N /\ reduce 1 220 None None N = Ok d /\ nth_error (n_lines (d_net d)) p = Some s /\ In b (n_bus (d_net d)) /\
  In (b_no b) (s_ends s) /\ ~ In (s_no s) (sref Lines (b_nos b)) /\ ~ In p (sref Lines (b_pos b)).
Proof.
  exists grid. do 3 eexists. exists 1. split; [apply settled_iff, settled_update|]. split; [apply wf_update, grid_wf|]. split; [vm_compute; reflexivity|]. split; [reflexivity|].
  split; [right; left; reflexivity|]. split; [vm_compute; tauto|]. split; vm_compute; intuition discriminate.
Qed.
Print Assumptions C224_listing_refuted.

Example C224_witness : update_all grid = grid /\ wf grid /\ exists d, reduce 1 220 None None grid = Ok d /\ map s_ends (n_lines (d_net d)) = [[1; 2]; [2; 10]; [1; 10]] /\ filter (fun u => 1 <? length (u_coupling u)) (d_supers d) <> [].
Proof.
  split; [apply settled_iff, settled_update|]. split; [apply wf_update, grid_wf|]. eexists. split; [vm_compute; reflexivity|]. split; [reflexivity|]. vm_compute. discriminate.
Qed.

(* ------------------------------------------------------------------ *)
(** ** C225 *)

(** Two buses of the level are joined by chains of lines and transformers, in service or not, after the reduction when they were before,
    provided that a first bus number, when given, is above those in use. *)
Theorem C225_joined : forall three vol bus0 line0 N d a b, update_all N = N -> wf N -> (forall n, bus0 = Some n -> Forall (fun m => m < n) (numbers N)) ->
  reduce three vol bus0 line0 N = Ok d -> high_no three vol N a -> high_no three vol N b ->
  (joined_by_any N a b <-> joined_by_any (d_net d) a b).
Proof.
  intros three vol bus0 line0 N d a b E W Hn H Ha Hb. apply settled_iff in E as S. destruct (reduce_inv three vol bus0 line0 N d S W H) as [f [_ [I [All D]]]].
  destruct D as [[_ ->]|[Ws [no [line [kept [nodes [es [HU [F [NE [O _]]]]]]]]]]]; [reflexivity|]. split.
  - intros J. apply (forward three vol N S W f _ I All Ws F NE _ _ _ _ _ _ _ _ _ O a b); [exact J|left; tauto|left; tauto].
  - intros J. apply (backward three vol N S W f _ I All Ws F _ _ _ _ _ _ _ _ _ O) with a b; [|exact J|left; tauto|left; tauto].
    intros e He [c [Hc [Ec _]]]. apply (in_map (fun e => fst (fst e))) in He. rewrite plan_nos in He. apply in_seq in He. assert (Lt : b_no c < no); [|lia].
    pose proof (o_no _ _ _ _ _ _ _ _ _ _ _ _ O) as X. unfold start_no in X. destruct bus0 as [n|]; [|apply X; now apply in_map]. subst no. specialize (Hn n eq_refl). rewrite Forall_forall in Hn. apply Hn. now apply in_map.
Qed.
Print Assumptions C225_joined.
(** By elements in service it is not so: lines put in for transformers out of service are in service. *)
Theorem C225_status_refuted : exists N d a b, update_all N = N /\ wf N /\ reduce 1 220 None None N = Ok d /\ high_no 1 220 N a /\ high_no 1 220 N b /\
  connected (d_net d) a b /\ ~ connected N a b.
Proof.
  exists off. eexists. exists 1, 2. split; [apply settled_iff, settled_update|]. split; [apply wf_update, off_wf|]. split; [vm_compute; reflexivity|].
  split; [eexists; split; [left; reflexivity|]; split; [reflexivity|]; vm_compute; intuition discriminate|].
  split; [eexists; split; [right; left; reflexivity|]; split; [reflexivity|]; vm_compute; intuition discriminate|]. split.
  - apply rt_trans with 10; apply rt_step; exists Lines; eexists.
    + split; [right; left; reflexivity|]. vm_compute. tauto.
    + split; [right; right; left; reflexivity|]. vm_compute. tauto.
  - assert (X : forall a b, connected off a b -> (a = 1 \/ a = 3) -> (b = 1 \/ b = 3)).
    { intros a b J. apply clos_rt_rt1n in J. induction J as [|x y z L _ IH]; [tauto|]. intros Hx. apply IH. destruct L as [k [s [Hs [On [Ha Hb]]]]].
      destruct k; vm_compute in Hs; repeat (destruct Hs as [<-|Hs]; [vm_compute in On, Ha, Hb; intuition (discriminate || lia)|]); destruct Hs. }
    intros J. apply X in J; lia.
Qed.
Print Assumptions C225_status_refuted.

Example C225_witness : update_all grid = grid /\ wf grid /\ high_no 1 220 grid 1 /\ high_no 1 220 grid 2 /\ (exists d, reduce 1 220 None None grid = Ok d) /\ joined_by_any grid 1 2.
Proof.
  split; [apply settled_iff, settled_update|]. split; [apply wf_update, grid_wf|]. split; [eexists; split; [left; reflexivity|]; split; [reflexivity|]; vm_compute; intuition discriminate|].
  split; [eexists; split; [right; left; reflexivity|]; split; [reflexivity|]; vm_compute; intuition discriminate|]. split; [eexists; vm_compute; reflexivity|].
  apply rt_step. exists Lines. eexists. split; [left; reflexivity|]. vm_compute. tauto.
Qed.

(* ------------------------------------------------------------------ *)
(** ** C226 *)

(** There is a bus at the level; every bus below it has, in its part, a neighbour above; and, if there are such buses, some line is kept. *)
Definition has_level (vol : Q) (N : net) : Prop := exists b, In b (n_bus N) /\ (b_kv b == vol)%Q.
Definition all_fed (three vol : Q) (N : net) : Prop :=
  forall a, low_no three vol N a -> exists a' c, low_connected three vol N a a' /\ high_no three vol N c /\ any_link N a' c.
Definition line_left (three vol : Q) (N : net) : Prop :=
  (exists a, low_no three vol N a) -> exists s, In s (n_lines N) /\ forall a, In a (s_ends s) -> high_no three vol N a.
Lemma fed_coupled three vol N f U : settled N -> wf N -> inv three vol N f U -> (forall p, p < length (n_bus N) -> nth_error (f_bus f) p = Some true) ->
  (all_fed three vol N <-> Forall (fun u => u_coupling u <> []) U).
Proof.
  intros S W I All. split.
  - intros H. apply Forall_forall. intros u Hu. destruct (part_connected three vol N S W f U I u Hu) as [r [Hr Hc]]. destruct (H r (part_low three vol N W f U I u r Hu Hr)) as [a [c [J [Hh L]]]].
    apply Hc in J. pose proof (neighbour three vol N S W f U I All u a c Hu J Hh L) as X. destruct (u_coupling u); [destruct X|discriminate].
  - intros NE a Ha. destruct (part_cover three vol N W f U I All a Ha) as [u [Hu Hin]]. rewrite Forall_forall in NE. specialize (NE u Hu).
    assert (X : exists c, In c (nos_at N (u_coupling u))).
    { pose proof (coupling_lt three vol N f U I u Hu) as Lt. destruct (u_coupling u) as [|c r]; [congruence|]. apply Forall_cons_iff in Lt as [Lt _]. destruct (nth_error (n_bus N) c) as [b|] eqn:E; [|apply nth_error_None in E; lia].
      exists (b_no b). unfold nos_at. cbn [flat_map]. rewrite E. now left. }
    destruct X as [c Hc]. destruct (neighbour_back three vol N S W f U I All u c Hu Hc) as [Hh [a' [Ha' L]]]. exists a', c. split; [|now split]. destruct (part_connected three vol N S W f U I u Hu) as [r [_ H]].
    apply H in Hin, Ha'. apply rt_trans with r; [|exact Ha'].
    assert (Sym : forall x y, low_connected three vol N x y -> low_connected three vol N y x).
    { intros x y J. apply clos_rt_rt1n in J. induction J as [|x z y [L1 [L2 [k [s [L3 [L4 L5]]]]]] _ IH]; [apply rt_refl|]. apply rt_trans with z; [exact IH|]. apply rt_step. split; [exact L2|]. split; [exact L1|]. exists k, s. tauto. }
    now apply Sym.
Qed.
Lemma lines_left three vol N f U : settled N -> wf N -> inv three vol N f U -> (forall p, p < length (n_bus N) -> nth_error (f_bus f) p = Some true) ->
  ((exists s, In s (n_lines N) /\ forall a, In a (s_ends s) -> high_no three vol N a) <-> n_lines (rest N U) <> []).
Proof.
  intros S W I All. pose proof (rest_els three vol N S W f U I All Lines) as E. cbn [els] in E. rewrite (filter_ext_in _ (all_up three vol N)) in E by (intros s Hs; exact (stays_up three vol N S W Lines s Hs)).
  assert (X : n_lines (rest N U) <> [] <-> filter (all_up three vol N) (n_lines N) <> []) by (split; intros H Z; apply H; rewrite Z in E; [destruct (n_lines (rest N U))|destruct (filter _ _)]; congruence || discriminate).
  rewrite X. split.
  - intros [s [Hs Ha]] Z. assert (Y : In s (filter (all_up three vol N) (n_lines N))) by (apply filter_In; split; [exact Hs|]; unfold all_up; apply forallb_forall; intros a H; now apply upper_high, Ha). rewrite Z in Y. destruct Y.
  - destruct (filter (all_up three vol N) (n_lines N)) as [|s r] eqn:Ef; [congruence|]. intros _. assert (Y : In s (filter (all_up three vol N) (n_lines N))) by (rewrite Ef; now left). apply filter_In in Y as [Y Ey]. exists s. split; [exact Y|].
    intros a Ha. unfold all_up in Ey. rewrite forallb_forall in Ey. now apply upper_high, Ey.
Qed.
(** The reduction gives a network exactly then; otherwise it stops, at the assertion when the level is not there, at an index when a part
    has no neighbour above. *)
Theorem C226_when : forall three vol bus0 line0 N, update_all N = N -> wf N ->
  ((exists d, reduce three vol bus0 line0 N = Ok d) <-> has_level vol N /\ all_fed three vol N /\ line_left three vol N) /\
  (~ has_level vol N -> reduce three vol bus0 line0 N = Err AssertionError) /\
  (has_level vol N -> ~ all_fed three vol N -> reduce three vol bus0 line0 N = Err IndexError) /\
  (has_level vol N -> all_fed three vol N -> ~ line_left three vol N -> exists e, reduce three vol bus0 line0 N = Err e /\ (e = IndexError \/ e = TypeError)).
Proof.
  intros three vol bus0 line0 N E W. apply settled_iff in E as S. destruct (supers_ok three vol N S W) as [f [U [EF [I All]]]].
  pose proof (fed_coupled three vol N f U S W I All) as FC. pose proof (lines_left three vol N f U S W I All) as LL.
  assert (A1 : ~ has_level vol N -> reduce three vol bus0 line0 N = Err AssertionError).
  { intros H. unfold reduce. destruct (existsb (fun b => Qeq_bool vol (b_kv b)) (n_bus N)) eqn:X; [|reflexivity]. exfalso. apply H. apply existsb_exists in X as [b [Hb Eb]]. exists b. split; [exact Hb|]. apply Qeq_bool_iff in Eb. now symmetry. }
  assert (LU : (exists a, low_no three vol N a) <-> U <> []).
  { split; [intros [a Ha] ->; destruct (part_cover three vol N W f [] I All a Ha) as [u [[] _]]|]. intros H. destruct U as [|u r]; [congruence|]. destruct (part_connected three vol N S W f _ I u (or_introl eq_refl)) as [x [Hx _]]. exists x. now apply (part_low three vol N W f _ I u x (or_introl eq_refl)). }
  assert (A2 : has_level vol N -> all_fed three vol N -> line_left three vol N -> exists d, reduce three vol bus0 line0 N = Ok d).
  { intros HL HF HX. destruct (reduce_result three vol bus0 line0 N f U S W EF HL I All) as [R1 [R2 _]]. destruct U as [|u r] eqn:EU; [eexists; now apply R1|]. rewrite <- EU in *. apply R2; [now apply FC|]. apply LL. apply HX. apply LU. rewrite EU. discriminate. }
  assert (A3 : has_level vol N -> ~ all_fed three vol N -> reduce three vol bus0 line0 N = Err IndexError).
  { intros HL HF. destruct (reduce_result three vol bus0 line0 N f U S W EF HL I All) as [_ [_ [R3 _]]]. apply R3. destruct (Exists_dec (fun u => u_coupling u = []) U) as [X|X]; [intros u; destruct (u_coupling u); [now left|right; discriminate]|exact X|].
    exfalso. apply HF, FC. apply Forall_forall. intros u Hu Z. apply X, Exists_exists. now exists u. }
  assert (A4 : has_level vol N -> all_fed three vol N -> ~ line_left three vol N -> exists e, reduce three vol bus0 line0 N = Err e /\ (e = IndexError \/ e = TypeError)).
  { intros HL HF HX. destruct (reduce_result three vol bus0 line0 N f U S W EF HL I All) as [_ [_ [_ R4]]]. apply R4.
    - intros EU. apply HX. intros Ha. apply LU in Ha. congruence.
    - now apply FC.
    - destruct (n_lines (rest N U)) eqn:El; [reflexivity|]. exfalso. apply HX. intros _. apply LL. discriminate. }
  split; [|tauto]. split; [|intros [H1 [H2 H3]]; now apply A2]. intros [d Hd].
  assert (HL : has_level vol N).
  { unfold reduce in Hd. destruct (existsb (fun b => Qeq_bool vol (b_kv b)) (n_bus N)) eqn:X; [|discriminate]. apply existsb_exists in X as [b [Hb Eb]]. exists b. split; [exact Hb|]. apply Qeq_bool_iff in Eb. now symmetry. }
  assert (HF : all_fed three vol N).
  { apply FC. destruct (reduce_result three vol bus0 line0 N f U S W EF HL I All) as [_ [_ [R3 _]]]. apply Forall_forall. intros u Hu Z. assert (Y : Exists (fun u => u_coupling u = []) U) by (apply Exists_exists; now exists u). rewrite (R3 Y) in Hd. discriminate. }
  split; [exact HL|]. split; [exact HF|]. intros Ha. apply LL. intros Z. destruct (reduce_result three vol bus0 line0 N f U S W EF HL I All) as [_ [_ [_ R4]]]. destruct (R4 (proj1 LU Ha) (proj1 FC HF) Z) as [e [Ee _]]. congruence.
Qed.
Print Assumptions C226_when.
(** A bus below without any connection, or a level without a line, is enough to stop the reduction. *)
Theorem C226_always_refuted : (exists N, update_all N = N /\ wf N /\ has_level 220 N /\ reduce 1 220 None None N = Err IndexError) /\
  (exists N, update_all N = N /\ wf N /\ has_level 220 N /\ all_fed 1 220 N /\ reduce 1 220 None None N = Err TypeError /\ reduce 1 220 None (Some 5) N = Err IndexError).
Proof.
  split.
  - exists lone. split; [apply settled_iff, settled_update|]. split; [apply wf_update, lone_wf|]. split; [eexists; split; [left; reflexivity|reflexivity]|vm_compute; reflexivity].
  - exists bare. split; [apply settled_iff, settled_update|]. split; [apply wf_update, bare_wf|]. split; [eexists; split; [left; reflexivity|reflexivity]|]. split; [|split; vm_compute; reflexivity].
    assert (L34 : low_no 1 220 bare 3 /\ low_no 1 220 bare 4).
    { split; eexists; (split; [|split]); [right; left; reflexivity|reflexivity|left; vm_compute; reflexivity|right; right; left; reflexivity|reflexivity|left; vm_compute; reflexivity]. }
    intros a Ha. exists 3, 1. split; [|split].
    + destruct Ha as [b [Hb [<- Lb]]]. vm_compute in Hb. destruct Hb as [<-|[<-|[<-|[]]]]; cbn.
      * exfalso. destruct Lb as [Lb|Lb]; vm_compute in Lb; discriminate.
      * apply rt_refl.
      * apply rt_step. split; [apply L34|]. split; [apply L34|]. exists Lines. eexists. split; [left; reflexivity|]. vm_compute. tauto.
    + eexists. split; [left; reflexivity|]. split; [reflexivity|]. vm_compute. intuition discriminate.
    + exists Trafos. eexists. split; [left; reflexivity|]. vm_compute. tauto.
Qed.
Print Assumptions C226_always_refuted.

Example C226_witness : update_all grid = grid /\ wf grid /\ has_level 220 grid /\ ~ has_level 132 grid /\ (exists d, reduce 1 220 None None grid = Ok d).
Proof.
  split; [apply settled_iff, settled_update|]. split; [apply wf_update, grid_wf|]. split; [eexists; split; [left; reflexivity|reflexivity]|].
  split; [|eexists; vm_compute; reflexivity]. intros [b [Hb Eb]]. vm_compute in Hb. repeat (destruct Hb as [<-|Hb]; [vm_compute in Eb; discriminate|]). destruct Hb.
Qed.

(* ------------------------------------------------------------------ *)
(** ** C227 *)

Lemma rest_gen N U k i g : nth_error (gens k N) i = Some g -> exists h, nth_error (gens k (rest N U)) i = Some h /\ g_name h = g_name g /\ g_bus h = g_bus g /\
  (~ In (g_bus g) (numbers (rest N U)) -> g_pos h = g_pos g).
Proof.
  intros H. assert (E : gens k (rest N U) = gens k (delete_buses (flat_map u_bus U) N)) by (destruct k; reflexivity). rewrite E, gens_delete_buses. unfold place_gens. rewrite nth_error_map, H. cbn [option_map].
  eexists. split; [reflexivity|]. cbn [g_name g_bus g_pos set_g_pos]. split; [reflexivity|]. split; [reflexivity|]. intros Hn. unfold first_at.
  match goal with |- match ?x with _ => _ end = _ => destruct x as [[a p]|] eqn:Ef end; [|reflexivity]. exfalso. apply Hn. apply find_some in Ef as [Ef Ea]. cbn [fst] in Ea. apply Nat.eqb_eq in Ea. subst a.
  unfold bus_keys in Ef. apply in_map_iff in Ef as [b [Eb Hb]]. injection Eb as <- <-.
  assert (X : forall k pos K, numbers (delete_series k pos K) = numbers K) by (intros k0 pos K; rewrite !numbers_bare; f_equal; apply bare_refer).
  unfold rest. rewrite !X. unfold numbers. cbn [n_bus delete_buses]. now apply in_map.
Qed.
Lemma m_numbers N U Ws bus0 line0 M P no line kept nodes es n u : settled N -> outcome N U Ws bus0 line0 M P no line kept nodes es -> In (n, u) (targets no (combine U Ws)) ->
  Forall (fit (numbers (rest N U))) (combine U Ws) -> In n (numbers M).
Proof.
  intros S O H Fit. rewrite numbers_bare, (o_bus _ _ _ _ _ _ _ _ _ _ _ _ O), map_map. cbn [bare_bus b_no]. rewrite map_app. apply in_or_app. destruct (targets_in no line _ n u H) as [x [Hx [[_ [e [He [_ <-]]]]|[_ [c [r [Ec ->]]]]]]].
  - right. destruct (Forall2_in_l _ _ _ e (o_nodes _ _ _ _ _ _ _ _ _ _ _ _ O) He) as [b [Hb [Eb _]]]. rewrite <- Eb. now apply in_map.
  - left. rewrite Forall_forall in Fit. destruct (Fit _ Hx) as [_ [_ [_ [Fc _]]]]. cbn [snd] in Fc. rewrite Ec in Fc. apply Forall_cons_iff in Fc as [Fc _].
    assert (X : map b_no kept = numbers (rest N U)).
    { pose proof (o_kept _ _ _ _ _ _ _ _ _ _ _ _ O) as K. unfold numbers. clear -K. induction K as [|b b' l l' [H1 _] _ IH]; [reflexivity|]. cbn. now rewrite H1, IH. }
    change (In (b_no c) (map b_no kept)). now rewrite X.
Qed.
Lemma bare_nth {A} (r : A -> A) l l' i x : map r l = map r l' -> nth_error l i = Some x -> exists y, nth_error l' i = Some y /\ r y = r x.
Proof.
  intros E H. apply (map_nth_error r) in H. rewrite E, nth_error_map in H. destruct (nth_error l' i) as [y|]; [|discriminate]. exists y. split; [reflexivity|]. now injection H.
Qed.
(** The generators of a bus below the level go to the bus its part is added to, or becomes; there are as many as before, in the same order. *)
Theorem C227_moved : forall three vol bus0 line0 N d k, update_all N = N -> wf N -> reduce three vol bus0 line0 N = Ok d ->
  length (gens k (d_net d)) = length (gens k N) /\
  forall i g, nth_error (gens k N) i = Some g -> exists g', nth_error (gens k (d_net d)) i = Some g' /\ g_name g' = g_name g /\
    (low_no three vol N (g_bus g) -> stands_for three vol N (d_net d) (g_bus g') (g_bus g)).
Proof.
  intros three vol bus0 line0 N d k E W H. apply settled_iff in E as S. destruct (reduce_inv three vol bus0 line0 N d S W H) as [f [_ [I [All D]]]].
  destruct D as [[EU ->]|[Ws [no [line [kept [nodes [es [HU [F [NE [O _]]]]]]]]]]].
  - split; [reflexivity|]. intros i g Hg. exists g. split; [exact Hg|]. split; [reflexivity|]. intros L. exfalso. cbn in EU, I. destruct (part_cover three vol N W f [] I All _ L) as [u [[] _]].
  - pose proof (o_gens _ _ _ _ _ _ _ _ _ _ _ _ O k) as EG. rewrite moved_all_map in EG. split.
    + apply (f_equal (@length gen)) in EG. rewrite !map_length in EG. rewrite EG, <- (map_length bare_gen), (rest_gens N (d_supers d) k). apply map_length.
    + intros i g Hg. destruct (rest_gen N (d_supers d) k i g Hg) as [h [Hh [Hn [Hb Hp]]]]. pose proof (map_nth_error (moved_one (targets no (combine (d_supers d) Ws))) _ _ Hh) as Hm.
      destruct (bare_nth bare_gen _ _ _ _ (eq_sym EG) Hm) as [g' [Hg' Eb]]. exists g'. split; [exact Hg'|]. pose proof (f_equal g_name Eb) as E1. pose proof (f_equal g_bus Eb) as E2. cbn in E1, E2.
      split; [rewrite E1, (proj2 (moved_one_same _ h)); exact Hn|]. intros L. rewrite E2. destruct (part_cover three vol N W f _ I All _ L) as [u [Hu Ha]].
      assert (Pos : exists b, nth_error (n_bus N) (g_pos h) = Some b /\ b_no b = g_bus g).
      { rewrite Hp by (rewrite (in_rest_numbers three vol N S f _ I All); intros X; now apply (high_not_low three vol N W _ X)). apply (g_pos_ok N S k); [now apply nth_error_In in Hg|]. destruct L as [b [Hin [<- _]]]. now apply in_map. }
      destruct Pos as [b [Hpb Ebb]].
      assert (Only : forall v, In v (d_supers d) -> In (g_pos h) (u_bus v) -> v = u).
      { intros v Hv Hin. apply (part_unique three vol N W f _ I v u (g_bus g) Hv Hu); [|exact Ha]. apply in_nos_at. exists (g_pos h), b. tauto. }
      assert (Hin : In (g_pos h) (u_bus u)).
      { apply in_nos_at in Ha as [p [b' [Hp' [Hb' Eb']]]]. assert (p = g_pos h); [|now subst]. apply (NoDup_nth_error (numbers N)); [apply (wf_bus N W)| |].
        - unfold numbers. rewrite map_length. apply nth_error_Some. congruence.
        - unfold numbers. rewrite (map_nth_error b_no _ _ Hb'), (map_nth_error b_no _ _ Hpb). congruence. }
      destruct (targets_nonempty three vol N S W f _ I All Ws F NE no u Hu) as [n Ht].
      assert (TS : forall n' v, In (n', v) (targets no (combine (d_supers d) Ws)) -> In v (d_supers d)).
      { intros n' v X. destruct (targets_in no line _ n' v X) as [x [Hx _]]. apply in_combine_l in Hx. exact Hx. }
      rewrite (moved_one_bus _ h n u Ht Hin).
      * split; [apply (m_numbers N _ Ws _ _ _ _ no line kept nodes es n u S O Ht); apply (fits three vol N S W f _ I All Ws F NE)|].
        intros a' c J Hc L'. apply (home_link three vol N S W f _ I All Ws F NE _ _ _ _ _ _ _ _ _ O n u a' c Ht); [|exact Hc|exact L'].
        clear -J Ha Hu S W I. apply clos_rt_rt1n in J. induction J as [|x y z Lk _ IH]; [exact Ha|]. apply IH. now apply (part_same three vol N S W f _ I u x y Hu Ha).
      * intros n' v Hv Hin'. assert (v = u) by (apply Only; [now apply (TS n')|exact Hin']). subst v. now apply (targets_unique three vol N S W f _ I All Ws F NE no n' n u).
Qed.
Print Assumptions C227_moved.
Lemma filter_short {A} (q : A -> bool) l n : (forall i x, nth_error l i = Some x -> q x = true -> i < n) -> length (filter q l) <= n.
Proof.
  revert n. induction l as [|x l IH]; intros n H; [cbn; lia|]. cbn [filter]. assert (X : forall m, n = S m -> length (filter q l) <= m) by (intros m ->; apply IH; intros i y Hy Qy; specialize (H (S i) y Hy Qy); lia).
  assert (Y : n = 0 -> filter q l = []).
  { intros ->. destruct (filter q l) as [|y r] eqn:E; [reflexivity|]. assert (Z : In y (filter q l)) by (rewrite E; now left). apply filter_In in Z as [Z Qy]. apply In_nth_error in Z as [i Hi]. specialize (H (S i) y Hi Qy). lia. }
  destruct (q x) eqn:Qx; destruct n as [|m]; cbn [length].
  - specialize (H 0 x eq_refl Qx). lia.
  - specialize (X m eq_refl). lia.
  - rewrite Y by reflexivity. cbn. lia.
  - specialize (X m eq_refl). lia.
Qed.
(** The generators of buses of the level stay where they are if no bus below is listed before one of the level. *)
Theorem C227_kept_partial : forall three vol bus0 line0 N d k, update_all N = N -> wf N ->
  (forall p q b c, nth_error (n_bus N) p = Some b -> nth_error (n_bus N) q = Some c -> is_low three vol b -> ~ is_low three vol c -> q < p) ->
  reduce three vol bus0 line0 N = Ok d ->
  forall i g, nth_error (gens k N) i = Some g -> high_no three vol N (g_bus g) -> exists g', nth_error (gens k (d_net d)) i = Some g' /\ g_bus g' = g_bus g.
Proof.
  intros three vol bus0 line0 N d k E W Ord H i g Hg Hh. apply settled_iff in E as S. destruct (reduce_inv three vol bus0 line0 N d S W H) as [f [_ [I [All D]]]].
  destruct D as [[EU ->]|[Ws [no [line [kept [nodes [es [HU [F [NE [O _]]]]]]]]]]]; [now exists g|].
  pose proof (o_gens _ _ _ _ _ _ _ _ _ _ _ _ O k) as EG. rewrite moved_all_map in EG. destruct (rest_gen N (d_supers d) k i g Hg) as [h [Hh' [_ [Hb _]]]]. pose proof (map_nth_error (moved_one (targets no (combine (d_supers d) Ws))) _ _ Hh') as Hm.
  destruct (bare_nth bare_gen _ _ _ _ (eq_sym EG) Hm) as [g' [Hg' Eb]]. exists g'. split; [exact Hg'|]. apply (f_equal g_bus) in Eb. cbn in Eb. rewrite Eb. rewrite moved_one_none; [exact Hb|].
  intros n u Ht Hin. destruct (targets_in no line _ n u Ht) as [x [Hx _]]. apply in_combine_l in Hx.
  assert (Lt : g_pos h < length (filter (high three vol) (n_bus N))).
  { destruct (g_pos_ok (rest N (d_supers d)) (rest_settled N S (d_supers d)) k h) as [b [Hpb _]]; [now apply nth_error_In in Hh'|rewrite Hb; now apply (in_rest_numbers three vol N S f _ I All)|].
    rewrite <- (map_length bare_bus (filter _ _)), <- (rest_bus three vol N S f _ I All), map_length. apply nth_error_Some. congruence. }
  assert (Le : length (filter (high three vol) (n_bus N)) <= g_pos h); [|lia]. apply filter_short. intros q c Hc Qc.
  assert (Lo : low three vol N (g_pos h)) by (apply (i_low _ _ _ _ _ I); apply in_flat_map; now exists u). destruct Lo as [b [Hpb Lb]].
  apply (Ord (g_pos h) q b c Hpb Hc); [now apply high_false|now apply high_spec].
Qed.
Print Assumptions C227_kept_partial.
(** Otherwise a generator of a bus of the level may be moved to another bus; and the list of generators of a bus that takes in a part is
    replaced by that of the part. *)
Theorem C227_kept_refuted : exists N d g g' b, update_all N = N /\ wf N /\ reduce 1 220 None None N = Ok d /\
  nth_error (gens Conv N) 0 = Some g /\ nth_error (gens Conv (d_net d)) 0 = Some g' /\ high_no 1 220 N (g_bus g) /\ g_bus g' <> g_bus g /\
  In b (n_bus (d_net d)) /\ (exists g2, In g2 (gens Conv (d_net d)) /\ g_bus g2 = b_no b) /\ gref Conv (b_nos b) = [].
Proof.
  exists mixed. do 4 eexists. split; [apply settled_iff, settled_update|]. split; [apply wf_update, mixed_wf|]. split; [vm_compute; reflexivity|]. split; [reflexivity|]. split; [reflexivity|].
  split; [eexists; split; [right; left; reflexivity|]; split; [reflexivity|]; vm_compute; intuition discriminate|]. split; [vm_compute; discriminate|]. split; [right; left; reflexivity|]. split; [|reflexivity].
  eexists. split; [right; right; left; reflexivity|reflexivity].
Qed.
Print Assumptions C227_kept_refuted.

Example C227_witness : update_all grid = grid /\ wf grid /\ (exists d, reduce 1 220 None None grid = Ok d /\ map g_bus (gens Conv (d_net d)) = [1; 10] /\ map g_bus (gens Res (d_net d)) = [2]) /\
  forall p q b c, nth_error (n_bus grid) p = Some b -> nth_error (n_bus grid) q = Some c -> is_low 1 220 b -> ~ is_low 1 220 c -> q < p.
Proof.
  split; [apply settled_iff, settled_update|]. split; [apply wf_update, grid_wf|]. split; [eexists; split; [vm_compute; reflexivity|]; split; reflexivity|].
  intros p q b c Hp Hq Lb Hc. assert (X : 2 <= p). { destruct p as [|[|p]]; [| |lia]; vm_compute in Hp; injection Hp as <-; exfalso; destruct Lb as [Lb|Lb]; vm_compute in Lb; discriminate. }
  assert (Y : q <= 1). { destruct q as [|[|[|[|[|q]]]]]; try lia; try (vm_compute in Hq; injection Hq as <-; exfalso; apply Hc; left; vm_compute; reflexivity). destruct q; discriminate. }
  lia.
Qed.

(* ------------------------------------------------------------------ *)
(** ** C228 *)

(** One entry per line of the reduced network: its place in the list, its ends, and the element it comes from: a line that is as it was, or
    an element whose data the line has and whose position in its own list is given. *)
Definition entry_ok (N : net) (il : nat * series) (e : entry) : Prop :=
  y_new e = fst il /\ s_ends (snd il) = [y_from' e; y_to' e] /\
  exists k s, In s (els k N) /\ s_ends s = [y_from e; y_to e] /\ data (snd il) = data s /\
    ((k = Lines /\ bare_series (snd il) = bare_series s) \/ nth_error (els k N) (y_old e) = Some s).
Lemma Forall2_by_nth {A B} (R : A -> B -> Prop) l m : length l = length m -> (forall i a b, nth_error l i = Some a -> nth_error m i = Some b -> R a b) -> Forall2 R l m.
Proof.
  revert m. induction l as [|a l IH]; intros [|b m] E H; try discriminate; [constructor|]. injection E as E. constructor; [now apply (H 0)|]. apply IH; [exact E|]. intros i. apply (H (S i)).
Qed.
Lemma nth_numbered {A} (l : list A) i x : nth_error (combine (seq 0 (length l)) l) i = Some x -> fst x = i /\ nth_error l i = Some (snd x).
Proof.
  intros H. assert (Li : i < length l) by (apply nth_error_Some; intros E; apply nth_error_None in E; assert (X : nth_error (combine (seq 0 (length l)) l) i = None) by (apply nth_error_None; rewrite combine_length, seq_length; lia); congruence).
  destruct (nth_error l i) as [y|] eqn:E; [|apply nth_error_None in E; lia]. rewrite (nth_combine _ _ i i y (nth_seq i _ Li) E) in H. injection H as <-. now split.
Qed.
Lemma preserved_nth L I P : preserved L I = Ok P -> length P = length L + length I /\
  (forall i l, nth_error L i = Some l -> exists a b, nth_error P i = Some (mkEntry (s_at l) a b i a b) /\ nth_error (s_ends l) 0 = Some a /\ nth_error (s_ends l) 1 = Some b) /\
  forall i e, nth_error I i = Some e -> nth_error P (length L + i) = Some (mkEntry (y_old e) (y_from e) (y_to e) (length L + i) (y_from' e) (y_to' e)).
Proof.
  unfold preserved. intros H. apply bind_inv in H as [Q [HQ H]]. injection H as <-. apply mapM_Ok in HQ. pose proof (Forall2_length _ _ _ HQ) as LQ. rewrite combine_length, seq_length, Nat.min_id in LQ.
  split; [rewrite app_length, map_length, combine_length, seq_length; lia|]. split.
  - intros i l Hl. assert (Li : i < length L) by (apply nth_error_Some; congruence). pose proof (nth_combine _ _ i i l (nth_seq i _ Li) Hl) as Hc. destruct (nth_error Q i) as [e|] eqn:Ee; [|apply nth_error_None in Ee; lia].
    pose proof (Forall2_nth _ _ _ i _ _ HQ Hc Ee) as R. cbn [fst snd] in R. apply bind_inv in R as [a [Ha R]]. apply bind_inv in R as [b [Hb R]]. injection R as <-. exists a, b.
    rewrite nth_error_app1 by lia. split; [exact Ee|]. unfold at_ in Ha, Hb. destruct (nth_error (s_ends l) 0); [|discriminate]. destruct (nth_error (s_ends l) 1); [|discriminate]. split; congruence.
  - intros i e He. assert (Li : i < length I) by (apply nth_error_Some; congruence). rewrite nth_error_app2 by lia. replace (length L + i - length Q) with i by lia.
    rewrite (map_nth_error _ _ _ (nth_combine _ _ i i e (nth_seq i _ Li) He)). reflexivity.
Qed.
Theorem C228_entries : forall three vol bus0 line0 N d, update_all N = N -> wf N -> reduce three vol bus0 line0 N = Ok d -> (exists a, low_no three vol N a) ->
  Forall2 (entry_ok N) (combine (seq 0 (length (n_lines (d_net d)))) (n_lines (d_net d))) (d_kept d).
Proof.
  intros three vol bus0 line0 N d E W H [a0 La0]. apply settled_iff in E as S. destruct (reduce_inv three vol bus0 line0 N d S W H) as [f [_ [I [All D]]]].
  destruct D as [[EU ->]|[Ws [no [line [kept [nodes [es [HU [F [NE [O _]]]]]]]]]]]; [exfalso; cbn in EU, I; destruct (part_cover three vol N W f [] I All _ La0) as [u [[] _]]|].
  destruct (preserved_nth _ _ _ (o_entries _ _ _ _ _ _ _ _ _ _ _ _ O)) as [LP [P1 P2]]. pose proof (o_lines _ _ _ _ _ _ _ _ _ _ _ _ O) as EL. pose proof (o_es _ _ _ _ _ _ _ _ _ _ _ _ O) as ES.
  set (R := n_lines (rest N (d_supers d))) in *. set (T := flat_map plan_lines (plan no line (combine (d_supers d) Ws))) in *.
  assert (LM : length (n_lines (d_net d)) = length R + length T) by (apply (f_equal (@length series)) in EL; now rewrite !map_length, app_length in EL).
  pose proof (Forall2_length _ _ _ ES) as LE. apply Forall2_by_nth; [rewrite combine_length, seq_length; lia|]. intros i [j l] e Hil He. apply nth_numbered in Hil as [Hj Hl]. cbn [fst snd] in Hj, Hl. subst j.
  destruct (bare_nth bare_series _ _ i l EL Hl) as [t [Ht Eb]]. assert (Ends : s_ends l = s_ends t) by (apply (f_equal s_ends) in Eb; cbn in Eb; congruence). assert (Dat : data l = data t) by exact (eq_sym (f_equal data Eb)).
  unfold entry_ok. cbn [fst snd]. destruct (Nat.lt_ge_cases i (length R)) as [Li|Li].
  - rewrite nth_error_app1 in Ht by exact Li. destruct (P1 i t Ht) as [a [b [Hp [Ha Hb]]]]. rewrite Hp in He. injection He as <-. cbn [y_new y_from y_to y_from' y_to' y_old].
    pose proof (rest_els three vol N S W f _ I All Lines) as RE. destruct (bare_nth bare_series _ _ i t RE Ht) as [s [Hs Es]]. apply nth_error_In, filter_In in Hs as [Hs _].
    assert (Es' : s_ends t = s_ends s) by (apply (f_equal s_ends) in Es; cbn in Es; congruence). destruct (wf_ends N W Lines s Hs) as [x [y [Exy _]]]. rewrite Es', Exy in Ha, Hb. cbn in Ha, Hb. injection Ha as ->. injection Hb as ->.
    split; [reflexivity|]. split; [congruence|]. exists Lines, s. split; [exact Hs|]. split; [exact Exy|]. split; [|left; split; [reflexivity|congruence]]. rewrite Dat. exact (eq_sym (f_equal data Es)).
  - rewrite nth_error_app2 in Ht by exact Li. set (m := i - length R) in *. assert (Ei : i = length R + m) by lia. destruct (nth_error es m) as [e0|] eqn:Ee0; [|apply nth_error_None in Ee0; assert (m < length T) by (apply nth_error_Some; congruence); lia].
    pose proof (P2 m e0 Ee0) as Hp. rewrite <- Ei, He in Hp. injection Hp as ->. cbn [y_new y_from y_to y_from' y_to' y_old].
    destruct (Forall2_nth _ _ _ m _ _ ES Ht Ee0) as [X1 [s [Hs [X2 [X3 [X4 [X5 [X6 [X7 X8]]]]]]]]]. split; [reflexivity|]. split; [congruence|].
    apply in_flat_map in Hs as [[u x] [Hux Hs]]. cbn [fst] in Hs. apply in_combine_l in Hux. destruct (Forall2_in_r _ _ _ s (coupling_nos three vol N S W f _ I All u Hux) Hs) as [c [_ [[k Hk] _]]].
    exists k, s. split; [exact Hk|]. split; [congruence|]. split; [rewrite Dat; unfold data; congruence|]. right. apply In_nth_error in Hk as [q Hq]. pose proof (proj1 (st_ser _ S k q s Hq)) as Q. congruence.
Qed.
Print Assumptions C228_entries.
(** The position given for a line that is kept is not always the one it had, and positions in the list of lines and in that of transformers
    are not told apart. *)
Theorem C228_positions_refuted : (exists N d e s, update_all N = N /\ wf N /\ reduce 1 220 None None N = Ok d /\ nth_error (d_kept d) 0 = Some e /\
    nth_error (n_lines N) (y_old e) = Some s /\ s_ends s <> [y_from e; y_to e]) /\
  exists N d e e', update_all N = N /\ wf N /\ reduce 1 220 None None N = Ok d /\ nth_error (d_kept d) 0 = Some e /\ nth_error (d_kept d) 2 = Some e' /\
    y_old e = y_old e' /\ (y_from e, y_to e) <> (y_from e', y_to e').
Proof.
  split.
  - exists mixed. do 3 eexists. split; [apply settled_iff, settled_update|]. split; [apply wf_update, mixed_wf|]. split; [vm_compute; reflexivity|]. split; [reflexivity|]. split; [reflexivity|]. vm_compute. discriminate.
  - exists grid. do 3 eexists. split; [apply settled_iff, settled_update|]. split; [apply wf_update, grid_wf|]. split; [vm_compute; reflexivity|]. split; [reflexivity|]. split; [reflexivity|]. split; [reflexivity|]. vm_compute. discriminate.
Qed.
Print Assumptions C228_positions_refuted.

Example C228_witness : update_all grid = grid /\ wf grid /\ (exists a, low_no 1 220 grid a) /\ exists d, reduce 1 220 None None grid = Ok d /\ length (d_kept d) = 3.
Proof.
  split; [apply settled_iff, settled_update|]. split; [apply wf_update, grid_wf|]. split; [exists 3; eexists; split; [right; right; left; reflexivity|]; split; [reflexivity|]; left; vm_compute; reflexivity|].
  eexists. split; [vm_compute; reflexivity|reflexivity].
Qed.
