(** The reduced network against the network given. *)
From Coq Require Import List ZArith QArith Bool Lia Arith Permutation Relation_Operators Operators_Properties Setoid Lqa.
From Verif Require Import Base GraphData Network Cases InputOutputProofs HydroTables ConverterOpen Parameters Analyser Reduction AnalyserSpec ReductionSpec GraphDataProofs ParametersProofs AnalyserProofs AnalyserIslands ReductionTrack ReductionProofs ReductionPlace ReductionParts.
From Verif Require ClusteringProofs.
Import ListNotations.
Open Scope list_scope.
Open Scope nat_scope.
Local Arguments multi _ : simpl never.

Lemma power_above_gt : forall fuel top a, 1 <= a -> top < a + fuel -> top < power_above fuel top a.
Proof.
  induction fuel as [|fuel IH]; intros top a H1 H2; cbn [power_above]; [lia|]. destruct (Nat.leb_spec a top); [|assumption]. apply IH; lia.
Qed.
Lemma first_free_gt l a : In a l -> a < first_free l.
Proof.
  intros H. unfold first_free. assert (a <= list_max l).
  { pose proof (proj1 (list_max_le l (list_max l)) (le_n _)) as F. rewrite Forall_forall in F. now apply F. }
  apply Nat.le_lt_trans with (list_max l); [assumption|]. apply power_above_gt; lia.
Qed.

Lemma plan_nos no line UX : map (fun e => fst (fst e)) (plan no line UX) = seq no (length (plan no line UX)).
Proof.
  revert no line. induction UX as [|ux UX IH]; intros no line; [reflexivity|]. cbn. destruct (multi (fst ux)); [|apply IH]. cbn. now rewrite IH.
Qed.
Lemma art_lines_nos no line u x : length (w_coupling x) = length (u_coupling u) -> length (u_art u) = length (u_coupling u) -> map s_no (art_lines no line u x) = seq line (length (u_coupling u)).
Proof.
  intros L1 L2. unfold art_lines. rewrite map_map. cbn.
  rewrite <- (map_map fst (fun i => line + i)). assert (X : map fst (combine (seq 0 (length (u_coupling u))) (combine (w_coupling x) (u_art u))) = seq 0 (length (u_coupling u))).
  { assert (Len : length (combine (w_coupling x) (u_art u)) = length (u_coupling u)) by (rewrite combine_length; lia). generalize 0. generalize dependent (combine (w_coupling x) (u_art u)).
    generalize (length (u_coupling u)). clear. induction n as [|n IH]; intros [|y l] E m; try discriminate; [reflexivity|]. injection E as E. cbn. now rewrite IH. }
  rewrite X. assert (G : forall n m, map (fun i => line + i) (seq m n) = seq (line + m) n).
  { induction n as [|n IH]; intros m; [reflexivity|]. cbn [seq map]. rewrite IH. now rewrite Nat.add_succ_r. }
  rewrite G. now rewrite Nat.add_0_r.
Qed.
Lemma plan_line_nos nos no line UX : Forall (fit nos) UX -> map s_no (flat_map plan_lines (plan no line UX)) = seq line (length (flat_map plan_lines (plan no line UX))).
Proof.
  intros F. revert no line. induction F as [|[u x] UX [L1 [L2 _]] _ IH]; intros no line; [reflexivity|]. cbn [plan fst]. destruct (multi u); [|apply IH]. cbn [flat_map]. unfold plan_lines at 1 3. cbn [fst snd] in *.
  rewrite map_app, app_length, seq_app, IH. rewrite (art_lines_nos no line u x L1 L2).
  assert (Len : length (art_lines no line u x) = length (u_coupling u)) by (rewrite <- (map_length s_no), (art_lines_nos no line u x L1 L2); apply seq_length). now rewrite Len.
Qed.
Lemma plan_in no line UX e : In e (plan no line UX) -> In (snd e) UX /\ multi (fst (snd e)) = true.
Proof.
  revert no line. induction UX as [|ux UX IH]; intros no line; cbn; [tauto|]. destruct (multi (fst ux)) eqn:E.
  - intros [<-|H]; [cbn; tauto|]. destruct (IH _ _ H). tauto.
  - intros H. destruct (IH _ _ H). tauto.
Qed.
Lemma plan_has no line UX ux : In ux UX -> multi (fst ux) = true -> exists e, In e (plan no line UX) /\ snd e = ux.
Proof.
  revert no line. induction UX as [|vy UX IH]; intros no line; cbn; [tauto|]. intros [->|H] M.
  - rewrite M. eexists. split; [left; reflexivity|reflexivity].
  - destruct (multi (fst vy)).
    + destruct (IH (S no) (line + length (u_coupling (fst vy))) H M) as [e [He E]]. exists e. split; [now right|exact E].
    + apply IH; assumption.
Qed.
Lemma plan_one no line UX e e' : In e (plan no line UX) -> In e' (plan no line UX) -> fst (fst e) = fst (fst e') -> e = e'.
Proof.
  intros H H' E. assert (ND : NoDup (map (fun e => fst (fst e)) (plan no line UX))) by (rewrite plan_nos; apply seq_NoDup).
  revert H H' ND E. generalize (plan no line UX). clear. induction l as [|y l IH]; intros H H' ND E; [destruct H|]. cbn in ND. apply NoDup_cons_iff in ND as [Hy ND].
  destruct H as [<-|H], H' as [<-|H']; [reflexivity| | |now apply IH].
  - exfalso. apply Hy. rewrite E. now apply (in_map (fun e => fst (fst e))).
  - exfalso. apply Hy. rewrite <- E. now apply (in_map (fun e => fst (fst e))).
Qed.
Lemma plan_len no line UX : length (plan no line UX) = length (filter (fun ux => multi (fst ux)) UX).
Proof. revert no line. induction UX as [|ux UX IH]; intros no line; [reflexivity|]. cbn. destruct (multi (fst ux)); cbn; now rewrite IH. Qed.
Lemma plan_worths no line UX (g : worth -> Q) : (qsum (map (fun e => g (snd (snd e))) (plan no line UX)) + stay_total g UX == qsum (map (fun ux => g (snd ux)) UX))%Q.
Proof.
  revert no line. induction UX as [|ux UX IH]; intros no line; [unfold stay_total; cbn [plan map]; change (qsum []) with 0%Q; lra|]. unfold stay_total in *. cbn [plan map]. destruct (multi (fst ux)); cbn [map snd]; rewrite !qsum_cons.
  - rewrite <- (IH (S no) (line + length (u_coupling (fst ux)))). lra.
  - rewrite <- (IH no line). lra.
Qed.

Lemma combine_rel {A B} (R : A -> B -> Prop) l m : Forall2 R l m -> forall a b, In (a, b) (combine l m) -> R a b.
Proof. induction 1 as [|x y l m H _ IH]; intros a b; cbn; [tauto|]. intros [E|Hin]; [congruence|now apply IH]. Qed.

Lemma worths_sum (R : super -> worth -> Prop) (g : worth -> Q) (h : bus -> Q) : (forall u x, R u x -> g x = qsum (map h (w_buses x))) ->
  forall U Ws, Forall2 R U Ws -> (qsum (map (fun ux => g (snd ux)) (combine U Ws)) == qsum (map h (flat_map w_buses Ws)))%Q.
Proof.
  intros G U Ws. induction 1 as [|u x l r H _ IH]; [reflexivity|]. cbn [combine map snd flat_map]. rewrite map_app, ClusteringProofs.qsum_app, qsum_cons, IH, (G u x H). reflexivity.
Qed.

Lemma not_nil_in {A} (l : list A) : l <> [] -> exists x, In x l.
Proof. destruct l as [|x l]; [congruence|]. intros _. exists x. now left. Qed.

Section Main.
Variables (three vol : Q) (N : net).
Hypothesis S : settled N.
Hypothesis W : wf N.
Variables (f : flags) (U : list super).
Hypothesis I : inv three vol N f U.
Hypothesis All : forall p, p < length (n_bus N) -> nth_error (f_bus f) p = Some true.
Variable Ws : list worth.
Hypothesis F : Forall2 (worth_fact N) U Ws.
Hypothesis NE : Forall (fun u => u_coupling u <> []) U.

Lemma objects_nos l r : objects (n_bus N) l = Ok r -> map b_no r = nos_at N l.
Proof.
  intros H. apply objects_nth in H. induction H as [|p b l r E _ IH]; [reflexivity|]. unfold nos_at in *. cbn. rewrite E. cbn. now rewrite IH.
Qed.
Lemma in_rest_numbers a : In a (numbers (rest N U)) <-> high_no three vol N a.
Proof.
  rewrite (rest_numbers three vol N S f U I All). rewrite in_map_iff. split.
  - intros [b [<- H]]. apply filter_In in H as [H E]. exists b. split; [exact H|]. split; [reflexivity|now apply high_spec].
  - intros [b [H [E L]]]. exists b. split; [exact E|]. apply filter_In. split; [exact H|now apply high_spec].
Qed.
Lemma rest_nodup : NoDup (numbers (rest N U)).
Proof.
  rewrite (rest_numbers three vol N S f U I All). pose proof (wf_bus N W) as ND. unfold numbers in ND. clear -ND. induction (n_bus N) as [|b l IH]; [constructor|]. cbn in ND |- *. apply NoDup_cons_iff in ND as [Hb ND].
  destruct (high three vol b); [|now apply IH]. cbn. constructor; [|now apply IH]. intros X. apply Hb. apply in_map_iff in X as [c [E X]]. apply filter_In in X as [X _]. rewrite <- E. now apply in_map.
Qed.
Lemma pair_fit u x : In (u, x) (combine U Ws) -> In u U /\ worth_fact N u x.
Proof. intros H. split; [now apply in_combine_l in H|]. now apply (combine_rel _ _ _ F). Qed.
Lemma fits : Forall (fit (numbers (rest N U))) (combine U Ws).
Proof.
  apply Forall_forall. intros [u x] H. apply pair_fit in H as [Hu [H1 [H2 [H3 _]]]]. pose proof (coupling_nos three vol N S W f U I All u Hu) as C. pose proof (objects_nos _ _ H2) as En.
  pose proof (Forall2_length _ _ _ C) as Len. rewrite <- En, map_length in Len. apply objects_nth in H2 as H2'. apply Forall2_length in H2'. unfold fit. cbn [fst snd]. sp.
  - lia.
  - lia.
  - rewrite Forall_forall in NE. now apply NE.
  - apply Forall_forall. intros c Hc. apply in_rest_numbers. apply (in_map b_no) in Hc. rewrite En in Hc. destruct (Forall2_in_l _ _ _ _ C Hc) as [s [_ [_ [H _]]]]. exact H.
  - apply Forall_forall. intros s Hs. destruct (Forall2_in_r _ _ _ _ C Hs) as [a [_ [[k Hk] _]]]. destruct (wf_ends N W k s Hk) as [p [q [E _]]]. now exists p, q.
Qed.
(** The demand of the supernodes is that of the buses cut out. *)
Lemma worths_total (g : worth -> Q) (h : bus -> Q) : (forall u x, worth_fact N u x -> g x = qsum (map h (w_buses x))) ->
  (qsum (map (fun ux => g (snd ux)) (combine U Ws)) == qsum (map h (filter (fun b => negb (high three vol b)) (n_bus N))))%Q.
Proof.
  intros G. rewrite <- (ClusteringProofs.qsum_perm _ _ (Permutation_map h (cut_buses three vol N S f U I All Ws F))). now apply (worths_sum _ g h G).
Qed.
Lemma split_total (h : bus -> Q) (q : bus -> bool) l : (qsum (map h (filter q l)) + qsum (map h (filter (fun b => negb (q b)) l)) == qsum (map h l))%Q.
Proof.
  induction l as [|b l IH]; [reflexivity|]. cbn [filter]. destruct (q b); cbn [negb map]; rewrite !qsum_cons, <- IH; lra.
Qed.

Variables (bus0 line0 : option nat) (M : net) (P : list entry).
Definition start_no (no : nat) : Prop := match bus0 with Some n => no = n | None => forall a, In a (numbers N) -> a < no end.
Definition start_line (line : nat) : Prop := match line0 with Some n => line = n | None => forall s, In s (n_lines N) -> s_no s < line end.
Record outcome (no line : nat) (kept nodes : list bus) (es : list entry) : Prop := mkOutcome {
  o_no : start_no no;
  o_line : start_line line;
  o_bus : map bare_bus (n_bus M) = map bare_bus (kept ++ nodes);
  o_kept : Forall2 (same_but (combine U Ws)) (n_bus (rest N U)) kept;
  o_nodes : Forall2 node_ok (plan no line (combine U Ws)) nodes;
  o_lines : map bare_series (n_lines M) = map bare_series (n_lines (rest N U) ++ flat_map plan_lines (plan no line (combine U Ws)));
  o_trafos : map bare_series (n_trafos M) = map bare_series (n_trafos (rest N U));
  o_gens : forall k, map bare_gen (gens k M) = map bare_gen (moved_all (targets no (combine U Ws)) (gens k (rest N U)));
  o_p : (qsum (map b_p kept) == qsum (map b_p (n_bus (rest N U))) + stay_total w_p (combine U Ws))%Q;
  o_q : (qsum (map b_q kept) == qsum (map b_q (n_bus (rest N U))) + stay_total w_q (combine U Ws))%Q;
  o_some : n_lines (rest N U) <> [];
  o_settled : settled M;
  o_es : Forall2 (line_entry (flat_map (fun ux => u_art (fst ux)) (combine U Ws))) (flat_map plan_lines (plan no line (combine U Ws))) es;
  o_entries : preserved (n_lines (rest N U)) es = Ok P }.

Definition choose_no : res nat := match bus0, n_bus (rest N U) with
           | Some n, _ => Ok n
           | None, [] => Err TypeError
           | None, B => Ok (first_free (map b_no B ++ flat_map (fun x => map b_no (w_buses x)) Ws))
           end.
Definition choose_line : res nat := match line0, n_lines (rest N U) with
             | Some n, _ => Ok n
             | None, [] => Err TypeError
             | None, L => Ok (first_free (map s_no L ++ flat_map (fun x => map s_no (w_lines x)) Ws))
             end.
Lemma choose_no_ok : U <> [] -> exists no, choose_no = Ok no /\ start_no no.
Proof.
  intros HU. unfold choose_no, start_no. destruct bus0 as [n|]; [now exists n|].
  assert (X : exists a, In a (numbers (rest N U))).
  { destruct (not_nil_in U HU) as [u Hu]. pose proof (coupling_nos three vol N S W f U I All u Hu) as C. rewrite Forall_forall in NE. pose proof (NE u Hu) as Nu.
    pose proof (coupling_lt three vol N f U I u Hu) as Lt. destruct (u_coupling u) as [|c r] eqn:Ec; [congruence|]. apply Forall_cons_iff in Lt as [Lt _].
    destruct (nth_error (n_bus N) c) as [b|] eqn:Eb; [|apply nth_error_None in Eb; lia]. unfold nos_at in C. cbn [flat_map] in C. rewrite Eb in C. cbn [app] in C. inversion C as [|? ? ? ? Hb _]; subst. exists (b_no b). apply in_rest_numbers. apply Hb. }
  destruct X as [a Ha]. unfold numbers in Ha. destruct (n_bus (rest N U)) as [|b B] eqn:EB; [destruct Ha|]. rewrite <- EB in *. eexists. split; [reflexivity|]. intros x Hx. apply first_free_gt.
  apply in_or_app. destruct (high_or_low three vol N x Hx) as [H|H]; [left; now apply in_rest_numbers|right].
  destruct H as [c [Hc [E L]]]. assert (Y : In c (flat_map w_buses Ws)).
  { apply (Permutation_in _ (Permutation_sym (cut_buses three vol N S f U I All Ws F))). apply filter_In. split; [exact Hc|]. apply high_false in L. now rewrite L. }
  apply in_flat_map in Y as [y [Hy1 Hy2]]. apply in_flat_map. exists y. split; [exact Hy1|]. rewrite <- E. now apply in_map.
Qed.
Lemma choose_line_ok : n_lines (rest N U) <> [] -> exists line, choose_line = Ok line /\ start_line line.
Proof.
  intros HL. unfold choose_line, start_line. destruct line0 as [n|]; [now exists n|]. destruct (n_lines (rest N U)) as [|b B] eqn:EB; [congruence|]. rewrite <- EB in *. eexists. split; [reflexivity|].
  intros s Hs. apply first_free_gt. apply in_or_app. destruct (stays three vol N s) eqn:Es.
  - left. change (n_lines (rest N U)) with (els Lines (rest N U)). rewrite s_no_bare, (rest_els three vol N S W f U I All Lines), <- s_no_bare. apply in_map. apply filter_In. now split.
  - right. pose proof (el_stays three vol N S W f U I All Lines s Hs) as X. rewrite Es in X. cbn in X. apply existsb_eqb in X. apply in_flat_map in X as [u [Hu Hx]].
    destruct (Forall2_in_l _ _ _ u F Hu) as [x [Hw [_ [_ [H3 _]]]]]. apply in_flat_map. exists x. split; [exact Hw|]. apply in_map. apply objects_nth in H3.
    apply In_nth_error in Hs as [i Hi]. destruct (Forall2_in_l _ _ _ _ H3 Hx) as [y [Hy E]]. cbn [u_els] in E. pose proof (proj1 (st_ser N S Lines i s Hi)) as At. rewrite At in E. change (els Lines N) with (n_lines N) in Hi. assert (y = s) by congruence. now subst.
Qed.
Lemma preserved_total L es : Forall (fun s => exists a b, s_ends s = [a; b]) L -> exists P, preserved L es = Ok P.
Proof.
  intros H. unfold preserved. assert (X : exists Q, mapM (fun il => do a <- at_ (s_ends (snd il)) 0; do b <- at_ (s_ends (snd il)) 1; Ok (mkEntry (s_at (snd il)) a b (fst il) a b)) (combine (seq 0 (length L)) L) = Ok Q).
  { set (g := fun il : nat * series => do a <- at_ (s_ends (snd il)) 0; do b <- at_ (s_ends (snd il)) 1; Ok (mkEntry (s_at (snd il)) a b (fst il) a b)).
    assert (Eg : forall il a b, s_ends (snd il) = [a; b] -> g il = Ok (mkEntry (s_at (snd il)) a b (fst il) a b)) by (intros il a b E; unfold g; rewrite E; reflexivity).
    clearbody g. generalize 0. induction H as [|s L [a [b E]] _ IH]; intros n; [exists []; reflexivity|]. destruct (IH (Datatypes.S n)) as [Q EQ]. eexists. apply mapM_Ok. cbn [length seq combine]. constructor; [exact (Eg (n, s) a b E)|]. apply mapM_Ok. exact EQ. }
  destruct X as [Q ->]. rewrite bind_ok. eexists. reflexivity.
Qed.
Lemma rest_ends k : Forall (fun s => exists a b, s_ends s = [a; b]) (els k (rest N U)).
Proof.
  apply Forall_forall. intros s Hs. destruct (in_bare bare_series _ _ s (eq_sym (rest_els three vol N S W f U I All k)) Hs) as [t [Ht E]]. apply filter_In in Ht as [Ht _].
  destruct (wf_ends N W k t Ht) as [a [b [Et _]]]. exists a, b. apply (f_equal s_ends) in E. cbn in E. congruence.
Qed.

Lemma artificial_eq : add_artificial bus0 line0 (rest N U) U Ws =
  (do no <- choose_no; do line <- choose_line;
   do w <- foldM place (combine U Ws) (mkWork (n_bus (rest N U)) (n_conv (rest N U)) (n_res (rest N U)) (n_hydro (rest N U)) [] [] no line []);
   match n_lines (rest N U) with
   | [] => Err IndexError
   | L => do P <- preserved L (k_inter w); Ok (update_all (mkNet (k_bus w ++ k_nodes w) (L ++ k_new w) (n_trafos (rest N U)) (k_conv w) (k_res w) (k_hydro w)), P)
   end).
Proof. reflexivity. Qed.
Lemma place_rest no line : exists w' nodes es, foldM place (combine U Ws) (mkWork (n_bus (rest N U)) (n_conv (rest N U)) (n_res (rest N U)) (n_hydro (rest N U)) [] [] no line []) = Ok w' /\
  Forall2 (same_but (combine U Ws)) (n_bus (rest N U)) (k_bus w') /\ k_nodes w' = nodes /\ Forall2 node_ok (plan no line (combine U Ws)) nodes /\
  k_new w' = flat_map plan_lines (plan no line (combine U Ws)) /\ k_inter w' = es /\
  Forall2 (line_entry (flat_map (fun ux => u_art (fst ux)) (combine U Ws))) (flat_map plan_lines (plan no line (combine U Ws))) es /\
  (forall k, k_gens k w' = moved_all (targets no (combine U Ws)) (gens k (rest N U))) /\
  (qsum (map b_p (k_bus w')) == qsum (map b_p (n_bus (rest N U))) + stay_total w_p (combine U Ws))%Q /\
  (qsum (map b_q (k_bus w')) == qsum (map b_q (n_bus (rest N U))) + stay_total w_q (combine U Ws))%Q.
Proof.
  destruct (place_all (numbers (rest N U)) rest_nodup (combine U Ws) (mkWork (n_bus (rest N U)) (n_conv (rest N U)) (n_res (rest N U)) (n_hydro (rest N U)) [] [] no line []) fits) as
    [w' [nodes [es [E [_ [H1 [H2 [H3 [H4 [H5 [H6 [H7 [H8 [H9 _]]]]]]]]]]]]]].
  { split; [reflexivity|]. apply settled_buses, rest_settled, S. }
  cbn [k_bus k_nodes k_new k_inter k_node k_line app] in *. exists w', nodes, es. split; [exact E|]. split; [exact H1|]. split; [exact H2|]. split; [exact H3|]. split; [exact H4|]. split; [exact H5|]. split; [exact H6|]. split; [|split; assumption]. intros k. rewrite (H7 k). destruct k; reflexivity.
Qed.
Lemma artificial_inv : U <> [] -> add_artificial bus0 line0 (rest N U) U Ws = Ok (M, P) -> exists no line kept nodes es, outcome no line kept nodes es.
Proof.
  intros HU H. rewrite artificial_eq in H. destruct (choose_no_ok HU) as [no [E1 S1]]. rewrite E1, bind_ok in H. apply bind_inv in H as [line [E2 H]].
  destruct (place_rest no line) as [w [nodes [es [E3 [H1 [H2 [H3 [H4 [H5 [H6 [H7 [H8 H9]]]]]]]]]]]]. rewrite E3, bind_ok in H.
  assert (NL : n_lines (rest N U) <> []) by (intros X; rewrite X in H; discriminate).
  destruct (choose_line_ok NL) as [line' [E2' S2]]. assert (line' = line) by congruence. subst line'.
  destruct (n_lines (rest N U)) as [|l0 L0] eqn:EL; [congruence|]. rewrite <- EL in *. apply bind_inv in H as [P' [EP H]].
  assert (HM : M = update_all (mkNet (k_bus w ++ k_nodes w) (n_lines (rest N U) ++ k_new w) (n_trafos (rest N U)) (k_conv w) (k_res w) (k_hydro w))) by (injection H as H _; symmetry; exact H).
  assert (HP : P = P') by congruence. clear H.
  exists no, line, (k_bus w), nodes, es. constructor; try assumption; rewrite ?HM.
  - rewrite bare_update_bus. cbn [n_bus]. now rewrite H2.
  - change (n_lines (update_all ?X)) with (els Lines (update_all X)). rewrite bare_update_els. cbn [els n_lines]. now rewrite H4.
  - change (n_trafos (update_all ?X)) with (els Trafos (update_all X)). rewrite bare_update_els. reflexivity.
  - intros k. rewrite bare_update_gens. specialize (H7 k). destruct k; cbn [gens n_conv n_res n_hydro k_gens] in *; now rewrite H7.
  - apply settled_update.
  - now rewrite <- H5, HP.
Qed.
Lemma artificial_total : U <> [] -> n_lines (rest N U) <> [] -> exists r, add_artificial bus0 line0 (rest N U) U Ws = Ok r.
Proof.
  intros HU NL. rewrite artificial_eq. destruct (choose_no_ok HU) as [no [E1 S1]]. rewrite E1, bind_ok. destruct (choose_line_ok NL) as [line [E2 S2]]. rewrite E2, bind_ok.
  destruct (place_rest no line) as [w [nodes [es [E3 _]]]]. rewrite E3, bind_ok. destruct (n_lines (rest N U)) as [|l0 L0] eqn:EL; [congruence|].
  destruct (preserved_total (n_lines (rest N U)) (k_inter w) (rest_ends Lines)) as [P' EP]. rewrite EL in EP. cbv zeta. rewrite EP, bind_ok. eexists. reflexivity.
Qed.
Lemma artificial_none : U <> [] -> n_lines (rest N U) = [] -> exists e, add_artificial bus0 line0 (rest N U) U Ws = Err e /\ (e = IndexError \/ e = TypeError).
Proof.
  intros HU NL. rewrite artificial_eq. destruct (choose_no_ok HU) as [no [E1 S1]]. rewrite E1, bind_ok. unfold choose_line. rewrite NL. destruct line0 as [line|].
  - rewrite bind_ok. destruct (place_rest no line) as [w [nodes [es [E3 _]]]]. rewrite E3, bind_ok. exists IndexError. tauto.
  - exists TypeError. split; [reflexivity|tauto].
Qed.
End Main.

(** What a result of the reduction comes from. *)
Theorem reduce_inv three vol bus0 line0 N d : settled N -> wf N -> reduce three vol bus0 line0 N = Ok d ->
  exists f, find_supers three vol N = Ok (f, d_supers d) /\ inv three vol N f (d_supers d) /\ (forall p, p < length (n_bus N) -> nth_error (f_bus f) p = Some true) /\
  ((d_supers d = [] /\ d = mkReduced N [] [] []) \/
   exists Ws no line kept nodes es, d_supers d <> [] /\ Forall2 (worth_fact N) (d_supers d) Ws /\ Forall (fun u => u_coupling u <> []) (d_supers d) /\
     outcome N (d_supers d) Ws bus0 line0 (d_net d) (d_kept d) no line kept nodes es /\
     Permutation (d_removed d) (flat_map (fun s => match s_ends s with [a; b] => [(a, b)] | _ => [] end) (filter (fun s => negb (stays three vol N s)) (n_lines N ++ n_trafos N)))).
Proof.
  intros S W H. unfold reduce in H. destruct (negb (existsb (fun b => Qeq_bool vol (b_kv b)) (n_bus N))); [discriminate|].
  destruct (supers_ok three vol N S W) as [f [U [E [I All]]]]. rewrite E, bind_ok in H. cbn [snd] in H. exists f. destruct U as [|u0 U0] eqn:EU.
  - injection H as <-. cbn. sp; try assumption. left. tauto.
  - rewrite <- EU in *. assert (HU : U <> []) by (rewrite EU; discriminate). clear EU. apply bind_inv in H as [[[N1 Ws] rem] [EC H]]. apply bind_inv in H as [[M P] [EA H]]. injection H as <-. cbn [d_supers d_net d_kept d_removed fst snd].
    destruct (cut_inv three vol N S W f U I All N1 Ws rem EC) as [-> [HF [HN HP]]]. sp; try assumption. right.
    destruct (artificial_inv three vol N S W f U I All Ws HF HN bus0 line0 M P HU EA) as [no [line [kept [nodes [es O]]]]]. exists Ws, no, line, kept, nodes, es. sp; assumption.
Qed.
(** When there is a result. *)
Theorem reduce_result three vol bus0 line0 N f U : settled N -> wf N -> find_supers three vol N = Ok (f, U) -> (exists b, In b (n_bus N) /\ b_kv b == vol)%Q ->
  inv three vol N f U -> (forall p, p < length (n_bus N) -> nth_error (f_bus f) p = Some true) ->
  (U = [] -> reduce three vol bus0 line0 N = Ok (mkReduced N [] [] [])) /\
  (Forall (fun u => u_coupling u <> []) U -> n_lines (rest N U) <> [] -> exists d, reduce three vol bus0 line0 N = Ok d) /\
  (Exists (fun u => u_coupling u = []) U -> reduce three vol bus0 line0 N = Err IndexError) /\
  (U <> [] -> Forall (fun u => u_coupling u <> []) U -> n_lines (rest N U) = [] -> exists e, reduce three vol bus0 line0 N = Err e /\ (e = IndexError \/ e = TypeError)).
Proof.
  intros S W E [b [Hb Eb]] I All. unfold reduce. assert (X : existsb (fun b => Qeq_bool vol (b_kv b)) (n_bus N) = true).
  { apply existsb_exists. exists b. split; [exact Hb|]. apply Qeq_bool_iff. now symmetry. }
  rewrite X. cbn [negb]. rewrite E, bind_ok. cbn [snd]. split; [intros ->; reflexivity|]. split; [|split].
  - intros NE NL. destruct U as [|u0 U0] eqn:EU; [eexists; reflexivity|]. rewrite <- EU in *. assert (HU : U <> []) by (rewrite EU; discriminate). clear EU.
    destruct (cut_ok three vol N S W f U I All NE) as [Ws [rem [EC HF]]]. rewrite EC, bind_ok. destruct (artificial_total three vol N S W f U I All Ws HF NE bus0 line0 HU NL) as [r Er]. rewrite Er, bind_ok. eexists. reflexivity.
  - intros EX. destruct U as [|u0 U0] eqn:EU; [inversion EX|]. rewrite <- EU in *. clear EU. unfold cut.
    assert (Y : mapM (worth_of N) U = Err IndexError).
    { assert (T : forall u, In u U -> u_coupling u <> [] -> exists x, worth_of N u = Ok x) by (intros u Hu; now apply (worth_total three vol N f U I All)).
      assert (A : forall u, In u U -> u_coupling u = [] -> worth_of N u = Err IndexError) by (intros u Hu; now apply (worth_alone three vol N f U I All)).
      clear -EX T A. induction U as [|u l IH]; [inversion EX|]. cbn [mapM]. destruct (u_coupling u) eqn:Ec.
      - rewrite (A u (or_introl eq_refl) Ec). reflexivity.
      - destruct (T u (or_introl eq_refl)) as [x Ex]; [congruence|]. rewrite Ex, bind_ok. inversion EX as [? ? H|? ? H]; subst; [congruence|].
        rewrite IH; [reflexivity|exact H| |]; intros v Hv; [apply T|apply A]; now right. }
    rewrite Y. reflexivity.
  - intros HU NE NL. destruct U as [|u0 U0] eqn:EU; [congruence|]. rewrite <- EU in *. clear EU. destruct (cut_ok three vol N S W f U I All NE) as [Ws [rem [EC HF]]]. rewrite EC, bind_ok.
    destruct (artificial_none three vol N S W f U I All Ws HF NE bus0 line0 HU NL) as [e [Ee He]]. rewrite Ee. exists e. split; [reflexivity|exact He].
Qed.
