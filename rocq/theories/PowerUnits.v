(** Generators and pumps: limits, ramps, commitment and costs. *)
From Coq Require Import List Bool Arith ZArith QArith Qabs Qround Lia Lqa.
From Verif Require Import Base ReaderProofs GraphData GraphDataProofs Cases CasesProofs Network InputOutput InputOutputProofs ConverterOpen HydroSpec HydroTables HydroNet ScreeningProofs Linear LinearProofs Devices Power PowerSpec DevicesProofs FleetProofs PowerTables PowerBalance PowerLimits.
Import ListNotations.
Open Scope nat_scope.
Open Scope list_scope.
Local Ltac sp := repeat match goal with |- _ /\ _ => split end.

Lemma pick_each {A} (l : list A) i a : pick l i = Ok a <-> one_or_each l i = Some a.
Proof. unfold pick, one_or_each. destruct l as [|x [|y l]]; try apply at_nth. split; congruence. Qed.
Lemma pick_time_each l i o : pick_time l i = Ok o -> o = time_setting l i.
Proof. unfold pick_time, time_setting, one_or_each. destruct l as [|x [|y l]]. - intros [= <-]. now destruct i. - intros [= <-]. now destruct x. - intros E. apply at_nth in E. rewrite E. now destruct o. Qed.
Lemma positive_iff q : positive q = true <-> (0 < q)%Q.
Proof. unfold positive. rewrite negb_true_iff. split; [intros H; apply Qnot_le_lt; intros C; apply Qle_bool_iff in C; congruence|]. intros H. destruct (Qle_bool q 0) eqn:E; [|reflexivity]. apply Qle_bool_iff in E. exfalso. lra. Qed.
Lemma cycle_nth time : 0 < time -> forall k x i, x < time -> i < k -> nth_error (cycle time k x) i = Some ((x + i) mod time).
Proof.
  intros Lt. induction k as [|k IH]; intros x i Lx Li; [lia|]. cbn [cycle]. destruct i as [|i]; cbn [nth_error]; [rewrite Nat.add_0_r, Nat.mod_small by exact Lx; reflexivity|].
  destruct (Nat.eqb_spec (S x) time) as [E|E]; rewrite IH by lia; f_equal; [|f_equal; lia]. rewrite Nat.add_0_l. replace (x + S i) with (i + 1 * time) by lia. now rewrite Nat.mod_add by lia.
Qed.
Lemma cycle_length time : forall k x, List.length (cycle time k x) = k.
Proof. induction k as [|k IH]; intros x; cbn; auto. Qed.
Lemma nth_past {A} (l : list A) : forall x i, nth_error (skipn x l) i = nth_error l (x + i).
Proof. induction l as [|a l IH]; intros [|x] i; cbn [skipn Nat.add nth_error]; auto. now destruct i. Qed.
Lemma window_later time k x i a : 1 < time -> nth_error (window time k (S x)) i = Some a -> a = (S x + i) mod time /\ i < k.
Proof.
  intros Lt N. unfold window in N. assert (Li : i < k). { assert (i < List.length (firstn k (skipn x (cycle time (2 * time) 1)))) by (apply nth_error_Some; congruence). rewrite firstn_length in H. lia. }
  rewrite nth_error_firstn_lt in N by exact Li. rewrite nth_past in N. assert (B : x + i < 2 * time). { assert (x + i < List.length (cycle time (2 * time) 1)) by (apply nth_error_Some; congruence). now rewrite cycle_length in H. }
  rewrite cycle_nth in N by lia. injection N as <-. split; [f_equal; lia|exact Li].
Qed.
(** At most [k] numbers of at most 1 that add up to [k] are all 1. *)
Lemma full_sum (l : list Q) : forall k, Forall (fun q => 0 <= q <= 1)%Q l -> List.length l <= k -> (inject_Z (Z.of_nat k) <= qsum l)%Q -> List.length l = k /\ Forall (fun q => q == 1)%Q l.
Proof.
  assert (U : forall l, Forall (fun q => 0 <= q <= 1)%Q l -> (qsum l <= inject_Z (Z.of_nat (List.length l)))%Q).
  { clear. induction l as [|x l IH]; intros F; [unfold Qle; cbn; lia|]. inversion F; subst. cbn [List.length]. rewrite Nat2Z.inj_succ. unfold Z.succ. rewrite inject_Z_plus. change (qsum (x :: l)) with (x + qsum l)%Q. specialize (IH H2). change (inject_Z 1) with 1%Q. lra. }
  induction l as [|x l IH]; intros k F L S.
  - destruct k as [|k]; [split; [reflexivity|constructor]|]. exfalso. unfold Qle in S. cbn in S. lia.
  - inversion F as [|? ? Fx Fl]; subst. destruct k as [|k]; [cbn in L; lia|]. change (qsum (x :: l)) with (x + qsum l)%Q in S. rewrite Nat2Z.inj_succ in S. unfold Z.succ in S. rewrite inject_Z_plus in S. change (inject_Z 1) with 1%Q in S. cbn [List.length] in L. destruct (IH k Fl ltac:(lia)) as (Ll & F1); [lra|].
    split; [cbn; lia|]. constructor; auto. pose proof (U l Fl). rewrite Ll in H. lra.
Qed.
Lemma lines_nth base : forall pts l p q, nth_error pts l = Some p -> nth_error pts (S l) = Some q -> nth_error (lines base pts) l = Some (line base p q).
Proof. induction pts as [|x pts IH]; intros l p q Np Nq; [destruct l; discriminate|]. destruct pts as [|y pts]; [destruct l; cbn in Nq; [discriminate|destruct l; discriminate]|]. cbn [lines]. destruct l as [|l]; cbn [nth_error] in *; [congruence|]. apply IH; auto. Qed.

Section Units.
Variable cf : list Q -> nat -> res (list Q).
Variables (W : power) (M : model) (s : var -> Q).
Hypothesis I : initialise cf W = Ok M.
Hypothesis A : answer W M s.

Definition kind_of (g : nat) : kind := if g <? n_conv W then Conv else if g <? n_conv W + n_hyd W then Hyd else Ren.
Lemma nth_of_map {X Y} (f : X -> Y) l i x d : nth_error l i = Some x -> nth i (map f l) d = f x.
Proof. intros N. apply nth_error_nth. now rewrite nth_error_map, N. Qed.
Lemma unit_facts g : g < n_gen W -> exists gs ge u, all_gens (w_conv W) (w_column W) (w_machines W) (w_hyd W) (w_plants W) (w_farms W) = Ok gs /\ nth_error gs g = Some ge /\ unit_at M g = Ok u /\ unit_of (numbers W) (w_base W) (w_pieces W) (firstn g gs) ge u
  /\ ge_max ge = top W g /\ ge_min ge = low W g /\ ge_kind ge = kind_of g /\ List.length (firstn g gs) = g.
Proof.
  intros Lg. destruct (initialise_inv _ _ _ I) as (gs & EG & _ & _ & _ & _ & _ & _ & _ & _ & _ & _ & _ & EF & _). apply build_fleet_ok in EF as (_ & LU & U & _). pose proof (all_gens_ok _ _ _ _ _ _ _ EG) as (L & _ & TM & TL & TK & _). change (List.length gs = n_gen W) in L.
  destruct (nth_error gs g) as [ge|] eqn:Ng; [|apply nth_error_None in Ng; lia]. destruct (nth_error (fl_units (m_fleet M)) g) as [u|] eqn:Nu; [|apply nth_error_None in Nu; lia]. exists gs, ge, u.
  sp; auto; [now apply at_nth| | | |rewrite firstn_length; lia].
  - unfold top, gen_tops. rewrite <- TM. symmetry. now apply nth_of_map.
  - unfold low, gen_lows. rewrite <- TL. symmetry. now apply nth_of_map.
  - assert (N : nth_error (map ge_kind gs) g = Some (ge_kind ge)) by now rewrite nth_error_map, Ng. rewrite TK in N. unfold kind_of, n_conv, n_hyd. destruct (Nat.ltb_spec g (List.length (w_machines W))) as [B|B].
    + rewrite nth_error_app1 in N by now rewrite map_length. rewrite nth_error_map in N. destruct (nth_error (w_machines W) g); [|discriminate]. cbn in N. congruence.
    + rewrite nth_error_app2 in N by now rewrite map_length. rewrite map_length in N. destruct (Nat.ltb_spec g (List.length (w_machines W) + List.length (w_plants W))) as [B'|B'].
      * rewrite nth_error_app1 in N by (rewrite map_length; lia). rewrite nth_error_map in N. destruct (nth_error (w_plants W) _); [|discriminate]. cbn in N. congruence.
      * rewrite nth_error_app2 in N by (rewrite map_length; lia). rewrite nth_error_map in N. destruct (nth_error (w_farms W) _); [|discriminate]. cbn in N. congruence.
Qed.
Lemma output_nonneg h t g : h < w_noh W -> t < w_time W -> g < n_gen W -> (0 <= output W s h t g)%Q.
Proof. intros Lh Lt Lg. apply (proj2 (answer_rules _ _ _ A) (NGen (h * n_gen W + g) t)). cbn [declared]. apply andb_true_intro. split; apply Nat.ltb_lt; [nia|exact Lt]. Qed.

(** ** Limits without commitment *)

Lemma derate_none u g t : w_cool W = None -> derate_of M u g t = Ok 1%Q.
Proof. intros C. destruct (initialise_inv _ _ _ I) as (gs & _ & _ & _ & _ & _ & _ & _ & _ & _ & _ & _ & D & _). rewrite C in D. injection D as D. unfold derate_of. rewrite <- D. now destruct (un_kind u). Qed.
Lemma kind_ren g : g < n_conv W + n_hyd W -> kind_of g <> Ren.
Proof. intros L. unfold kind_of. destruct (g <? n_conv W); [discriminate|]. apply Nat.ltb_lt in L. rewrite L. discriminate. Qed.
Theorem top_limit t g h k : w_uc W = false -> t < w_time W -> h < w_noh W -> g < n_conv W + n_hyd W -> (forall u, unit_at M g = Ok u -> derate_of M u g t = Ok k) -> (output W s h t g <= top W g / w_base W * k)%Q.
Proof.
  intros UC Lt Lh Lg DK. assert (Lg' : g < n_gen W) by (unfold n_gen; lia). destruct (unit_facts g Lg') as (gs & ge & u & _ & _ & Eu & (K & _ & MX & MN & _) & TM & TL & TK & _). specialize (DK u Eu).
  pose proof (proj1 (answer_rules _ _ _ A)) as (_ & _ & R & _). unfold unit_rules in R. rewrite UC in R. destruct R as (R & _). destruct (R g t h Lg' Lt Lh) as (o & E & S). unfold max_rule in E. rewrite Eu, bind_ok in E. pose proof (kind_ren g Lg) as NR. rewrite <- TK, <- K in NR.
  assert (E' : (do v <- get W M (NGen (con_gen W h + g) t); keep (CLe v (EK (un_max u * k)%Q))) = Ok o) by (destruct (un_kind u); [| |congruence]; rewrite DK, bind_ok in E; exact E). apply bind_inv in E' as (v & Ev & E'). injection E' as <-. apply get_inv in Ev as (-> & _). specialize (S _ eq_refl). cbn [sat eval] in S. rewrite MX, TM in S. exact S.
Qed.
Theorem low_limit t g h : w_uc W = false -> t < w_time W -> h < w_noh W -> g < n_conv W + n_hyd W -> (0 < top W g / w_base W)%Q -> (low W g / w_base W <= output W s h t g)%Q.
Proof.
  intros UC Lt Lh Lg P. assert (Lg' : g < n_gen W) by (unfold n_gen; lia). destruct (unit_facts g Lg') as (gs & ge & u & _ & _ & Eu & (K & _ & MX & MN & _) & TM & TL & TK & _).
  pose proof (proj1 (answer_rules _ _ _ A)) as (_ & _ & R & _). unfold unit_rules in R. rewrite UC in R. destruct R as (_ & R). destruct (R g t h Lg' Lt Lh) as (o & E & S). unfold min_rule in E. rewrite Eu, bind_ok in E. pose proof (kind_ren g Lg) as NR. rewrite <- TK, <- K in NR.
  assert (PM : positive (un_max u) = true) by (apply positive_iff; rewrite MX, TM; exact P). rewrite PM in E.
  assert (E' : (do v <- get W M (NGen (con_gen W h + g) t); keep (CLe (EK (un_min u)) v)) = Ok o) by (destruct (un_kind u); [exact E|exact E|congruence]). apply bind_inv in E' as (v & Ev & E'). injection E' as <-. apply get_inv in Ev as (-> & _). specialize (S _ eq_refl). cbn [sat eval] in S. rewrite MN, TL in S. exact S.
Qed.
Theorem farm_limit t r h f : t < w_time W -> h < w_noh W -> nth_error (w_farms W) r = Some f -> exists q, farm_profile W r t h q /\ (output W s h t (n_conv W + n_hyd W + r) <= q * fa_max f)%Q.
Proof.
  intros Lt Lh Nr. assert (Lr : r < n_ren W) by (apply nth_error_Some; congruence). pose proof (proj1 (answer_rules _ _ _ A)) as (_ & _ & _ & _ & _ & _ & R & _). destruct (R t r h Lt Lr Lh) as (o & E & S). unfold res_rule in E. apply bind_inv in E as (v & Ev & E). apply bind_inv in E as (m & Em & E). injection E as <-. apply get_inv in Ev as (-> & _). specialize (S _ eq_refl). cbn [sat eval] in S.
  unfold farm_max in Em. apply bind_inv in Em as (row & Er & Em). apply bind_inv in Em as (oo & Eo & Em). apply bind_inv in Em as (q & Eq & Em). rewrite (proj2 (at_nth _ _ _) Nr), bind_ok in Em. injection Em as <-. exists q. split; [|exact S].
  destruct (initialise_inv _ _ _ I) as (gs & _ & _ & _ & _ & _ & _ & _ & _ & _ & _ & OF & _). pose proof (offsets_size _ _ _ _ _ _ _ _ _ OF Er Eo) as (_ & Ls). destruct (offsets_ok _ _ _ _ _ OF r h Lr Ls) as (l & row' & Nl & Er' & Eo'). assert (row' = row) by congruence. subst row'. assert (oo = offset (w_time W) l) by congruence. subst oo.
  exists l. split; [|exact Eq]. unfold res_links in Nl. destruct (w_nores W =? 1); [|exact Nl]. apply nth_error_In, repeat_spec in Nl. exact Nl.
Qed.

(** ** Ramps *)

Lemma ramp_ok g gs ge r : g < n_conv W + n_hyd W -> all_gens (w_conv W) (w_column W) (w_machines W) (w_hyd W) (w_plants W) (w_farms W) = Ok gs -> nth_error gs g = Some ge -> ramp_setting W g r -> ge_ramp ge = Some r.
Proof.
  intros Lg EG Ng RS. pose proof (all_gens_ok _ _ _ _ _ _ _ EG) as (L & _ & _ & _ & _ & C & H & _). unfold ramp_setting in RS. destruct (Nat.ltb_spec g (n_conv W)) as [B|B].
  - destruct (nth_error (w_machines W) g) as [mr|] eqn:Nm; [|apply nth_error_None in Nm; unfold n_conv in B; lia]. pose proof (conv_gen_inv _ _ _ _ _ (C g mr ge Nm Ng)) as (_ & _ & _ & _ & _ & PR & _). unfold pick_ramp in PR. destruct (cv_ramp (w_conv W)) as [|a [|b l]].
    + destruct RS as (c & Ec & Nc). rewrite Ec, (proj2 (at_nth _ _ _) Nc), bind_ok in PR. congruence.
    + cbn in RS. congruence.
    + unfold one_or_each in RS. destruct (g <=? _) eqn:Le; [apply at_nth in PR; congruence|]. apply Nat.leb_gt in Le. assert (g < List.length (a :: b :: l)) by (apply nth_error_Some; congruence). lia.
  - destruct (nth_error (w_plants W) (g - n_conv W)) as [pr|] eqn:Np; [|apply nth_error_None in Np; unfold n_hyd in Lg; lia]. assert (Ng' : nth_error gs (List.length (w_machines W) + (g - n_conv W)) = Some ge) by (unfold n_conv in *; replace (List.length (w_machines W) + (g - List.length (w_machines W))) with g by lia; exact Ng).
    pose proof (hydro_gen_inv _ _ _ _ (H _ pr ge Np Ng')) as (_ & _ & _ & _ & _ & PR & _). apply pick_each in PR. congruence.
Qed.
Theorem ramp_limit t g h r : t < w_time W -> h < w_noh W -> g < n_conv W + n_hyd W -> ramp_setting W g r -> (0 < r < 1)%Q -> (0 < top W g / w_base W)%Q ->
  (Qabs (output W s h t g - output W s h (before (w_time W) t) g) <= top W g / w_base W * r)%Q.
Proof.
  intros Lt Lh Lg RS (R0 & R1) P. assert (Lg' : g < n_gen W) by (unfold n_gen; lia). destruct (unit_facts g Lg') as (gs & ge & u & EG & Ng & Eu & (K & _ & MX & _ & RA & _) & TM & TL & TK & _). pose proof (kind_ren g Lg) as NR. rewrite <- TK, <- K in NR. rewrite (ramp_ok g gs ge r Lg EG Ng RS), TM in RA. unfold ramp_of in RA.
  assert (B1 : Qle_bool r 0 = false) by (destruct (Qle_bool r 0) eqn:X; [apply Qle_bool_iff in X; exfalso; lra|reflexivity]). assert (B2 : Qle_bool 1 r = false) by (destruct (Qle_bool 1 r) eqn:X; [apply Qle_bool_iff in X; exfalso; lra|reflexivity]). rewrite B1, B2 in RA. cbn [orb] in RA. rewrite TM in MX.
  assert (B3 : Qle_bool (un_max u) (un_ramp u) = false). { destruct (Qle_bool (un_max u) (un_ramp u)) eqn:X; [|reflexivity]. apply Qle_bool_iff in X. rewrite MX, RA in X. exfalso. set (z := (top W g / w_base W)%Q) in *. nra. }
  destruct (initialise_inv _ _ _ I) as (gs' & _ & _ & _ & _ & _ & _ & _ & _ & _ & _ & _ & _ & _ & _ & PV & _). apply previous_ok in PV as (_ & _ & PV).
  pose proof (proj1 (answer_rules _ _ _ A)) as (_ & _ & _ & _ & _ & _ & _ & _ & _ & R & R' & _).
  assert (X : forall up : bool, exists o, (do a <- get W M (NGen (con_gen W h + g) t); do b <- get W M (NGen (con_gen W h + g) (before (w_time W) t)); keep (CLe (if up then ESub b a else ESub a b) (EK (un_ramp u)))) = Ok o /\ forall c, o = Some c -> sat s c).
  { intros up. assert (HR : holds s (ramp_rule W M up g t h)) by (destruct up; [now apply R|now apply R']). destruct HR as (o & E & S). exists o. split; [|exact S]. unfold ramp_rule in E. rewrite (proj2 (at_nth _ _ _) (PV t Lt)), bind_ok, Eu, bind_ok, B3 in E. cbn [negb] in E. destruct (un_kind u); [exact E|exact E|congruence]. }
  destruct (X true) as (o & E & S). apply bind_inv in E as (v & Ev & E). apply bind_inv in E as (v' & Ev' & E). injection E as <-. apply get_inv in Ev as (-> & _). apply get_inv in Ev' as (-> & _). specialize (S _ eq_refl).
  destruct (X false) as (o & E & S'). apply bind_inv in E as (v & Ev & E). apply bind_inv in E as (v' & Ev' & E). injection E as <-. apply get_inv in Ev as (-> & _). apply get_inv in Ev' as (-> & _). specialize (S' _ eq_refl). cbn [sat eval] in S, S'. rewrite RA in S, S'.
  apply Qabs_Qle_condition. unfold output. unfold con_gen in S, S'. split; lra.
Qed.

(** ** Baseload *)

Lemma base_ok g gs ge b : g < n_conv W + n_hyd W -> all_gens (w_conv W) (w_column W) (w_machines W) (w_hyd W) (w_plants W) (w_farms W) = Ok gs -> nth_error gs g = Some ge -> base_setting W g b -> ge_base ge = b.
Proof.
  intros Lg EG Ng RS. pose proof (all_gens_ok _ _ _ _ _ _ _ EG) as (L & _ & _ & _ & _ & C & H & _). unfold base_setting in RS. destruct (Nat.ltb_spec g (n_conv W)) as [B|B].
  - destruct (nth_error (w_machines W) g) as [mr|] eqn:Nm; [|apply nth_error_None in Nm; unfold n_conv in B; lia]. pose proof (conv_gen_inv _ _ _ _ _ (C g mr ge Nm Ng)) as (_ & _ & _ & _ & _ & _ & PR & _). apply pick_each in PR. congruence.
  - destruct (nth_error (w_plants W) (g - n_conv W)) as [pr|] eqn:Np; [|apply nth_error_None in Np; unfold n_hyd in Lg; lia]. assert (Ng' : nth_error gs (List.length (w_machines W) + (g - n_conv W)) = Some ge) by (unfold n_conv in *; replace (List.length (w_machines W) + (g - List.length (w_machines W))) with g by lia; exact Ng).
    pose proof (hydro_gen_inv _ _ _ _ (H _ pr ge Np Ng')) as (_ & _ & _ & _ & _ & _ & PR & _). apply pick_each in PR. congruence.
Qed.
Lemma weight_ok t w : t < w_time W -> at_ (m_weights M) t = Ok w -> weight W t w.
Proof.
  intros Lt E. destruct (initialise_inv _ _ _ I) as (gs & _ & _ & _ & _ & _ & _ & _ & _ & _ & _ & _ & _ & _ & _ & _ & EW & _). apply at_nth in E. rewrite EW in E. unfold weight. destruct (w_weights W); [exact E|]. apply nth_error_In, repeat_spec in E. exact E.
Qed.
Lemma qsum_repeat q n : (qsum (repeat q n) == inject_Z (Z.of_nat n) * q)%Q.
Proof. induction n as [|n IH]; [cbn; ring|]. cbn [repeat]. change (qsum (q :: repeat q n)) with (q + qsum (repeat q n))%Q. rewrite IH, Nat2Z.inj_succ. unfold Z.succ. rewrite inject_Z_plus. change (inject_Z 1) with 1%Q. ring. Qed.
Lemma base_any t g h b w : weight W t w -> (0 < qsum (hs_base (w_hyd W)))%Q -> t < w_time W -> h < w_noh W -> g < n_conv W + n_hyd W -> base_setting W g b -> (0 < b)%Q ->
  (b * (w / qsum (m_weights M)) * below (w_time W) (fun t2 => output W s h t2 g) <= output W s h t g)%Q.
Proof.
  intros WN P Lt Lh Lg BS Pb. assert (Lg' : g < n_gen W) by (unfold n_gen; lia). destruct (unit_facts g Lg') as (gs & ge & u & EG & Ng & Eu & (K & _ & _ & _ & _ & UB & _) & TM & TL & TK & _). pose proof (kind_ren g Lg) as NR. rewrite <- TK, <- K in NR. rewrite (base_ok g gs ge b Lg EG Ng BS) in UB.
  pose proof (proj1 (answer_rules _ _ _ A)) as (_ & R & _). apply positive_iff in P. destruct (R P g t h Lg' Lt Lh) as (o & E & S). unfold baseload_rule in E. rewrite Eu, bind_ok in E. apply bind_inv in E as (w' & Ew & E). apply (weight_ok _ _ Lt) in Ew. assert (w' = w) by (unfold weight in WN, Ew; destruct (w_weights W); congruence). subst w'. rewrite UB in E. rewrite (proj2 (positive_iff b) Pb) in E.
  assert (E' : (do v <- get W M (NGen (con_gen W h + g) t); do s <- gets W M (map (fun t2 => NGen (con_gen W h + g) t2) (seq 0 (w_time W))); keep (CLe (EMul (b * (w / qsum (m_weights M)))%Q s) v)) = Ok o) by (destruct (un_kind u); [exact E|exact E|congruence]).
  apply bind_inv in E' as (v & Ev & E'). apply bind_inv in E' as (e & Ee & E'). injection E' as <-. apply get_inv in Ev as (-> & _). apply (gets_inv W M s) in Ee as (Ve & _). specialize (S _ eq_refl). cbn [sat eval] in S. rewrite map_map in Ve. change (eval s e == below (w_time W) (fun t2 => output W s h t2 g))%Q in Ve. rewrite Ve in S. exact S.
Qed.
Theorem base_load t g h b : w_weights W = None -> (0 < qsum (hs_base (w_hyd W)))%Q -> t < w_time W -> h < w_noh W -> g < n_conv W + n_hyd W -> base_setting W g b -> (0 < b)%Q ->
  (b * below (w_time W) (fun t2 => output W s h t2 g) <= inject_Z (Z.of_nat (w_time W)) * output W s h t g)%Q.
Proof.
  intros WN P Lt Lh Lg BS Pb. assert (Ww : weight W t 1) by (unfold weight; now rewrite WN). pose proof (base_any t g h b 1 Ww P Lt Lh Lg BS Pb) as S.
  destruct (initialise_inv _ _ _ I) as (gs' & _ & _ & _ & _ & _ & _ & _ & _ & _ & _ & _ & _ & _ & _ & _ & EW & _). rewrite EW, WN, qsum_repeat, Qmult_1_r in S. set (T := inject_Z (Z.of_nat (w_time W))) in *. assert (TP : (0 < T)%Q) by (unfold T; change 0%Q with (inject_Z 0); rewrite <- Zlt_Qlt; lia).
  set (bs := below _ _) in *. assert (X : (b * bs == T * (b * (1 / T) * bs))%Q) by (field; lra). rewrite X. apply Qmult_le_l; auto.
Qed.

(** ** Commitment *)

Lemma has_bin_switched gs i ge : all_gens (w_conv W) (w_column W) (w_machines W) (w_hyd W) (w_plants W) (w_farms W) = Ok gs -> nth_error gs i = Some ge -> has_bin ge = switched W i.
Proof.
  intros EG Ng. assert (Li : i < n_gen W). { pose proof (all_gens_ok _ _ _ _ _ _ _ EG) as (L & _). change (List.length gs = n_gen W) in L. rewrite <- L. apply nth_error_Some. congruence. }
  destruct (unit_facts i Li) as (gs' & ge' & u & EG' & Ng' & _ & _ & TM & TL & TK & _). assert (gs' = gs) by congruence. subst gs'. assert (ge' = ge) by congruence. subst ge'. unfold has_bin, switched, positive. rewrite TK, TM, TL. unfold kind_of.
  destruct (Nat.ltb_spec i (n_conv W)); [replace (i <? n_conv W + n_hyd W) with true by (symmetry; apply Nat.ltb_lt; lia); reflexivity|]. now destruct (i <? n_conv W + n_hyd W).
Qed.
Lemma tally_count p (q : nat -> bool) gs n : (forall i g, nth_error gs i = Some g -> p g = q i) -> n <= List.length gs -> tally p (firstn n gs) = count (map q (seq 0 n)).
Proof.
  intros H. induction n as [|n IH]; intros L; [reflexivity|]. destruct (nth_error gs n) as [g|] eqn:N; [|apply nth_error_None in N; lia]. rewrite seq_S, map_app. cbn [map]. rewrite count_snoc, <- IH by lia. assert (F : firstn (S n) gs = firstn n gs ++ [g]). { clear - N. revert n N. induction gs as [|x gs IH]; intros [|n] N; cbn in N; try discriminate; [injection N as <-; reflexivity|]. cbn [firstn app]. f_equal. now apply IH. }
  rewrite F, tally_snoc, (H n g N). reflexivity.
Qed.
Lemma bin_no g gs ge u : g < n_gen W -> all_gens (w_conv W) (w_column W) (w_machines W) (w_hyd W) (w_plants W) (w_farms W) = Ok gs -> nth_error gs g = Some ge -> unit_of (numbers W) (w_base W) (w_pieces W) (firstn g gs) ge u -> un_bin u = if switched W g then Some (switch_no W g) else None.
Proof.
  intros Lg EG Ng (_ & _ & _ & _ & _ & _ & B & _). rewrite B, (has_bin_switched gs g ge EG Ng). destruct (switched W g); [|reflexivity]. f_equal. apply tally_count; [intros i x N; now apply (has_bin_switched gs)|]. assert (g < List.length gs) by (apply nth_error_Some; congruence). lia.
Qed.
Lemma zero_one h t i e : get W M (NBin (con_gen W h + i) t) = Ok e -> (s (NBin (h * n_gen W + i) t) == 0 \/ s (NBin (h * n_gen W + i) t) == 1)%Q.
Proof. intros E. apply get_inv in E as (_ & D). exact (proj2 (answer_rules _ _ _ A) _ D). Qed.
Theorem switch_limits t g h : w_uc W = true -> w_cool W = None -> t < w_time W -> h < w_noh W -> switched W g = true ->
  (on W s h t g == 0 /\ output W s h t g == 0)%Q \/ (on W s h t g == 1 /\ low W g / w_base W <= output W s h t g <= top W g / w_base W)%Q.
Proof.
  intros UC WC Lt Lh SW. assert (Lg : g < n_conv W + n_hyd W) by (unfold switched in SW; apply andb_prop in SW as (SW & _); apply andb_prop in SW as (SW & _); now apply Nat.ltb_lt). assert (Lg' : g < n_gen W) by (unfold n_gen; lia).
  destruct (unit_facts g Lg') as (gs & ge & u & EG & Ng & Eu & U & TM & TL & TK & _). pose proof (bin_no g gs ge u Lg' EG Ng U) as B. rewrite SW in B. destruct U as (K & _ & MX & MN & _). pose proof (kind_ren g Lg) as NR. rewrite <- TK, <- K in NR.
  pose proof (proj1 (answer_rules _ _ _ A)) as (_ & _ & R & _). unfold unit_rules in R. rewrite UC in R. destruct R as (R1 & R2 & _). destruct (R1 g t h Lg' Lt Lh) as (o & E & S). destruct (R2 g t h Lg' Lt Lh) as (o' & E' & S'). unfold max_uc_rule in E. unfold min_uc_rule in E'. rewrite Eu, bind_ok, B in E. rewrite Eu, bind_ok, B in E'.
  assert (F : (do v <- get W M (NGen (con_gen W h + g) t); do x <- get W M (NBin (con_gen W h + switch_no W g) t); keep (CLe v (EMul (un_max u * 1)%Q x))) = Ok o) by (destruct (un_kind u); [| |congruence]; rewrite derate_none, bind_ok in E by exact WC; exact E).
  assert (F' : (do v <- get W M (NGen (con_gen W h + g) t); do x <- get W M (NBin (con_gen W h + switch_no W g) t); keep (CLe (EMul (un_min u) x) v)) = Ok o') by (destruct (un_kind u); [exact E'|exact E'|congruence]).
  apply bind_inv in F as (v & Ev & F). apply bind_inv in F as (x & Ex & F). injection F as <-. apply bind_inv in F' as (v' & Ev' & F'). apply bind_inv in F' as (x' & Ex' & F'). injection F' as <-. pose proof (zero_one _ _ _ _ Ex) as ZO. apply get_inv in Ev as (-> & _). apply get_inv in Ev' as (-> & _). apply get_inv in Ex as (-> & _). apply get_inv in Ex' as (-> & _).
  specialize (S _ eq_refl). specialize (S' _ eq_refl). cbn [sat eval] in S, S'. rewrite MX, TM in S. rewrite MN, TL in S'. pose proof (output_nonneg h t g Lh Lt Lg') as N0. unfold con_gen in S, S'. change (s (NGen (h * n_gen W + g) t)) with (output W s h t g) in *. change (s (NBin (h * n_gen W + switch_no W g) t)) with (on W s h t g) in *.
  destruct ZO as [Z|Z]; rewrite Z in S, S'; [left|right]; (split; [exact Z|]); [|split]; lra.
Qed.
Theorem unswitched_limit t g h : w_uc W = true -> w_cool W = None -> t < w_time W -> h < w_noh W -> g < n_conv W + n_hyd W -> switched W g = false -> (output W s h t g <= top W g / w_base W)%Q.
Proof.
  intros UC WC Lt Lh Lg SW. assert (Lg' : g < n_gen W) by (unfold n_gen; lia).
  destruct (unit_facts g Lg') as (gs & ge & u & EG & Ng & Eu & U & TM & TL & TK & _). pose proof (bin_no g gs ge u Lg' EG Ng U) as B. rewrite SW in B. destruct U as (K & _ & MX & MN & _). pose proof (kind_ren g Lg) as NR. rewrite <- TK, <- K in NR.
  pose proof (proj1 (answer_rules _ _ _ A)) as (_ & _ & R & _). unfold unit_rules in R. rewrite UC in R. destruct R as (R1 & _). destruct (R1 g t h Lg' Lt Lh) as (o & E & S). unfold max_uc_rule in E. rewrite Eu, bind_ok, B in E.
  assert (F : (do v <- get W M (NGen (con_gen W h + g) t); keep (CLe v (EK (un_max u)))) = Ok o) by (destruct (un_kind u); [| |congruence]; rewrite derate_none, bind_ok in E by exact WC; exact E). apply bind_inv in F as (v & Ev & F). injection F as <-. apply get_inv in Ev as (-> & _). specialize (S _ eq_refl). cbn [sat eval] in S. rewrite MX, TM in S. exact S.
Qed.
(** The variable of a minimum time has the number of the unit's binary when the switched units before it have one too. *)
Definition lined_up (l : list (option nat)) (g : nat) : Prop := forall j, j < g -> switched W j = true -> time_setting l j <> None.
Lemma count_same p q n : (forall j, j < n -> p j = q j) -> count (map p (seq 0 n)) = count (map q (seq 0 n)).
Proof. intros H. f_equal. apply map_ext_in. intros j Ij. apply in_seq in Ij. apply H. lia. Qed.
Lemma min_time up g gs ge u k : let l := if up : bool then cv_mut (w_conv W) else cv_mdt (w_conv W) in
  g < n_conv W -> switched W g = true -> time_setting l g = Some k -> lined_up l g -> all_gens (w_conv W) (w_column W) (w_machines W) (w_hyd W) (w_plants W) (w_farms W) = Ok gs -> nth_error gs g = Some ge -> unit_of (numbers W) (w_base W) (w_pieces W) (firstn g gs) ge u ->
  un_kind u = Conv /\ (if up then un_mutv u else un_mdtv u) = Some (switch_no W g) /\ (if up then un_mut u else un_mdt u) = k.
Proof.
  intros l Lg SW TS LU EG Ng (K & _ & _ & _ & _ & _ & _ & VD & VU & TU & TD & _). pose proof (all_gens_ok _ _ _ _ _ _ _ EG) as (L & _ & _ & _ & _ & C & _).
  assert (T : forall i x, i < n_conv W -> nth_error gs i = Some x -> ge_kind x = Conv /\ ge_mut x = time_setting (cv_mut (w_conv W)) i /\ ge_mdt x = time_setting (cv_mdt (w_conv W)) i).
  { intros i x Li Nx. destruct (nth_error (w_machines W) i) as [mr|] eqn:Nm; [|apply nth_error_None in Nm; unfold n_conv in Li; lia]. pose proof (conv_gen_inv _ _ _ _ _ (C i mr x Nm Nx)) as (K' & _ & _ & _ & _ & _ & _ & MU & MD). split; [exact K'|]. split; now apply pick_time_each. }
  destruct (T g ge Lg Ng) as (K' & MU & MD). pose proof (has_bin_switched gs g ge EG Ng) as HB. rewrite SW in HB. split; [congruence|].
  assert (Gl : g <= List.length gs) by (assert (g < List.length gs) by (apply nth_error_Some; congruence); lia).
  assert (X : forall i x, nth_error (firstn g gs) i = Some x -> i < g /\ nth_error gs i = Some x). { intros i x N. assert (i < g). { assert (i < List.length (firstn g gs)) by (apply nth_error_Some; congruence). rewrite firstn_length in H. lia. } split; auto. now rewrite nth_error_firstn_lt in N. }
  destruct up; subst l.
  - split; [|rewrite TU, MU, TS; reflexivity]. rewrite VU. unfold has_mut. rewrite HB, MU, TS. cbn [given andb]. f_equal. rewrite <- (firstn_all (firstn g gs)). rewrite (tally_count has_mut (fun j => switched W j) (firstn g gs)); [rewrite firstn_length, Nat.min_l by exact Gl; reflexivity| |lia].
    intros i x N. apply X in N as (Li & N). unfold has_mut. rewrite (has_bin_switched gs i x EG N). destruct (switched W i) eqn:SI; [|reflexivity]. destruct (T i x ltac:(lia) N) as (_ & MI & _). rewrite MI. specialize (LU i Li SI). now destruct (time_setting (cv_mut (w_conv W)) i).
  - split; [|rewrite TD, MD, TS; reflexivity]. rewrite VD. unfold has_mdt. rewrite HB, MD, TS. cbn [given andb]. f_equal. rewrite <- (firstn_all (firstn g gs)). rewrite (tally_count has_mdt (fun j => switched W j) (firstn g gs)); [rewrite firstn_length, Nat.min_l by exact Gl; reflexivity| |lia].
    intros i x N. apply X in N as (Li & N). unfold has_mdt. rewrite (has_bin_switched gs i x EG N). destruct (switched W i) eqn:SI; [|reflexivity]. destruct (T i x ltac:(lia) N) as (_ & _ & MI). rewrite MI. specialize (LU i Li SI). now destruct (time_setting (cv_mdt (w_conv W)) i).
Qed.
Definition state (up : bool) (h t g : nat) : Q := if up then on W s h t g else (1 - on W s h t g)%Q.
Lemma hold up g k t h : let l := if up : bool then cv_mut (w_conv W) else cv_mdt (w_conv W) in w_uc W = true -> t < w_time W -> h < w_noh W ->
  g < n_conv W -> switched W g = true -> time_setting l g = Some k -> lined_up l g ->
  exists v, (0 <= v <= 1)%Q /\ (state up h t g - state up h (before (w_time W) t) g <= v)%Q /\ (inject_Z (Z.of_nat k) * v <= qsum (map (fun x => state up h x g) (window (w_time W) k t)))%Q
    /\ Forall (fun x => 0 <= state up h x g <= 1)%Q (window (w_time W) k t) /\ (forall x, x = t \/ x = before (w_time W) t -> state up h x g == 0 \/ state up h x g == 1)%Q.
Proof.
  intros l UC Lt Lh Lg SW TS LU. assert (Lg' : g < n_gen W) by (unfold n_gen; lia). destruct (unit_facts g Lg') as (gs & ge & u & EG & Ng & Eu & U & _). destruct (min_time up g gs ge u k Lg SW TS LU EG Ng U) as (K & NV & NK).
  destruct (initialise_inv _ _ _ I) as (gs' & _ & _ & _ & _ & _ & _ & _ & _ & _ & _ & _ & _ & _ & _ & PV & _). apply previous_ok in PV as (_ & _ & PV).
  pose proof (proj1 (answer_rules _ _ _ A)) as (_ & _ & R & _). unfold unit_rules in R. rewrite UC in R. destruct R as (_ & _ & R1 & R2 & R3 & R4).
  assert (HT : holds s (turn_rule W M up g t h)) by (destruct up; [now apply R2|now apply R1]). assert (HH : holds s (hold_rule W M up g t h)) by (destruct up; [now apply R4|now apply R3]). clear R1 R2 R3 R4.
  destruct HT as (o & E & S). unfold turn_rule in E. rewrite Eu, bind_ok, K, NV in E. rewrite (proj2 (at_nth _ _ _) (PV t Lt)), bind_ok in E. apply bind_inv in E as (v & Ev & E). apply bind_inv in E as (a & Ea & E). apply bind_inv in E as (b & Eb & E). injection E as <-. specialize (S _ eq_refl).
  destruct HH as (o & E & S'). unfold hold_rule in E. rewrite Eu, bind_ok, K, NV, NK in E. cbv zeta in E. apply bind_inv in E as (v' & Ev' & E). assert (v' = v) by congruence. subst v'. apply bind_inv in E as (es & Ees & E). injection E as <-. specialize (S' _ eq_refl).
  exists (eval s v). assert (DV : (0 <= eval s v <= 1)%Q). { apply get_inv in Ev as (-> & D). pose proof (proj2 (answer_rules _ _ _ A) _ D) as DD. destruct up; exact DD. }
  pose proof (zero_one _ _ _ _ Ea) as Za. pose proof (zero_one _ _ _ _ Eb) as Zb. apply get_inv in Ea as (-> & _). apply get_inv in Eb as (-> & _). unfold con_gen in *. change (s (NBin (h * n_gen W + switch_no W g) t)) with (on W s h t g) in *. change (s (NBin (h * n_gen W + switch_no W g) (before (w_time W) t))) with (on W s h (before (w_time W) t) g) in *.
  assert (EQ : (qsum (map (eval s) es) == qsum (map (fun x => state up h x g) (window (w_time W) k t)))%Q /\ Forall (fun x => 0 <= state up h x g <= 1)%Q (window (w_time W) k t)).
  { apply mapM_Ok in Ees. clear S'. induction Ees as [|x e xs es H Ees (IH & IF)]; [split; [reflexivity|constructor]|]. apply bind_inv in H as (b & Eb & H). pose proof (zero_one _ _ _ _ Eb) as ZZ. apply get_inv in Eb as (-> & _). change (s (NBin (h * n_gen W + switch_no W g) x)) with (on W s h x g) in ZZ.
    assert (EE : eval s e = state up h x g) by (injection H as <-; unfold state, on; destruct up; reflexivity). split; [|constructor; [unfold state; destruct up; lra|exact IF]]. cbn [map]. change (eval s e + qsum (map (eval s) es) == state up h x g + qsum (map (fun x => state up h x g) xs))%Q. now rewrite IH, EE. }
  destruct EQ as (EQ & EF). sp; try tauto.
  - unfold state. destruct up; cbn [sat eval] in S; unfold on in *; lra.
  - rewrite <- EQ. cbn [sat eval] in S'. now rewrite esum_eval in S'.
  - intros x [->| ->]; unfold state; destruct up; lra.
Qed.
Theorem min_held (up : bool) g k t h : let l := if up then cv_mut (w_conv W) else cv_mdt (w_conv W) in w_uc W = true -> S t < w_time W -> h < w_noh W ->
  g < n_conv W -> switched W g = true -> time_setting l g = Some k -> lined_up l g ->
  (state up h t g == 0)%Q -> (state up h (S t) g == 1)%Q -> forall i, i < k -> (state up h ((S t + i) mod w_time W) g == 1)%Q.
Proof.
  intros l UC Lt Lh Lg SW TS LU Z O i Li. destruct (hold up g k (S t) h UC Lt Lh Lg SW TS LU) as (v & V & T & H & F & _). unfold before in T. cbn [Nat.eqb] in T. replace (S t - 1) with t in T by lia. assert (V1 : (v == 1)%Q) by lra. rewrite V1, Qmult_1_r in H.
  destruct (full_sum (map (fun x => state up h x g) (window (w_time W) k (S t))) k) as (L & F1); [| |exact H|].
  - apply Forall_map. exact F.
  - rewrite map_length. unfold window. rewrite firstn_length. lia.
  - rewrite map_length in L. destruct (nth_error (window (w_time W) k (S t)) i) as [x|] eqn:N; [|apply nth_error_None in N; lia]. assert (T1 : 1 < w_time W) by lia. pose proof (window_later _ _ _ _ _ T1 N) as (E & _). rewrite <- E. rewrite Forall_map, Forall_forall in F1. apply F1. eapply nth_error_In; eauto.
Qed.
Theorem first_step (up : bool) g k h : let l := if up then cv_mut (w_conv W) else cv_mdt (w_conv W) in w_uc W = true -> h < w_noh W ->
  g < n_conv W -> switched W g = true -> time_setting l g = Some k -> lined_up l g -> 1 <= k -> (state up h 0 g == 1)%Q -> (state up h (w_time W - 1) g == 1)%Q.
Proof.
  intros l UC Lh Lg SW TS LU Lk O. pose proof (time_pos cf W M I) as TP. destruct (hold up g k 0 h UC TP Lh Lg SW TS LU) as (v & V & T & H & F & ZO). unfold before in T, ZO. cbn [Nat.eqb] in T, ZO. destruct (ZO _ (or_intror eq_refl)) as [Z|Z]; [exfalso|exact Z]. assert (V1 : (v == 1)%Q) by lra. rewrite V1, Qmult_1_r in H.
  assert (F2 : Forall (fun q => 0 <= q <= 1)%Q (map (fun x => state up h x g) (window (w_time W) k 0))) by (apply Forall_map; exact F). set (ws := window (w_time W) k 0) in *. assert (LW : List.length ws < k). { unfold ws, window. destruct k as [|k]; [lia|]. rewrite skipn_length, firstn_length, cycle_length. lia. }
  destruct (full_sum _ k F2) as (L & _); [rewrite map_length; lia|exact H|]. rewrite map_length in L. lia.
Qed.

(** ** Pumps *)

Theorem pump_limit t p h r : t < w_time W -> h < w_noh W -> nth_error (w_pumps W) p = Some r -> (0 <= pump_power W s h t p <= pu_max r / w_base W)%Q.
Proof.
  intros Lt Lh Np. assert (Lp : p < n_pump W) by (apply nth_error_Some; congruence). pose proof (proj1 (answer_rules _ _ _ A)) as (_ & _ & _ & _ & R & _). destruct (R p t h Lp Lt Lh) as (o & E & S). unfold pump_max_rule in E. apply bind_inv in E as (v & Ev & E). rewrite (proj2 (at_nth _ _ _) Np), bind_ok in E. injection E as <-. apply get_inv in Ev as (-> & D). specialize (S _ eq_refl). cbn [sat eval] in S. split; [exact (proj2 (answer_rules _ _ _ A) _ D)|exact S].
Qed.

(** ** Costs *)

Lemma cost_line t g h gs ge u w c l : t < w_time W -> h < w_noh W -> g < n_gen W -> all_gens (w_conv W) (w_column W) (w_machines W) (w_hyd W) (w_plants W) (w_farms W) = Ok gs -> nth_error gs g = Some ge -> unit_at M g = Ok u -> weight W t w -> (0 < w)%Q ->
  nth_error (un_lines u) c = Some l -> (w * (fst l * output W s h t g + snd l) <= cost_of W s h t g)%Q.
Proof.
  intros Lt Lh Lg EG Ng Eu Ww Pw Nc. pose proof (proj1 (answer_rules _ _ _ A)) as (_ & _ & _ & R & _). assert (Lc : c < List.length (un_lines u)) by (apply nth_error_Some; congruence).
  assert (LP : List.length (un_lines u) <= most_pieces (fl_units (m_fleet M))). { apply at_nth, nth_error_In in Eu. unfold most_pieces. revert Eu. assert (X : forall us m, (m <= fold_left (fun m u => Nat.max m (List.length (un_lines u))) us m) /\ (In u us -> List.length (un_lines u) <= fold_left (fun m u => Nat.max m (List.length (un_lines u))) us m)).
    { clear. induction us as [|x us IH]; intros m; cbn [fold_left]; [split; [lia|intros []]|]. destruct (IH (Nat.max m (List.length (un_lines x)))) as (B & C). split; [lia|]. intros [->|Hi]; [lia|auto]. } apply (proj2 (X _ 0)). }
  destruct (R g c t h Lg ltac:(lia) Lt Lh) as (o & E & S). unfold cost_rule in E. rewrite Eu, bind_ok in E. apply bind_inv in E as (w' & Ew & E). pose proof (weight_ok _ _ Lt Ew) as W'. assert (w' = w) by (unfold weight in Ww, W'; destruct (w_weights W); congruence). subst w'. apply Nat.ltb_lt in Lc. rewrite Lc in E. rewrite (proj2 (at_nth _ _ _) Nc), bind_ok in E.
  apply bind_inv in E as (x & Ex & E). apply bind_inv in E as (v & Ev & E). injection E as <-. apply get_inv in Ex as (-> & _). apply get_inv in Ev as (-> & _). specialize (S _ eq_refl). cbn [sat eval] in S. change (s (NGen (con_gen W h + g) t)) with (output W s h t g) in S. change (s (NGCost (con_gen W h + g) t)) with (cost_of W s h t g) in S.
  set (L := (fst l * output W s h t g + snd l)%Q) in *. assert (X : (cost_of W s h t g == w * (/ w * cost_of W s h t g))%Q) by (field; lra). rewrite X. apply Qmult_le_l; auto.
Qed.
Lemma line_value p q x : (fst (line (w_base W) p q) * x + snd (line (w_base W) p q) == snd p + (snd q - snd p) / (fst q - fst p) * (x * w_base W - fst p))%Q.
Proof. unfold line. cbn [fst snd]. ring. Qed.
(** Any curve: the line through two neighbouring points is a lower bound. *)
Lemma curve_bound t g h gs ge u w pts c p q : t < w_time W -> h < w_noh W -> g < n_gen W -> all_gens (w_conv W) (w_column W) (w_machines W) (w_hyd W) (w_plants W) (w_farms W) = Ok gs -> nth_error gs g = Some ge -> unit_at M g = Ok u -> weight W t w -> (0 < w)%Q ->
  un_lines u = lines (w_base W) pts -> nth_error pts c = Some p -> nth_error pts (S c) = Some q ->
  (w * (snd p + (snd q - snd p) / (fst q - fst p) * (power_of W s h t g - fst p)) <= cost_of W s h t g)%Q.
Proof. intros Lt Lh Lg EG Ng Eu Ww Pw UL Np Nq. unfold power_of. rewrite <- line_value. eapply cost_line; eauto. rewrite UL. exact (lines_nth _ _ c _ _ Np Nq). Qed.
Lemma unit_lines g gs ge u pts : all_gens (w_conv W) (w_column W) (w_machines W) (w_hyd W) (w_plants W) (w_farms W) = Ok gs -> nth_error gs g = Some ge -> unit_of (numbers W) (w_base W) (w_pieces W) (firstn g gs) ge u -> List.length (firstn g gs) = g ->
  (if cu_points (ge_curve ge) then match cu_n (ge_curve ge) with O => Err ValueError | S _ => given_points (ge_curve ge) end else poly_points (w_pieces W) g (ge_max ge) (ge_min ge) (ge_curve ge)) = Ok pts -> un_lines u = lines (w_base W) pts.
Proof. intros EG Ng (_ & _ & _ & _ & _ & _ & _ & _ & _ & _ & _ & CL) L E. rewrite L in CL. unfold cost_lines in CL. rewrite E, bind_ok in CL. congruence. Qed.
Theorem linear_cost t g h w k : t < w_time W -> h < w_noh W -> weight W t w -> (0 < w)%Q -> n_conv W <= g -> nth_error (map pl_cost (w_plants W) ++ map fa_cost (w_farms W)) (g - n_conv W) = Some k ->
  (w * (k * power_of W s h t g) <= cost_of W s h t g)%Q.
Proof.
  intros Lt Lh Ww Pw Lg Nk. assert (Lg' : g < n_gen W). { assert (g - n_conv W < List.length (map pl_cost (w_plants W) ++ map fa_cost (w_farms W))) by (apply nth_error_Some; congruence). rewrite app_length, !map_length in H. unfold n_gen, n_hyd, n_ren. lia. }
  destruct (unit_facts g Lg') as (gs & ge & u & EG & Ng & Eu & U & _ & _ & _ & L). assert (C : ge_curve ge = mkCurve true 2 [0; 0; 1; k]%Q).
  { pose proof (all_gens_ok _ _ _ _ _ _ _ EG) as (_ & _ & _ & _ & _ & _ & H & R). destruct (Nat.ltb_spec (g - n_conv W) (n_hyd W)) as [B|B].
    - rewrite nth_error_app1, nth_error_map in Nk by now rewrite map_length. destruct (nth_error (w_plants W) (g - n_conv W)) as [pr|] eqn:Np; [|discriminate]. cbn in Nk. injection Nk as <-. assert (Ng' : nth_error gs (List.length (w_machines W) + (g - n_conv W)) = Some ge) by (unfold n_conv in *; replace (List.length (w_machines W) + (g - List.length (w_machines W))) with g by lia; exact Ng).
      now pose proof (hydro_gen_inv _ _ _ _ (H _ pr ge Np Ng')) as (_ & _ & _ & _ & C & _).
    - rewrite nth_error_app2, map_length, nth_error_map in Nk by (rewrite map_length; exact B). fold (n_hyd W) in Nk. destruct (nth_error (w_farms W) (g - n_conv W - n_hyd W)) as [fr|] eqn:Nf; [|discriminate]. cbn in Nk. injection Nk as <-. assert (Ng' : nth_error gs (List.length (w_machines W) + List.length (w_plants W) + (g - n_conv W - n_hyd W)) = Some ge) by (unfold n_conv, n_hyd in *; replace (List.length (w_machines W) + List.length (w_plants W) + (g - List.length (w_machines W) - List.length (w_plants W))) with g by lia; exact Ng).
      rewrite (R _ fr ge Nf Ng'). reflexivity. }
  pose proof (unit_lines g gs ge u [(0, 0); (1, k)]%Q EG Ng U L) as UL. rewrite C in UL. specialize (UL eq_refl). pose proof (curve_bound t g h gs ge u w _ 0 _ _ Lt Lh Lg' EG Ng Eu Ww Pw UL eq_refl eq_refl) as X. cbn [fst snd] in X. assert (EQ : (0 + (k - 0) / (1 - 0) * (power_of W s h t g - 0) == k * power_of W s h t g)%Q) by field. now rewrite EQ in X.
Qed.
Theorem point_cost t g h w mr c x0 y0 x1 y1 : t < w_time W -> h < w_noh W -> weight W t w -> (0 < w)%Q -> nth_error (w_machines W) g = Some mr -> cu_points (ma_curve mr) = true -> S c < cu_n (ma_curve mr) ->
  nth_error (cu_cost (ma_curve mr)) (2 * c) = Some x0 -> nth_error (cu_cost (ma_curve mr)) (2 * c + 1) = Some y0 -> nth_error (cu_cost (ma_curve mr)) (2 * c + 2) = Some x1 -> nth_error (cu_cost (ma_curve mr)) (2 * c + 3) = Some y1 ->
  (w * (y0 + (y1 - y0) / (x1 - x0) * (power_of W s h t g - x0)) <= cost_of W s h t g)%Q.
Proof.
  intros Lt Lh Ww Pw Nm CP Lc N0 N1 N2 N3. assert (Lg : g < n_conv W) by (apply nth_error_Some; congruence). assert (Lg' : g < n_gen W) by (unfold n_gen; lia). destruct (unit_facts g Lg') as (gs & ge & u & EG & Ng & Eu & U & _ & _ & _ & L).
  pose proof (all_gens_ok _ _ _ _ _ _ _ EG) as (_ & _ & _ & _ & _ & C & _). pose proof (conv_gen_inv _ _ _ _ _ (C g mr ge Nm Ng)) as (_ & _ & _ & _ & CV & _). pose proof U as (_ & _ & _ & _ & _ & _ & _ & _ & _ & _ & _ & CL). unfold cost_lines in CL. rewrite CV, CP in CL. destruct (cu_n (ma_curve mr)) as [|n] eqn:CN; [lia|]. apply bind_inv in CL as (pts & EP & CL). injection CL as UL. symmetry in UL.
  unfold given_points in EP. rewrite CN in EP. destruct (mapM_seq _ _ _ EP c ltac:(lia)) as (p & E1 & Np). rewrite (proj2 (at_nth _ _ _) N0), bind_ok, (proj2 (at_nth _ _ _) N1), bind_ok in E1. injection E1 as <-. destruct (mapM_seq _ _ _ EP (S c) ltac:(lia)) as (q & E2 & Nq). replace (2 * S c + 1) with (2 * c + 3) in E2 by lia. replace (2 * S c) with (2 * c + 2) in E2 by lia. rewrite (proj2 (at_nth _ _ _) N2), bind_ok, (proj2 (at_nth _ _ _) N3), bind_ok in E2. injection E2 as <-.
  exact (curve_bound t g h gs ge u w _ c _ _ Lt Lh Lg' EG Ng Eu Ww Pw UL Np Nq).
Qed.
Lemma find_piece (x d P : Q) : (0 < d)%Q -> forall k, (x <= P)%Q -> (P <= x + inject_Z (Z.of_nat (S k)) * d)%Q -> exists i, i <= k /\ (x + inject_Z (Z.of_nat i) * d <= P)%Q /\ (P <= x + inject_Z (Z.of_nat (S i)) * d)%Q.
Proof.
  intros Pd. induction k as [|k IH]; intros L U; [exists 0; sp; auto; change (inject_Z (Z.of_nat 0)) with 0%Q; lra|]. destruct (Qlt_le_dec P (x + inject_Z (Z.of_nat (S k)) * d)) as [B|B]; [|exists (S k); sp; auto]. destruct (IH L ltac:(lra)) as (i & Li & B1 & B2). exists i. sp; auto.
Qed.
(** The quadratic costs a x^2 + b x + c. *)
Theorem quadratic_cost t g h w mr a b c d : t < w_time W -> h < w_noh W -> weight W t w -> (0 < w)%Q -> nth_error (w_machines W) g = Some mr -> cu_points (ma_curve mr) = false -> cu_n (ma_curve mr) = 3 -> cu_cost (ma_curve mr) = [a; b; c] -> (0 <= a)%Q ->
  piece_length (w_pieces W) g (ma_max mr) (ma_curve mr) = Ok d -> (0 < d <= ma_max mr)%Q -> (ma_min mr <= power_of W s h t g <= ma_min mr + inject_Z (Qfloor (ma_max mr / d)) * d)%Q ->
  (w * (a * power_of W s h t g ^ 2 + b * power_of W s h t g + c) <= cost_of W s h t g)%Q.
Proof.
  intros Lt Lh Ww Pw Nm CP CN CC Pa PL (Pd & Ld) (P0 & P1). assert (Lg : g < n_conv W) by (apply nth_error_Some; congruence). assert (Lg' : g < n_gen W) by (unfold n_gen; lia). destruct (unit_facts g Lg') as (gs & ge & u & EG & Ng & Eu & U & _ & _ & _ & L).
  pose proof (all_gens_ok _ _ _ _ _ _ _ EG) as (_ & _ & _ & _ & _ & C & _). pose proof (conv_gen_inv _ _ _ _ _ (C g mr ge Nm Ng)) as (_ & _ & MX & MN & CV & _). pose proof U as (_ & _ & _ & _ & _ & _ & _ & _ & _ & _ & _ & CL). unfold cost_lines in CL. rewrite CV, CP, L in CL. apply bind_inv in CL as (pts & EP & CL). injection CL as UL. symmetry in UL.
  unfold poly_points in EP. rewrite MX, MN, PL, bind_ok in EP. destruct (Qeq_bool d 0) eqn:D0; [apply Qeq_bool_iff in D0; exfalso; lra|]. cbv zeta in EP. set (k := Qfloor (ma_max mr / d)) in *. assert (K1 : (1 <= k)%Z). { unfold k. change 1%Z with (Qfloor 1). apply Qfloor_resp_le. apply Qle_shift_div_l; lra. } assert (K0 : (k <? 0)%Z = false) by (apply Z.ltb_ge; lia). rewrite K0 in EP.
  set (P := power_of W s h t g) in *. assert (ZK : Z.of_nat (S (Z.to_nat k - 1)) = k) by lia. destruct (find_piece (ma_min mr) d P Pd (Z.to_nat k - 1) P0) as (i & Li & B0 & B1); [now rewrite ZK|].
  set (xi := (ma_min mr + inject_Z (Z.of_nat i) * d)%Q) in *. set (xj := (ma_min mr + inject_Z (Z.of_nat (S i)) * d)%Q) in *. assert (XJ : (xj == xi + d)%Q). { unfold xi, xj. rewrite Nat2Z.inj_succ. unfold Z.succ. rewrite inject_Z_plus. change (inject_Z 1) with 1%Q. ring. }
  assert (PV : forall x, exists y, poly (ma_curve mr) x = Ok y /\ (y == a * x ^ 2 + b * x + c)%Q). { intros x. unfold poly. rewrite CN, CC. cbn. eexists. split; [reflexivity|]. ring. }
  destruct (PV xi) as (yi & Ei & Vi). destruct (PV xj) as (yj & Ej & Vj). destruct (mapM_seq _ _ _ EP i ltac:(lia)) as (p & E1 & Np). fold xi in E1. rewrite Ei, bind_ok in E1. injection E1 as <-. destruct (mapM_seq _ _ _ EP (S i) ltac:(lia)) as (q & E2 & Nq). fold xj in E2. rewrite Ej, bind_ok in E2. injection E2 as <-.
  pose proof (curve_bound t g h gs ge u w _ i _ _ Lt Lh Lg' EG Ng Eu Ww Pw UL Np Nq) as X. cbn [fst snd] in X. fold P in X. eapply Qle_trans; [|exact X]. apply Qmult_le_l; auto.
  assert (NZ : ~ (xj - xi == 0)%Q) by (rewrite XJ; intros Z; assert (d == 0)%Q by (rewrite <- Z; ring); lra). rewrite Vi, Vj. assert (V : (a * xi ^ 2 + b * xi + c + (a * xj ^ 2 + b * xj + c - (a * xi ^ 2 + b * xi + c)) / (xj - xi) * (P - xi) == (a * P ^ 2 + b * P + c) + a * ((P - xi) * (xj - P)))%Q) by (field; exact NZ).
  rewrite V. assert (0 <= (P - xi) * (xj - P))%Q by (apply Qmult_le_0_compat; lra). assert (0 <= a * ((P - xi) * (xj - P)))%Q by (apply Qmult_le_0_compat; auto). lra.
Qed.
End Units.
