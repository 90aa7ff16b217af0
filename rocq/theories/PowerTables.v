(** What initialise leaves, in terms of the settings; what an answer satisfies, rule by rule. *)
From Coq Require Import List Bool Arith ZArith QArith Lia Lqa.
From Verif Require Import Base ReaderProofs GraphData GraphDataProofs Cases CasesProofs Network InputOutput InputOutputProofs ConverterOpen HydroSpec HydroTables HydroNet ScreeningProofs Linear LinearProofs Devices Power PowerSpec DevicesProofs FleetProofs.
Import ListNotations.
Open Scope nat_scope.
Open Scope list_scope.
Local Ltac sp := repeat match goal with |- _ /\ _ => split end.

(** ** Pumps and curtailment *)

Lemma slot_row nb b i : slot nb b = Ok i -> forall n, at_row nb b n = (i =? n).
Proof.
  intros E n. unfold at_row. destruct b as [|b]; cbn [slot] in E.
  - destruct nb as [|nb]; [discriminate|]. injection E as <-. cbn [Nat.eqb orb andb]. apply Nat.eqb_sym.
  - destruct (b <? nb); [|discriminate]. injection E as <-. cbn [Nat.eqb andb]. now rewrite orb_false_r.
Qed.
Lemma slot_lt nb b i : slot nb b = Ok i -> i < nb.
Proof. destruct b; cbn [slot]; [destruct nb; [discriminate|]; intros [= <-]; lia|]. destruct (Nat.ltb_spec b nb); [|discriminate]. intros [= <-]. lia. Qed.
Lemma find_ext {A} (f g : A -> bool) l : (forall x, In x l -> f x = g x) -> find f l = find g l.
Proof. induction l as [|x l IH]; intros H; [reflexivity|]. cbn. rewrite (H x) by now left. rewrite IH by (intros y I; apply H; now right). reflexivity. Qed.
Lemma pump_table_ok nb ps t : pump_table nb ps = Ok t ->
  List.length t = nb /\ forall n, n < nb -> nth_error t n = Some (match find (fun p => at_row nb (nth p (map pu_bus ps) 0) n) (rev (seq 0 (List.length ps))) with Some p => S p | None => 0 end).
Proof.
  revert t. induction ps as [|p ps IH] using rev_ind; intros t E.
  - cbn in E. injection E as <-. split; [apply repeat_length|]. intros n L. cbn. now apply HydroTables.nth_repeat.
  - unfold pump_table in E. rewrite app_length in E. cbn [List.length] in E. rewrite Nat.add_1_r, seq_S, combine_app, foldM_app in E by now rewrite seq_length. apply bind_inv in E as (t1 & E1 & E). destruct (IH _ E1) as (L & H). cbn [combine foldM fst snd Nat.add] in E.
    apply bind_inv in E as (t2 & E & E2). injection E2 as <-. apply bind_inv in E as (i & Ei & E). injection E as <-. split; [now rewrite set_nth_length|]. intros n Ln. rewrite nth_set_nth, (H n Ln). rewrite app_length. cbn [List.length]. rewrite Nat.add_1_r, seq_S, rev_app_distr. cbn [rev app Nat.add find].
    rewrite map_app, app_nth2 by (rewrite map_length; lia). rewrite map_length, Nat.sub_diag. cbn [map nth]. rewrite (slot_row _ _ _ Ei). destruct (i =? n); [reflexivity|]. f_equal. rewrite (find_ext (fun p0 => at_row nb (nth p0 (map pu_bus ps ++ [pu_bus p]) 0) n) (fun p0 => at_row nb (nth p0 (map pu_bus ps) 0) n)); [reflexivity|].
    intros x I. apply in_rev, in_seq in I. rewrite app_nth1 by (rewrite map_length; lia). reflexivity.
Qed.
Lemma pump_table_total nb ps : (exists t, pump_table nb ps = Ok t) <-> Forall (fun p => exists i, slot nb (pu_bus p) = Ok i) ps.
Proof.
  induction ps as [|p ps IH] using rev_ind; [split; [constructor|intros _; eexists; reflexivity]|]. rewrite Forall_app. unfold pump_table. rewrite app_length. cbn [List.length]. rewrite Nat.add_1_r, seq_S, combine_app, foldM_app by now rewrite seq_length. fold (pump_table nb ps). cbn [combine foldM fst snd]. split.
  - intros (t & E). apply bind_inv in E as (t1 & E1 & E). apply bind_inv in E as (t2 & E & _). apply bind_inv in E as (i & Ei & _). split; [apply IH; eauto|repeat constructor; eauto].
  - intros (F & F1). apply IH in F as (t & ->). inversion F1 as [|? ? (i & Ei) _]; subst. cbn [rbind]. rewrite Ei. cbn. eauto.
Qed.
Lemma pump_find W n p : pump_at W n = Some p -> p < n_pump W.
Proof. unfold pump_at. intros E. apply find_some in E as (I & _). apply in_rev, in_seq in I. lia. Qed.
Definition fea_of (bs : list bus) (n : nat) : nat * nat :=
  if nth n (map (fun b => negb (Qle_bool (b_pd b) 0)) bs) false then (1, count (firstn n (map (fun b => negb (Qle_bool (b_pd b) 0)) bs))) else (0, 0).
Lemma count_snoc l b : count (l ++ [b]) = count l + (if b then 1 else 0).
Proof. unfold count. rewrite filter_app, app_length. destruct b; reflexivity. Qed.
Lemma fea_table_ok bs : snd (fea_table bs) = count (map (fun b => negb (Qle_bool (b_pd b) 0)) bs) /\ List.length (fst (fea_table bs)) = List.length bs /\ forall n, n < List.length bs -> nth_error (fst (fea_table bs)) n = Some (fea_of bs n).
Proof.
  induction bs as [|b bs (C & L & H)] using rev_ind; [sp; auto; cbn; lia|]. unfold fea_table. rewrite fold_left_app. fold (fea_table bs). cbn [fold_left]. rewrite map_app. cbn [map]. rewrite count_snoc. unfold positive. set (q := negb (Qle_bool (b_pd b) 0)).
  assert (N : forall n, n < List.length (bs ++ [b]) -> fea_of (bs ++ [b]) n = if n =? List.length bs then (if q then (1, snd (fea_table bs)) else (0, 0)) else fea_of bs n).
  { intros n Ln. rewrite app_length in Ln. cbn [List.length] in Ln. unfold fea_of. rewrite map_app. cbn [map]. fold q. destruct (Nat.eqb_spec n (List.length bs)) as [->|Ne].
    - rewrite app_nth2 by (rewrite map_length; lia). rewrite map_length, Nat.sub_diag. cbn [nth]. rewrite firstn_app, map_length, Nat.sub_diag. cbn [firstn]. rewrite List.app_nil_r, firstn_all2 by (rewrite map_length; lia). now rewrite C.
    - rewrite app_nth1 by (rewrite map_length; lia). rewrite firstn_app, map_length. replace (n - List.length bs) with 0 by lia. cbn [firstn]. now rewrite List.app_nil_r. }
  assert (Z : forall e, forall n, n < List.length (bs ++ [b]) -> nth_error (fst (fea_table bs) ++ [e]) n = Some (if n =? List.length bs then e else fea_of bs n)).
  { intros e n Ln. rewrite app_length in Ln. cbn [List.length] in Ln. destruct (Nat.eqb_spec n (List.length bs)) as [->|Ne]; [rewrite nth_error_app2 by lia; rewrite L, Nat.sub_diag; reflexivity|]. rewrite nth_error_app1 by lia. apply H. lia. }
  destruct q; cbn [fst snd]; rewrite !app_length, L; cbn [List.length]; sp; auto; try lia; intros n Ln; rewrite N, Z by (rewrite app_length; cbn [List.length]; lia); reflexivity.
Qed.
Lemma count_le l n : count (firstn n l) <= count l.
Proof. rewrite <- (firstn_skipn n l) at 2. unfold count. rewrite filter_app, app_length. lia. Qed.
Lemma count_lt l n : nth n l false = true -> count (firstn n l) < count l.
Proof.
  intros E. assert (Ln : n < List.length l). { destruct (Nat.lt_ge_cases n (List.length l)); [auto|]. rewrite nth_overflow in E by auto. discriminate. }
  rewrite <- (firstn_skipn n l) at 2. unfold count. rewrite filter_app, app_length. rewrite <- (firstn_skipn n l) in E. rewrite app_nth2 in E by (rewrite firstn_length; lia). rewrite firstn_length, Nat.min_l, Nat.sub_diag in E by lia. destruct (skipn n l) as [|b r]; cbn in E; [discriminate|]. subst b. cbn. lia.
Qed.

(** ** Profiles *)

Lemma mapM_seq {B} (f : nat -> res B) n r : mapM f (seq 0 n) = Ok r -> forall i, i < n -> exists b, f i = Ok b /\ nth_error r i = Some b.
Proof. intros E i L. apply mapM_Ok in E. destruct (F2_nth _ _ _ i i E) as (b & N & H); [now apply nth_seq0|]. eauto. Qed.
Lemma offsets_ok width scen time links t : offsets width scen time links = Ok t -> forall n h, n < width -> h < scen ->
  exists l r, nth_error links (h * width + n) = Some l /\ at_ t n = Ok r /\ at_ r h = Ok (offset time l).
Proof.
  intros E n h Ln Lh. destruct (mapM_seq _ _ _ E n Ln) as (r & Er & N). destruct (mapM_seq _ _ _ Er h Lh) as (o & Eo & No). apply bind_inv in Eo as (l & El & Eo). injection Eo as <-. exists l, r. sp; [now apply at_nth|now apply at_nth|now apply at_nth].
Qed.
Lemma offsets_size width scen time links t n r h o : offsets width scen time links = Ok t -> at_ t n = Ok r -> at_ r h = Ok o -> n < width /\ h < scen.
Proof.
  intros E A B. assert (L : List.length t = width). { apply mapM_Ok in E. apply Forall2_length in E. now rewrite seq_length in E. } apply at_nth in A. assert (Ln : n < width) by (rewrite <- L; apply nth_error_Some; congruence). split; [exact Ln|].
  destruct (mapM_seq _ _ _ E n Ln) as (r' & Er & N). assert (r' = r) by congruence. subst r'. assert (L2 : List.length r = scen). { apply mapM_Ok in Er. apply Forall2_length in Er. now rewrite seq_length in Er. } rewrite <- L2. apply at_nth in B. apply nth_error_Some. congruence.
Qed.

(** ** initialise *)

Section Init.
Variable cf : list Q -> nat -> res (list Q).
Lemma initialise_inv W M : initialise cf W = Ok M ->
  exists gs, all_gens (w_conv W) (w_column W) (w_machines W) (w_hyd W) (w_plants W) (w_farms W) = Ok gs
  /\ build_grid (numbers W) (w_branches W) (w_secflag W) (w_security W) = Ok (m_grid M) /\ check_security (n_bra W) (security W) = Ok tt /\ m_cases M = List.length (security W)
  /\ (if w_losses W then chords (w_points W) else Ok []) = Ok (m_chords M) /\ pump_table (n_bus W) (w_pumps W) = Ok (m_pump M) /\ m_fea M = fst (fea_table (w_buses W)) /\ m_nofea M = snd (fea_table (w_buses W))
  /\ m_load M = map (load_of (w_base W)) (w_buses W)
  /\ (if 0 <? w_nodem W then offsets (n_bus W) (w_scen W) (w_time W) (links_of (n_bus W) (w_scen W) (w_links W)) else Ok (repeat (repeat 0%Z (w_scen W)) (n_bus W))) = Ok (m_offset M)
  /\ offsets (n_ren W) (w_scen W) (w_time W) (res_links W) = Ok (m_roffset M)
  /\ match w_cool W with None => Ok None | Some C => do d <- derating cf C (n_conv W); Ok (Some d) end = Ok (m_derate M)
  /\ build_fleet (numbers W) (w_base W) (w_pieces W) gs = Ok (m_fleet M) /\ stor_table (n_bus W) (w_scen W) (w_stores W) = Ok (m_stor M) /\ previous (w_time W) = Ok (m_prev M)
  /\ m_weights M = match w_weights W with Some l => l | None => repeat 1%Q (w_time W) end
  /\ exists a r, ancillary W = Ok a /\ support W = Ok r /\ m_serv M = fst a + fst r /\ m_lanc M = snd a /\ m_lres M = snd r.
Proof.
  unfold initialise. intros E. apply bind_inv in E as (gs & E1 & E). apply bind_inv in E as (G & E2 & E). apply bind_inv in E as (u & E3 & E). destruct u. apply bind_inv in E as (ch & E4 & E). apply bind_inv in E as (pt & E5 & E). apply bind_inv in E as (off & E6 & E). apply bind_inv in E as (roff & E7 & E).
  apply bind_inv in E as (der & E8 & E). apply bind_inv in E as (F & E9 & E). apply bind_inv in E as (st & E10 & E). apply bind_inv in E as (pv & E11 & E). apply bind_inv in E as (a & E12 & E). apply bind_inv in E as (r & E13 & E). injection E as <-. cbn. exists gs. sp; auto. exists a, r. sp; auto.
Qed.
Lemma previous_ok time l : previous time = Ok l -> 0 < time /\ List.length l = time /\ forall t, t < time -> nth_error l t = Some (before time t).
Proof. destruct time as [|n]; cbn [previous]; [discriminate|]. intros [= <-]. sp; [lia|cbn; now rewrite seq_length|]. intros [|t] L; unfold before; cbn [Nat.eqb nth_error]; [f_equal; lia|]. rewrite nth_seq0 by lia. f_equal. lia. Qed.
Lemma init_secs W M : initialise cf W = Ok M -> branch_numbers (n_bra W) (security W).
Proof. intros E. apply initialise_inv in E as (gs & _ & _ & E & _). now apply check_security_spec. Qed.
End Init.

(** ** Rules of an answer *)

Section Rules.
Variables (W : power) (M : model) (s : var -> Q).
Lemma over2_iff (f : nat -> nat -> res (option constr)) l1 l2 : (exists cs, over2 f l1 l2 = Ok cs /\ Forall (sat s) cs) <-> forall a b, In a l1 -> In b l2 -> holds s (f a b).
Proof. unfold over2. rewrite family_iff. split; [intros H a b Ia Ib; apply (H (a, b)); now apply in_prod|intros H (a, b) I; apply in_prod_iff in I as (Ia & Ib); now apply H]. Qed.
Lemma over3_iff (f : nat -> nat -> nat -> res (option constr)) l1 l2 l3 : (exists cs, over3 f l1 l2 l3 = Ok cs /\ Forall (sat s) cs) <-> forall a b c, In a l1 -> In b l2 -> In c l3 -> holds s (f a b c).
Proof. unfold over3. rewrite family_iff. split; [intros H a b c Ia Ib Ic; apply (H (a, b, c)); apply in_prod; auto; now apply in_prod|intros H ((a, b), c) I; apply in_prod_iff in I as (I & Ic); apply in_prod_iff in I as (Ia & Ib); now apply H]. Qed.
Lemma over4_iff (f : nat -> nat -> nat -> nat -> res (option constr)) l1 l2 l3 l4 : (exists cs, over4 f l1 l2 l3 l4 = Ok cs /\ Forall (sat s) cs) <-> forall a b c d, In a l1 -> In b l2 -> In c l3 -> In d l4 -> holds s (f a b c d).
Proof.
  unfold over4. rewrite family_iff. split; [intros H a b c d Ia Ib Ic Id; apply (H (a, b, c, d)); apply in_prod; auto; apply in_prod; auto; now apply in_prod|].
  intros H (((a, b), c), d) I. apply in_prod_iff in I as (I & Id). apply in_prod_iff in I as (I & Ic). apply in_prod_iff in I as (Ia & Ib). now apply H.
Qed.
Lemma bind_app {P : Prop} (m : res (list constr)) (k : list constr -> res (list constr)) cs : rbind m k = Ok cs -> (forall a, m = Ok a -> k a = Ok cs -> P) -> P.
Proof. intros E H. apply bind_inv in E as (a & Ea & E). eauto. Qed.
Definition rule2 (f : nat -> nat -> res (option constr)) (n1 n2 : nat) : Prop := forall a b, a < n1 -> b < n2 -> holds s (f a b).
Definition rule3 (f : nat -> nat -> nat -> res (option constr)) (n1 n2 n3 : nat) : Prop := forall a b c, a < n1 -> b < n2 -> c < n3 -> holds s (f a b c).
Definition rule4 (f : nat -> nat -> nat -> nat -> res (option constr)) (n1 n2 n3 n4 : nat) : Prop := forall a b c d, a < n1 -> b < n2 -> c < n3 -> d < n4 -> holds s (f a b c d).
Lemma over2_rule f n1 n2 cs : over2 f (seq 0 n1) (seq 0 n2) = Ok cs -> Forall (sat s) cs -> rule2 f n1 n2.
Proof. intros E F a b La Lb. refine (proj1 (over2_iff f _ _) (ex_intro _ cs (conj E F)) a b _ _); apply in_seq; lia. Qed.
Lemma over3_rule f n1 n2 n3 cs : over3 f (seq 0 n1) (seq 0 n2) (seq 0 n3) = Ok cs -> Forall (sat s) cs -> rule3 f n1 n2 n3.
Proof. intros E F a b c La Lb Lc. refine (proj1 (over3_iff f _ _ _) (ex_intro _ cs (conj E F)) a b c _ _ _); apply in_seq; lia. Qed.
Lemma over4_rule f n1 n2 n3 n4 cs : over4 f (seq 0 n1) (seq 0 n2) (seq 0 n3) (seq 0 n4) = Ok cs -> Forall (sat s) cs -> rule4 f n1 n2 n3 n4.
Proof. intros E F a b c d La Lb Lc Ld. refine (proj1 (over4_iff f _ _ _ _) (ex_intro _ cs (conj E F)) a b c d _ _ _ _); apply in_seq; lia. Qed.

Definition network_rules : Prop :=
  let T := w_time W in let H := w_noh W in let S := m_cases M + 1 in
  rule4 (flow_rule W M) T (n_bra W) S H /\ rule4 (limit_rule W M true) T (n_bra W) S H /\ rule4 (limit_rule W M false) T (n_bra W) S H
  /\ (w_losses W = true -> rule4 (loss_rule W M false) (n_bra W) (List.length (m_chords M)) T H /\ rule4 (loss_rule W M true) (n_bra W) (List.length (m_chords M)) T H)
  /\ rule4 (balance_rule W M) (n_bus W) T S H.
Definition unit_rules : Prop :=
  let T := w_time W in let H := w_noh W in let N := n_gen W in
  if w_uc W then rule3 (max_uc_rule W M) N T H /\ rule3 (min_uc_rule W M) N T H /\ rule3 (turn_rule W M false) N T H /\ rule3 (turn_rule W M true) N T H /\ rule3 (hold_rule W M false) N T H /\ rule3 (hold_rule W M true) N T H
  else rule3 (max_rule W M) N T H /\ rule3 (min_rule W M) N T H.
Definition service_rules : Prop :=
  let T := w_time W in let H := w_noh W in
  (services M = true -> rule2 (services_rule W M) T H /\ (0 < m_lanc M -> rule2 (fun t h => service_rule W M (h * m_serv M) t h) T H /\ rule2 (ancillary_rule W M) T H)
     /\ (0 < m_lres M -> rule2 (fun t h => service_rule W M (m_serv M * (h + 1) - 1) t h) T H /\ rule2 (unc_rule W M true) T H))
  /\ (m_lres M = 0 -> 0 < n_ren W -> exists o, at_ (w_unc W) 0 = Ok o /\ (given o = true -> rule2 (unc_rule W M false) T H)).
Definition all_rules : Prop :=
  let T := w_time W in let H := w_noh W in let N := n_gen W in
  (if w_flag W then network_rules else rule3 (balance0_rule W M) T (m_cases M + 1) H)
  /\ (positive (qsum (hs_base (w_hyd W))) = true -> rule3 (baseload_rule W M) N T H)
  /\ unit_rules /\ rule4 (cost_rule W M) N (most_pieces (fl_units (m_fleet M))) T H /\ rule3 (pump_max_rule W M) (n_pump W) T H /\ rule2 (pump_ini_rule W M) T H /\ rule3 (res_rule W M) T (n_ren W) H
  /\ n_stor W = 0 /\ (forall t, t < T -> holds s (store0_rule W M t)) /\ rule3 (ramp_rule W M true) N T H /\ rule3 (ramp_rule W M false) N T H /\ service_rules.
Lemma network_ok cs : network_constraints W M = Ok cs -> Forall (sat s) cs -> network_rules.
Proof.
  unfold network_constraints, s_tim, s_bra, s_sec, s_con, s_bus. intros E F. apply bind_inv in E as (a & Ea & E). apply bind_inv in E as (b & Eb & E). apply bind_inv in E as (c & Ec & E). apply bind_inv in E as (d & Ed & E). apply bind_inv in E as (e & Ee & E). apply bind_inv in E as (f & Ef & E). injection E as <-. rewrite !Forall_app in F. destruct F as (Fa & Fb & Fc & Fd & Fe & Ff).
  unfold network_rules. cbv zeta. sp; try (eapply over4_rule; eassumption). intros L. rewrite L in *. cbn [optional] in *. split; eapply over4_rule; eassumption.
Qed.
Lemma units_ok cs : unit_constraints W M = Ok cs -> Forall (sat s) cs -> unit_rules.
Proof.
  unfold unit_constraints, unit_rules, s_tim, s_con, s_gen. cbv zeta. destruct (w_uc W); intros E F.
  - apply bind_inv in E as (a & Ea & E). apply bind_inv in E as (b & Eb & E). apply bind_inv in E as (c & Ec & E). apply bind_inv in E as (d & Ed & E). apply bind_inv in E as (e & Ee & E). apply bind_inv in E as (f & Ef & E). injection E as <-. rewrite !Forall_app in F. destruct F as (Fa & Fb & Fc & Fd & Fe & Ff). sp; eapply over3_rule; eassumption.
  - apply bind_inv in E as (a & Ea & E). apply bind_inv in E as (b & Eb & E). injection E as <-. rewrite !Forall_app in F. destruct F as (Fa & Fb). sp; eapply over3_rule; eassumption.
Qed.
Lemma services_ok cs : service_constraints W M = Ok cs -> Forall (sat s) cs -> service_rules.
Proof.
  unfold service_constraints, service_rules, s_tim, s_con. cbv zeta. intros E F. apply bind_inv in E as (a & Ea & E). apply bind_inv in E as (u & Eu & E). apply bind_inv in E as (b & Eb & E). injection E as <-. rewrite !Forall_app in F. destruct F as (Fa & Fb). split.
  - intros S. rewrite S in Ea. cbn [optional] in Ea. apply bind_inv in Ea as (x & Ex & Ea). apply bind_inv in Ea as (y & Ey & Ea). apply bind_inv in Ea as (z & Ez & Ea). injection Ea as <-. rewrite !Forall_app in Fa. destruct Fa as (Fx & Fy & Fz). split; [eapply over2_rule; eassumption|]. split.
    + intros L. apply Nat.ltb_lt in L. rewrite L in Ey. cbn [optional] in Ey. apply bind_inv in Ey as (p & Ep & Ey). apply bind_inv in Ey as (q & Eq & Ey). injection Ey as <-. rewrite !Forall_app in Fy. destruct Fy as (Fp & Fq). split; eapply over2_rule; eassumption.
    + intros L. apply Nat.ltb_lt in L. rewrite L in Ez. cbn [optional] in Ez. apply bind_inv in Ez as (p & Ep & Ez). apply bind_inv in Ez as (q & Eq & Ez). injection Ez as <-. rewrite !Forall_app in Fz. destruct Fz as (Fp & Fq). split; eapply over2_rule; eassumption.
  - intros L0 L1. apply Nat.ltb_lt in L1. rewrite L0, L1 in Eu. cbn [Nat.eqb andb] in Eu. apply bind_inv in Eu as (o & Eo & Eu). injection Eu as <-. exists o. split; [exact Eo|]. intros Gv. rewrite Gv in Eb. cbn [optional] in Eb. eapply over2_rule; eassumption.
Qed.
Lemma answer_rules : answer W M s -> all_rules /\ forall v, declared W M v = true -> domain v (s v).
Proof.
  intros (cs & E & F & D). split; [|exact D]. unfold constraints in E. apply bind_inv in E as (c1 & E1 & E). apply bind_inv in E as (c2 & E2 & E). apply bind_inv in E as (c3 & E3 & E). apply bind_inv in E as (c4 & E4 & E). apply bind_inv in E as (c5 & E5 & E). apply bind_inv in E as (c6 & E6 & E).
  apply bind_inv in E as (c7 & E7 & E). apply bind_inv in E as (u & Eu & E). apply bind_inv in E as (c8 & E8 & E). apply bind_inv in E as (c9 & E9 & E). apply bind_inv in E as (c10 & E10 & E). apply bind_inv in E as (c11 & E11 & E). injection E as <-. rewrite !Forall_app in F. destruct F as (F1 & F2 & F3 & F4 & F5 & F6 & F7 & F8 & F9 & F10 & F11).
  unfold all_rules. cbv zeta. unfold s_gen, s_tim, s_con, s_sec in *. sp.
  - destruct (w_flag W); [eapply network_ok; eassumption|eapply over3_rule; eassumption].
  - intros P. rewrite P in E2. cbn [optional] in E2. eapply over3_rule; eassumption.
  - eapply units_ok; eassumption.
  - eapply over4_rule; eassumption.
  - eapply over3_rule; eassumption.
  - eapply over2_rule; eassumption.
  - eapply over3_rule; eassumption.
  - destruct (Nat.ltb_spec 0 (n_stor W)); [discriminate|lia].
  - intros t Lt. refine (proj1 (family_iff s _ _) (ex_intro _ c8 (conj E8 F8)) t _). apply in_seq. lia.
  - eapply over3_rule; eassumption.
  - eapply over3_rule; eassumption.
  - eapply services_ok; eassumption.
Qed.

(** Values of expressions. *)
Lemma get_inv v e : get W M v = Ok e -> e = EV v /\ declared W M v = true.
Proof. unfold get. destruct (declared W M v); [intros [= <-]; auto|discriminate]. Qed.
Lemma gets_inv vs e : gets W M vs = Ok e -> (eval s e == qsum (map s vs))%Q /\ Forall (fun v => declared W M v = true) vs.
Proof.
  unfold gets. intros E. apply bind_inv in E as (l & El & E). injection E as <-. rewrite esum_eval. apply mapM_Ok in El. induction El as [|v x vs l H El (IH & D)]; [split; [reflexivity|constructor]|]. apply get_inv in H as (-> & Dv). split; [|now constructor]. cbn [map eval]. change (s v + qsum (map (eval s) l) == s v + qsum (map s vs))%Q. now rewrite IH.
Qed.
End Rules.
