(** Balance of power at every bus and in total. *)
From Coq Require Import List Bool Arith ZArith QArith Lia Lqa.
From Verif Require Import Base ReaderProofs GraphData GraphDataProofs Cases CasesProofs Network InputOutput InputOutputProofs ConverterOpen HydroSpec HydroTables HydroNet ScreeningProofs Linear LinearProofs Devices Power PowerSpec DevicesProofs FleetProofs PowerTables.
Import ListNotations.
Open Scope nat_scope.
Open Scope list_scope.
Local Ltac sp := repeat match goal with |- _ /\ _ => split end.

Lemma at_bus_ext numbers l n f g : (forall i, i < List.length l -> (f i == g i)%Q) -> (at_bus numbers l n f == at_bus numbers l n g)%Q.
Proof. intros H. unfold at_bus. apply below_ext. intros i L. destruct (first_at numbers (nth i l 0) n); [now apply H|reflexivity]. Qed.
Lemma at_bus_mul numbers l n k f : (at_bus numbers l n (fun i => k * f i) == k * at_bus numbers l n f)%Q.
Proof. unfold at_bus. rewrite <- below_mul. apply below_ext. intros i L. destruct (first_at numbers (nth i l 0) n); ring. Qed.
Lemma somes_sum {A} (f : A -> Q) l : (qsum (map f (somes l)) == qsum (map (fun o => match o with Some a => f a | None => 0 end) l))%Q.
Proof. induction l as [|[a|] l IH]; [reflexivity| |]; cbn [somes flat_map map app] in *; change (qsum (?x :: ?y)) with (x + qsum y)%Q; [|change (flat_map _ l) with (somes l)]; [change (flat_map _ l) with (somes l); now rewrite IH|rewrite IH; ring]. Qed.

Section Balance.
Variable cf : list Q -> nat -> res (list Q).
Variables (W : power) (M : model) (s : var -> Q).
Hypothesis I : initialise cf W = Ok M.
Hypothesis A : answer W M s.

Lemma gens_length gs : all_gens (w_conv W) (w_column W) (w_machines W) (w_hyd W) (w_plants W) (w_farms W) = Ok gs -> List.length gs = n_gen W /\ map ge_bus gs = gen_buses W.
Proof. intros E. apply all_gens_ok in E as (L & B & _). split; [exact L|exact B]. Qed.
Lemma gen_buses_length : List.length (gen_buses W) = n_gen W.
Proof. unfold gen_buses, n_gen, n_conv, n_hyd, n_ren. rewrite !app_length, !map_length. lia. Qed.
Lemma fleet_placed : placed (numbers W) (gen_buses W) (n_gen W) (fl_at (m_fleet M)).
Proof. destruct (initialise_inv _ _ _ I) as (gs & G & _ & _ & _ & _ & _ & _ & _ & _ & _ & _ & _ & F & _). apply gens_length in G as (L & B). apply build_fleet_ok in F as (P & _). rewrite B, L in P. exact P. Qed.
Lemma gens_at n : n < n_bus W -> exists gs, at_ (fl_at (m_fleet M)) n = Ok gs /\ forall f, (qsum (map f gs) == at_bus (numbers W) (gen_buses W) n f)%Q.
Proof.
  intros L. assert (L' : n < List.length (numbers W)) by (unfold numbers; now rewrite map_length). pose proof fleet_placed as (P1 & P2). eexists. split; [apply at_nth, P2; exact L'|].
  intros f. unfold at_bus, below. rewrite gen_buses_length. now rewrite qsum_filter.
Qed.
Lemma gen_buses_known : Forall (fun b => In b (numbers W)) (gen_buses W).
Proof.
  destruct (initialise_inv _ _ _ I) as (gs & G & _ & _ & _ & _ & _ & _ & _ & _ & _ & _ & _ & F & _). apply gens_length in G as (L & B). rewrite <- B. pose proof (proj1 (build_fleet_total _ _ _ _) (ex_intro _ _ F)) as H. rewrite Forall_forall. intros b Ib. apply in_map_iff in Ib as (g & <- & Ig). apply In_nth_error in Ig as (i & Ni). now apply (H i g).
Qed.
Lemma ends_known : Forall (fun b => In b (numbers W)) (froms W) /\ Forall (fun b => In b (numbers W)) (tos W).
Proof.
  destruct (initialise_inv _ _ _ I) as (gs & _ & G & _). pose proof (build_grid_cases (numbers W) (w_branches W) (w_secflag W) (w_security W)) as B. rewrite G in B. destruct B as (F & _). rewrite Forall_forall in F. split; rewrite Forall_forall; intros b Ib; apply in_map_iff in Ib as (br & <- & Ib); now apply F.
Qed.
Lemma load_at_ok n t h load d : n < n_bus W -> at_ (m_load M) n = Ok load -> demand_at W M n t h = Ok d -> load_at W n t h (load * d).
Proof.
  intros Ln El Ed. destruct (initialise_inv _ _ _ I) as (gs & _ & _ & _ & _ & _ & _ & _ & _ & EL & EO & _). rewrite EL in El. apply at_nth in El. rewrite nth_error_map in El. destruct (nth_error (w_buses W) n) as [b|] eqn:Nb; [|discriminate]. cbn in El. injection El as <-.
  exists b, d. split; [exact Nb|]. split; [|unfold load_of; ring]. unfold demand_at in Ed. apply bind_inv in Ed as (r & Er & Ed). apply bind_inv in Ed as (o & Eo & Ed). unfold profile_at, daux in *. destruct (Nat.eqb_spec (w_nodem W) 0) as [Z|Z].
  - rewrite Z in EO. cbn [Nat.ltb Nat.leb] in EO. injection EO as EO. rewrite <- EO in Er. apply at_nth in Er. assert (r = repeat 0%Z (w_scen W)) by (apply nth_error_In in Er; now apply repeat_spec in Er). subst r. apply at_nth in Eo. assert (o = 0%Z) by (apply nth_error_In in Eo; now apply repeat_spec in Eo). subst o. rewrite Nat.mul_0_r in Ed. change (Z.of_nat 0 + 0)%Z with (Z.of_nat 0) in Ed. rewrite py_index_nat in Ed. destruct (nth_error (w_demand W) 0); [congruence|discriminate].
  - replace (0 <? w_nodem W) with true in EO by (symmetry; apply Nat.ltb_lt; lia). destruct (offsets_size _ _ _ _ _ _ _ _ _ EO Er Eo) as (_ & Lh). destruct (offsets_ok _ _ _ _ _ EO n h Ln Lh) as (l & r' & Nl & Er' & Eo'). assert (r' = r) by congruence. subst r'. assert (o = offset (w_time W) l) by congruence. subst o. exists l. split; [exact Nl|]. unfold offset in Ed. rewrite Nat.mul_1_r, Z.add_comm in Ed. exact Ed.
Qed.
Lemma no_store : n_stor W = 0.
Proof. apply answer_rules in A as (R & _). unfold all_rules in R. tauto. Qed.
Lemma stor_zero n r h i : at_ (m_stor M) n = Ok r -> at_ r h = Ok i -> i = 0.
Proof.
  destruct (initialise_inv _ _ _ I) as (gs & _ & _ & _ & _ & _ & _ & _ & _ & _ & _ & _ & _ & _ & ES & _). pose proof no_store as N. unfold n_stor in N. destruct (w_stores W); [|discriminate]. unfold stor_table in ES. cbn [List.length seq combine] in ES.
  assert (P : forall l : list nat, list_prod l (@nil (nat * store_)) = []) by (induction l; auto). rewrite P in ES. cbn in ES. injection ES as ES. intros Er Ei. rewrite <- ES in Er. apply at_nth, nth_error_In, repeat_spec in Er. subst r. now apply at_nth, nth_error_In, repeat_spec in Ei.
Qed.
Lemma pump_ok n t h pn e : n < n_bus W -> t < w_time W -> h < w_noh W -> at_ (m_pump M) n = Ok pn -> get W M (NPump (con_pump W h + pn) t) = Ok e -> (eval s e == pumped W s h t n)%Q.
Proof.
  intros Ln Lt Lh Ep Eg. apply get_inv in Eg as (-> & D). destruct (initialise_inv _ _ _ I) as (gs & _ & _ & _ & _ & _ & EP & _). apply pump_table_ok in EP as (_ & EP). apply at_nth in Ep. rewrite EP in Ep by exact Ln. unfold pumped, pump_at. change (n_pump W) with (List.length (w_pumps W)).
  destruct (find _ _) as [p|]; injection Ep as <-; cbn [eval]; unfold pump_power, con_pump.
  - change (n_pump W) with (List.length (w_pumps W)). replace (h * (List.length (w_pumps W) + 1) + S p) with (h * (List.length (w_pumps W) + 1) + p + 1) by lia. reflexivity.
  - rewrite Nat.add_0_r. apply answer_rules in A as (R & _). destruct R as (_ & _ & _ & _ & _ & R & _). destruct (R t h Lt Lh) as (o & E & S). unfold pump_ini_rule in E. apply bind_inv in E as (e & Eg & E). apply get_inv in Eg as (-> & _). injection E as <-. specialize (S _ eq_refl). exact S.
Qed.
Lemma nofea_count : m_nofea M = count (loaded W).
Proof. destruct (initialise_inv _ _ _ I) as (gs & _ & _ & _ & _ & _ & _ & _ & EN & _). rewrite EN. apply fea_table_ok. Qed.
Lemma fea_ok n t h fe e : n < n_bus W -> at_ (m_fea M) n = Ok fe -> gets W M (map (fun _ => NFea (con_fea M h + snd fe) t) (seq 0 (fst fe))) = Ok e -> (eval s e == curtailed W s h t n)%Q.
Proof.
  intros Ln Ef Eg. apply (gets_inv W M s) in Eg as (V & _). rewrite V. destruct (initialise_inv _ _ _ I) as (gs & _ & _ & _ & _ & _ & _ & EF & _). rewrite EF in Ef. apply at_nth in Ef. rewrite (proj2 (proj2 (fea_table_ok (w_buses W)))) in Ef by exact Ln. injection Ef as <-.
  unfold curtailed, con_fea, fea_of. rewrite nofea_count. fold (loaded W). destruct (nth n (loaded W) false); cbn [fst snd seq map]; [|reflexivity]. cbn. ring.
Qed.
Lemma gen_sum_ok h t l e : gen_sum W M h t l = Ok e -> (eval s e == qsum (map (output W s h t) l))%Q.
Proof. intros E. apply (gets_inv W M s) in E as (V & _). rewrite V, map_map. reflexivity. Qed.

(** ** Network *)

Hypothesis NF : w_secflag W = false.
Lemma security_same : security W = w_security W.
Proof. unfold security. rewrite NF. now destruct (w_security W). Qed.
Lemma cases_same : m_cases M = List.length (w_security W).
Proof. destruct (initialise_inv _ _ _ I) as (gs & _ & _ & _ & E & _). now rewrite E, security_same. Qed.
Lemma secs_valid : branch_numbers (n_bra W) (w_security W).
Proof. rewrite <- security_same. exact (init_secs _ _ _ I). Qed.
Lemma grid_facts : ends_ok (numbers W) (w_branches W) (g_ends (m_grid M)) /\ placed (numbers W) (froms W) (n_bra W) (g_from (m_grid M)) /\ placed (numbers W) (tos W) (n_bra W) (g_to (m_grid M))
  /\ g_n1 (m_grid M) = fst (case_rows (n_bra W) (w_security W)).
Proof. destruct (initialise_inv _ _ _ I) as (gs & _ & G & _). pose proof (build_grid_cases (numbers W) (w_branches W) (w_secflag W) (w_security W)) as B. rewrite G in B. rewrite NF in B. destruct B as (_ & E & F & T & N). sp; assumption. Qed.
Lemma flow_no_ok xs b : xs <= List.length (w_security W) -> b < n_bra W -> flow_no (m_grid M) xs b = Ok (flow_index (n_bra W) (w_security W) xs b).
Proof. intros Lx Lb. apply flow_no_spec; auto; [apply grid_facts|apply secs_valid]. Qed.
Lemma flows_sum l tab n xs fl f : placed (numbers W) l (n_bra W) tab -> List.length l = n_bra W -> n < n_bus W -> xs <= List.length (w_security W) -> flows_at (m_grid M) tab n xs = Ok fl ->
  (qsum (map f fl) == at_bus (numbers W) l n (fun b => match flow_index (n_bra W) (w_security W) xs b with Some i => f i | None => 0 end))%Q.
Proof.
  intros P L Ln Lx E. unfold flows_at in E. apply bind_inv in E as (bs & Eb & E). apply bind_inv in E as (os & Eo & E). injection E as <-. 
  assert (os = map (flow_index (n_bra W) (w_security W) xs) bs). { apply mapM_Ok in Eo. assert (Bd : forall i, In i bs -> i < n_bra W) by (intros i Ii; eapply placed_bound; eauto). clear Eb. induction Eo as [|b o bs os H Eo IH]; [reflexivity|]. cbn [map]. rewrite flow_no_ok in H by (auto; apply Bd; now left). injection H as <-. f_equal. apply IH. intros i Ii. apply Bd. now right. }
  subst os. rewrite somes_sum, map_map. rewrite <- L in P. assert (Ln' : n < List.length (numbers W)) by (unfold numbers; now rewrite map_length). destruct (placed_sum _ _ _ n (fun b => match flow_index (n_bra W) (w_security W) xs b with Some i => f i | None => 0%Q end) P Ln') as (bs' & Eb' & S). assert (bs' = bs) by congruence. subst bs'. exact S.
Qed.
Lemma ends_length : List.length (froms W) = n_bra W /\ List.length (tos W) = n_bra W.
Proof. unfold froms, tos, n_bra. now rewrite !map_length. Qed.
Lemma all_flows_same : all_flows W M = n_bra W + (n_bra W - 1) * List.length (w_security W).
Proof. unfold all_flows. now rewrite cases_same. Qed.
Lemma flow_sum_ok l tab n xs h t fl e : placed (numbers W) l (n_bra W) tab -> List.length l = n_bra W -> n < n_bus W -> xs <= List.length (w_security W) -> flows_at (m_grid M) tab n xs = Ok fl ->
  gets W M (map (fun x => NFlow (con_flow W M h + x) t) fl) = Ok e -> (eval s e == at_bus (numbers W) l n (flow W s h t xs))%Q.
Proof.
  intros P L Ln Lx Ef Eg. apply (gets_inv W M s) in Eg as (V & _). rewrite V, map_map. rewrite (flows_sum l tab n xs fl (fun x => s (NFlow (con_flow W M h + x) t)) P L Ln Lx Ef). apply at_bus_ext. intros i Li. unfold flow, con_flow. rewrite all_flows_same. destruct (flow_index _ _ _ _); reflexivity.
Qed.
Lemma half_ok l tab n xs h t fl e : placed (numbers W) l (n_bra W) tab -> List.length l = n_bra W -> n < n_bus W -> xs <= List.length (w_security W) -> flows_at (m_grid M) tab n xs = Ok fl ->
  half_losses W M n t h tab fl = Ok e -> (eval s e == (1 # 2) * at_bus (numbers W) l n (branch_loss W s h t xs))%Q.
Proof.
  intros P L Ln Lx Ef Eh. unfold half_losses in Eh. assert (Ln' : n < List.length (numbers W)) by (unfold numbers; now rewrite map_length). destruct (w_losses W) eqn:EL.
  - apply bind_inv in Eh as (bs & Eb & Eh). apply bind_inv in Eh as (x & Eg & Eh). injection Eh as <-. apply (gets_inv W M s) in Eg as (V & _). cbn [eval]. rewrite V, map_map. rewrite <- L in P. destruct (placed_sum _ _ _ n (fun b => s (NLoss (con_loss W h + b) t)) P Ln') as (bs' & Eb' & S). assert (bs' = bs) by congruence. subst bs'. rewrite S.
    apply Qmult_comp; [reflexivity|]. apply at_bus_ext. intros i Li. unfold branch_loss. rewrite EL. reflexivity.
  - apply bind_inv in Eh as (ls & El & Eh). injection Eh as <-. cbn [eval]. assert (S : (qsum ls == qsum (map (fun i => nth i (map br_loss (w_branches W)) 0%Q) fl))%Q /\ forall i, In i fl -> i < n_bra W).
    { clear Ef. apply mapM_Ok in El. induction El as [|i q fl ls H El (IH & B)]; [split; [reflexivity|intros i []]|]. apply bind_inv in H as (b & Eb & H). injection H as <-. apply at_nth in Eb. split.
      - cbn [map]. change (br_loss b + qsum ls == nth i (map br_loss (w_branches W)) 0 + qsum (map (fun i => nth i (map br_loss (w_branches W)) 0) fl))%Q. rewrite IH. rewrite (nth_error_nth (map br_loss (w_branches W)) i 0%Q (x := br_loss b)); [reflexivity|]. now rewrite nth_error_map, Eb.
      - intros j [<-|Ij]; [|now apply B]. apply nth_error_Some. congruence. }
    destruct S as (S & B). rewrite S. rewrite (flows_sum l tab n xs fl (fun i => nth i (map br_loss (w_branches W)) 0%Q) P L Ln Lx Ef).
    transitivity ((1 # 2) * at_bus (numbers W) l n (fun b => / w_base W * match flow_index (n_bra W) (w_security W) xs b with Some i => nth i (map br_loss (w_branches W)) 0 | None => 0 end))%Q. { rewrite at_bus_mul. unfold Qdiv. ring. }
    apply Qmult_comp; [reflexivity|]. unfold at_bus. apply below_ext. intros b Lb. destruct (first_at (numbers W) (nth b l 0) n) eqn:Fa; [|reflexivity]. unfold branch_loss. rewrite EL. rewrite L in Lb. destruct (flow_index (n_bra W) (w_security W) xs b) as [i|] eqn:Fi; [|ring].
    assert (Ii : In i fl). { unfold flows_at in Ef. apply bind_inv in Ef as (bs & Eb & Ef). apply bind_inv in Ef as (os & Eo & Ef). injection Ef as <-. apply somes_in. apply mapM_Ok in Eo. assert (Ib : In b bs). { destruct P as (_ & P). apply at_nth in Eb. rewrite P in Eb by exact Ln'. injection Eb as <-. apply filter_In. split; [apply in_seq; lia|exact Fa]. }
      apply In_nth_error in Ib as (k & Nk). destruct (F2_nth _ _ _ _ _ Eo Nk) as (o & No & Ho). rewrite flow_no_ok in Ho by auto. rewrite Fi in Ho. injection Ho as <-. eapply nth_error_In; eauto. }
    specialize (B i Ii). destruct xs as [|k]; [cbn [flow_index] in Fi; injection Fi as ->; unfold Qdiv; ring|]. destruct (flow_index_case _ _ _ _ _ secs_valid Lb Fi) as (j & _ & ->). exfalso. revert B. generalize (k * (n_bra W - 1)). intros. lia.
Qed.
Theorem bus_balance : w_flag W = true -> forall n t xs h, n < n_bus W -> t < w_time W -> xs <= List.length (w_security W) -> h < w_noh W -> exists q, load_at W n t h q /\ balanced W s h t xs n q.
Proof.
  intros FL n t xs h Ln Lt Lx Lh. pose proof (proj1 (answer_rules _ _ _ A)) as R. destruct R as (R & _). rewrite FL in R. destruct R as (_ & _ & _ & _ & R). destruct (R n t xs h Ln Lt ltac:(rewrite cases_same; lia) Lh) as (o & E & S). clear R. unfold balance_rule in E.
  apply bind_inv in E as (sr & Esr & E). apply bind_inv in E as (si & Esi & E). pose proof (stor_zero _ _ _ _ Esr Esi) as ->. cbn [Nat.eqb] in E. rewrite bind_ok in E. apply bind_inv in E as (fin & Ein & E). apply bind_inv in E as (fout & Eout & E). apply bind_inv in E as (lf & Elf & E). apply bind_inv in E as (lt & Elt & E).
  apply bind_inv in E as (gs & Egs & E). apply bind_inv in E as (g & Eg & E). apply bind_inv in E as (i & Ei & E). apply bind_inv in E as (load & Eload & E). apply bind_inv in E as (d & Ed & E). apply bind_inv in E as (sc & Esc & E). apply bind_inv in E as (fe & Efe & E). apply bind_inv in E as (c & Ec & E). apply bind_inv in E as (pn & Epn & E). apply bind_inv in E as (p & Ep & E). apply bind_inv in E as (ou & Eou & E). injection E as <-.
  specialize (S _ eq_refl). cbn [sat eval] in S. exists (load * d)%Q. split; [now apply load_at_ok|]. destruct grid_facts as (_ & PF & PT & _). destruct ends_length as (LF & LT).
  rewrite (half_ok _ _ _ _ _ _ _ _ PF LF Ln Lx Eout Elf), (half_ok _ _ _ _ _ _ _ _ PT LT Ln Lx Ein Elt), (flow_sum_ok _ _ _ _ _ _ _ _ PT LT Ln Lx Ein Ei), (flow_sum_ok _ _ _ _ _ _ _ _ PF LF Ln Lx Eout Eou) in S. rewrite (fea_ok _ _ _ _ _ Ln Efe Ec), (pump_ok _ _ _ _ _ Ln Lt Lh Epn Ep), (gen_sum_ok _ _ _ _ Eg) in S.
  destruct (gens_at n Ln) as (gs' & Egs' & SG). assert (gs' = gs) by congruence. subst gs'. rewrite SG in S.
  assert (Z : (eval s sc == 0)%Q). { unfold store_change in Esc. apply bind_inv in Esc as (x & _ & Esc). apply bind_inv in Esc as (w & _ & Esc). apply bind_inv in Esc as (a & _ & Esc). apply bind_inv in Esc as (b & _ & Esc). injection Esc as <-. cbn [eval]. unfold Qdiv. ring. } rewrite Z in S.
  unfold balanced, load_factor. rewrite FL. cbn [andb]. change (loss_factor W) with (extra W) in S. destruct (w_losses W); lra.
Qed.
Lemma sum_loads h t : (forall n, n < n_bus W -> exists q, load_at W n t h q) -> exists f, forall n, n < n_bus W -> load_at W n t h (f n).
Proof.
  assert (X : forall k, (forall n, n < k -> exists q, load_at W n t h q) -> exists f, forall n, n < k -> load_at W n t h (f n)).
  { induction k as [|k IH]; intros H; [exists (fun _ => 0%Q); intros n L; lia|]. destruct IH as (f & Hf); [intros n L; apply H; lia|]. destruct (H k) as (q & Hq); [lia|]. exists (fun n => if n =? k then q else f n). intros n L. destruct (Nat.eqb_spec n k) as [->|]; [exact Hq|apply Hf; lia]. }
  apply X.
Qed.
Theorem total_balance : w_flag W = true -> forall t xs h, t < w_time W -> xs <= List.length (w_security W) -> h < w_noh W -> exists q, (forall n, n < n_bus W -> load_at W n t h (q n))
  /\ (below (n_gen W) (output W s h t) + below (n_bus W) (curtailed W s h t) == load_factor W * below (n_bus W) q + below (n_bus W) (pumped W s h t) + below (n_bra W) (branch_loss W s h t xs))%Q.
Proof.
  intros FL t xs h Lt Lx Lh. assert (X : forall k, k <= n_bus W -> exists q, forall n, n < k -> load_at W n t h (q n) /\ balanced W s h t xs n (q n)).
  { induction k as [|k IH]; intros Lk; [exists (fun _ => 0%Q); intros n L; lia|]. destruct IH as (q & Hq); [lia|]. destruct (bus_balance FL k t xs h ltac:(lia) Lt Lx Lh) as (x & Hx). exists (fun n => if n =? k then x else q n). intros n L. destruct (Nat.eqb_spec n k) as [->|]; [exact Hx|apply Hq; lia]. }
  destruct (X (n_bus W) (le_n _)) as (q & Hq). exists q. split; [intros n L; now apply Hq|]. assert (S : forall k, k <= n_bus W -> (below k (fun n => at_bus (numbers W) (gen_buses W) n (output W s h t)) + (below k (fun n => at_bus (numbers W) (tos W) n (flow W s h t xs)) - below k (fun n => at_bus (numbers W) (froms W) n (flow W s h t xs)))
     - (1 # 2) * (below k (fun n => at_bus (numbers W) (tos W) n (branch_loss W s h t xs)) + below k (fun n => at_bus (numbers W) (froms W) n (branch_loss W s h t xs))) + below k (curtailed W s h t) == load_factor W * below k q + below k (pumped W s h t))%Q).
  { induction k as [|k IH]; intros Lk; [unfold below; cbn; ring|]. rewrite !below_S. specialize (IH ltac:(lia)). destruct (Hq k ltac:(lia)) as (_ & B). unfold balanced in B. set (LFk := load_factor W) in *. lra. }
  specialize (S _ (le_n _)). assert (NB : n_bus W = List.length (numbers W)) by (unfold numbers; now rewrite map_length). destruct ends_known as (KF & KT). destruct ends_length as (LF & LT).
  rewrite NB in S. rewrite !at_bus_total in S by (auto; apply gen_buses_known). rewrite LF, LT, gen_buses_length in S. rewrite <- NB in S. set (LFk := load_factor W) in *. lra.
Qed.
End Balance.
