(** The reports of the joint model. *)
From Coq Require Import List Bool Arith ZArith QArith Lia Lqa.
From Verif Require Import Base GraphData GraphDataProofs Cases CasesProofs ConverterOpen HydroSpec HydroTables ScreeningProofs Linear LinearProofs Devices Joint JointSpec JointEnergy JointCost Reports ReportsSpec ReportsSetters.
From Verif Require Power PowerSpec PowerTables PowerBalance PowerLimits PowerUnits EnergyTree Hydro.
Import ListNotations.
Open Scope nat_scope.
Open Scope list_scope.

Local Ltac sp := repeat match goal with |- _ /\ _ => split end.

(** ** Sums *)

Lemma sum_fold {A} (g : A -> res Q) (q : A -> Q) (c : A -> res Q) (k : A -> Q) l : forall a,
  (forall x, In x l -> g x = Ok (q x)) -> (forall x, In x l -> c x = Ok (k x)) ->
  exists r, foldM (fun a x => do q <- g x; do w <- c x; Ok (a + q * w)%Q) l a = Ok r /\ (r == a + qsum (map (fun x => k x * q x) l))%Q.
Proof.
  induction l as [|x l IH]; intros a G C; [exists a; split; [reflexivity|cbn; ring]|]. cbn [foldM]. rewrite (G x), (C x) by now left. rewrite !bind_ok. destruct (IH (a + q x * k x)%Q) as (r & E & R); [intros y I; apply G; now right|intros y I; apply C; now right|].
  exists r. split; [exact E|]. rewrite R. cbn [map]. change (qsum (?u :: ?v)) with (u + qsum v)%Q. ring.
Qed.
Lemma sum_fold2 {A} (g : A -> res Q) (q : A -> Q) (c : A -> res Q) (k : A -> Q) l : forall a,
  (forall x, In x l -> exists r, g x = Ok r /\ (r == q x)%Q) -> (forall x, In x l -> c x = Ok (k x)) ->
  exists r, foldM (fun a x => do q <- g x; do w <- c x; Ok (a + q * w)%Q) l a = Ok r /\ (r == a + qsum (map (fun x => k x * q x) l))%Q.
Proof.
  induction l as [|x l IH]; intros a G C; [exists a; split; [reflexivity|cbn; ring]|]. cbn [foldM]. destruct (G x) as (p & Gx & Px); [now left|]. rewrite Gx, (C x) by now left. rewrite !bind_ok. destruct (IH (a + p * k x)%Q) as (r & E & R); [intros y I; apply G; now right|intros y I; apply C; now right|].
  exists r. split; [exact E|]. rewrite R, Px. cbn [map]. change (qsum (?u :: ?v)) with (u + qsum v)%Q. ring.
Qed.
Lemma add_all_ok {A} (g : A -> res Q) (q : A -> Q) l : (forall x, In x l -> exists r, g x = Ok r /\ (r == q x)%Q) -> exists r, add_all g l = Ok r /\ (r == qsum (map q l))%Q.
Proof.
  intros G. unfold add_all. assert (X : forall a, exists r, foldM (fun v x => do q <- g x; Ok (v + q)%Q) l a = Ok r /\ (r == a + qsum (map q l))%Q).
  { induction l as [|x l IH]; intros a; [exists a; split; [reflexivity|cbn; ring]|]. cbn [foldM]. destruct (G x) as (p & Gx & Px); [now left|]. rewrite Gx, !bind_ok. destruct (IH (fun y I => G y (or_intror I)) (a + p)%Q) as (r & E & R). exists r. split; [exact E|]. rewrite R, Px. cbn [map]. change (qsum (?u :: ?v)) with (u + qsum v)%Q. ring. }
  destruct (X 0%Q) as (r & E & R). exists r. split; [exact E|]. rewrite R. ring.
Qed.
Lemma add_all_app {A} (g : A -> res Q) l1 l2 r : add_all g (l1 ++ l2) = Ok r -> exists a b, add_all g l1 = Ok a /\ add_all g l2 = Ok b /\ (r == a + b)%Q.
Proof.
  unfold add_all. rewrite foldM_app. intros E. apply bind_inv in E as (a & Ea & E). assert (X : forall l a r, foldM (fun v x => do q <- g x; Ok (v + q)%Q) l a = Ok r -> forall c, exists b, foldM (fun v x => do q <- g x; Ok (v + q)%Q) l c = Ok b /\ (r - a == b - c)%Q).
  { clear. induction l as [|x l IH]; intros a r E c; cbn [foldM] in E |- *; [injection E as <-; exists c; split; [reflexivity|ring]|]. apply bind_inv in E as (v & Ev & E). apply bind_inv in Ev as (q & Eq & Ev). injection Ev as <-. rewrite Eq, !bind_ok. destruct (IH _ _ E (c + q)%Q) as (b & Eb & B). exists b. split; [exact Eb|]. assert (Y : (r == (b - (c + q)) + (a + q))%Q) by (rewrite <- B; ring). rewrite Y. ring. }
  destruct (X _ _ _ E 0%Q) as (b & Eb & B). exists a, b. sp; auto. assert (Y : (r == (b - 0) + a)%Q) by (rewrite <- B; ring). rewrite Y. ring.
Qed.

Section Shares.
Variables (K : joint) (f : list Q) (s : var -> Q) (o : options).
Hypothesis OK : askable K f o.
Lemma at_ok {A} (l : list A) i d : i < List.length l -> at_ l i = Ok (nth i l d).
Proof. intros L. apply at_nth, nth_error_nth'. exact L. Qed.
Lemma time_share t : In t (steps K o) -> at_ (time_weights K o) t = Ok (step_share K o t).
Proof.
  intros I. destruct OK as (T & _ & Ww). rewrite Forall_forall in T. specialize (T t I). unfold time_weights, step_share, times. rewrite seq_length. destruct (o_snapshot o); [apply at_nth, nth_repeat; exact T|]. unfold step_weight. apply at_ok. destruct (Ww eq_refl). lia.
Qed.
Lemma scenario_share h : In h (scens K o) -> at_ (scen_weights K f o) h = Ok (scen_share f o h).
Proof.
  intros I. destruct OK as (_ & T & Ww). rewrite Forall_forall in T. specialize (T h I). unfold scen_weights, scen_share. destruct (o_snapshot o); [apply at_nth, nth_repeat; exact T|]. apply at_ok. destruct (Ww eq_refl). lia.
Qed.
Lemma total_ok g q : each K o (fun h t => g h t = Ok (q h t)) -> exists r, total K f o g = Ok r /\ (r == energy K f o q)%Q.
Proof.
  intros G. unfold total. change (asked_scens K o) with (scens K o). change (asked_times K o) with (steps K o).
  destruct (sum_fold2 (fun h => foldM (fun a t => do q <- g h t; do w <- at_ (time_weights K o) t; Ok (a + q * w)%Q) (steps K o) 0%Q) (fun h => qsum (map (fun t => step_share K o t * q h t)%Q (steps K o))) (at_ (scen_weights K f o)) (scen_share f o) (scens K o) 0%Q) as (r & E & R).
  - intros h Ih. destruct (sum_fold (g h) (q h) (at_ (time_weights K o)) (step_share K o) (steps K o) 0%Q) as (a & Ea & Ra); [intros t It; now apply G|exact time_share|]. exists a. split; [exact Ea|]. rewrite Ra. ring.
  - exact scenario_share.
  - rewrite E, bind_ok. eexists. split; [reflexivity|]. rewrite R. unfold energy, expected, base. rewrite Qplus_0_l, Qmult_comm, <- qsum_scale. apply qsum_ext. intros h _. rewrite Qmult_assoc, (Qmult_comm _ (scen_share f o h)), <- Qmult_assoc. apply Qmult_comp; [reflexivity|]. rewrite <- qsum_scale. apply qsum_ext. intros t _. ring.
Qed.
Lemma expected_ext g q : each K o (fun h t => (g h t == q h t)%Q) -> (expected K f o g == expected K f o q)%Q.
Proof. intros E. unfold expected. apply qsum_ext. intros h Ih. apply Qmult_comp; [reflexivity|]. apply qsum_ext. intros t It. rewrite (E h t Ih It). reflexivity. Qed.
Lemma energy_ext g q : each K o (fun h t => (g h t == q h t)%Q) -> (energy K f o g == energy K f o q)%Q.
Proof. intros E. apply expected_ext. intros h t Ih It. rewrite (E h t Ih It). reflexivity. Qed.
Lemma energy_add g q : (energy K f o (fun h t => g h t + q h t) == energy K f o g + energy K f o q)%Q.
Proof.
  unfold energy, expected. rewrite <- qsum_add. apply qsum_ext. intros h _. rewrite <- Qmult_plus_distr_r. apply Qmult_comp; [reflexivity|]. rewrite <- qsum_add. apply qsum_ext. intros t _. ring.
Qed.
Lemma energy_scale k g : (energy K f o (fun h t => k * g h t) == k * energy K f o g)%Q.
Proof.
  unfold energy, expected. rewrite <- qsum_scale. apply qsum_ext. intros h _. rewrite Qmult_assoc, (Qmult_comm k), <- Qmult_assoc. apply Qmult_comp; [reflexivity|]. rewrite <- qsum_scale. apply qsum_ext. intros t _. ring.
Qed.
Lemma energy_sum {A} (g : A -> nat -> nat -> Q) l : (qsum (map (fun x => energy K f o (g x)) l) == energy K f o (fun h t => qsum (map (fun x => g x h t) l)))%Q.
Proof.
  induction l as [|x l IH]; cbn [map].
  - unfold energy, expected. symmetry. apply qsum_zero. intros h _. rewrite (qsum_zero _ (steps K o)); [ring|]. intros t _. change (qsum []) with 0%Q. ring.
  - change (qsum (?u :: ?v)) with (u + qsum v)%Q. rewrite IH, <- energy_add. reflexivity.
Qed.
Lemma energy_below (g : nat -> nat -> nat -> Q) n : (below n (fun x => energy K f o (g x)) == energy K f o (fun h t => below n (fun x => g x h t)))%Q.
Proof. unfold below. apply energy_sum. Qed.
Lemma energy_nonneg g : (0 <= Power.w_base (q_power K))%Q -> each K o (fun h t => (0 <= scen_share f o h)%Q /\ (0 <= step_share K o t)%Q /\ (0 <= g h t)%Q) -> (0 <= energy K f o g)%Q.
Proof.
  intros B P. unfold energy, expected. setoid_replace 0%Q with (qsum (map (fun _ : nat => 0%Q) (scens K o))) by (symmetry; apply qsum_zero; reflexivity). apply qsum_le. intros h Ih. destruct (steps K o) as [|t0 ts] eqn:E; [cbn; rewrite Qmult_0_r; apply Qle_refl|]. rewrite <- E. assert (P0 := P h t0 Ih ltac:(rewrite E; now left)). apply Qmult_le_0_compat; [apply P0|]. setoid_replace 0%Q with (qsum (map (fun _ : nat => 0%Q) (steps K o))) by (symmetry; apply qsum_zero; reflexivity). apply qsum_le. intros t It. destruct (P h t Ih It) as (_ & A & C). apply Qmult_le_0_compat; [exact A|]. now apply Qmult_le_0_compat.
Qed.
End Shares.

(** ** Values *)

Section Values.
Variable cf : list Q -> nat -> res (list Q).
Variables (pow53 root pow23 : Q -> Q).
Variables (J : settings) (K : joint) (inputs : list (list Q)) (v : nat -> EnergyTree.soc) (s : var -> Q).
Hypothesis I : ready cf pow53 root pow23 J K.
Hypothesis A : answer J K inputs v s.
Notation W := (q_power K).
Notation M := (q_model K).
Notation net := (fun x => s (JNet x)).

Lemma made_power : Power.initialise cf W = Ok M.
Proof. exact (proj1 (ready_facts cf pow53 root pow23 J K I)). Qed.
Lemma answer_power : Power.answer W M net.
Proof. destruct A as (_ & _ & P & _). exact P. Qed.
Lemma scenarios : Power.w_noh W = q_number K.
Proof. exact (proj2 (ready_facts cf pow53 root pow23 J K I)). Qed.
Lemma value_net x : Power.declared W M x = true -> value K s (JNet x) = Ok (s (JNet x)).
Proof. intros D. unfold value. cbn [declared]. now rewrite D. Qed.

Section Asked.
Variables (f : list Q) (o : options).
Hypothesis OK : askable K f o.
Lemma asked_scen h : In h (scens K o) -> h < q_number K.
Proof. destruct OK as (_ & T & _). rewrite Forall_forall in T. apply T. Qed.
Lemma asked_step t : In t (steps K o) -> t < Power.w_time W.
Proof. destruct OK as (T & _). rewrite Forall_forall in T. apply T. Qed.

Lemma generation_ok g : g < Power.n_gen W -> exists r, get_generation K f s g o = Ok r /\ (r == energy K f o (fun h t => PowerSpec.output W net h t g))%Q.
Proof.
  intros Lg. apply total_ok; [exact OK|]. intros h t Ih It. apply asked_scen in Ih. apply asked_step in It. apply value_net. cbn [Power.declared]. apply andb_true_intro. split; apply Nat.ltb_lt; [|exact It]. unfold Power.con_gen. rewrite scenarios. nia.
Qed.
Lemma pump_report p : p < Power.n_pump W -> exists r, get_pump K f s (p + 1) o = Ok r /\ (r == energy K f o (fun h t => PowerSpec.pump_power W net h t p))%Q.
Proof.
  intros Lp. unfold get_pump. destruct (total_ok K f o OK (fun h t => value K s (JNet (Power.NPump (Power.con_pump W h + (p + 1)) t))) (fun h t => PowerSpec.pump_power W net h t p)) as (r & E & R); [|eauto].
  intros h t Ih It. apply asked_scen in Ih. apply asked_step in It. unfold PowerSpec.pump_power. replace (h * (Power.n_pump W + 1) + p + 1) with (Power.con_pump W h + (p + 1)) by (unfold Power.con_pump; lia). apply value_net. cbn [Power.declared]. apply andb_true_intro. split; apply Nat.ltb_lt; [|exact It]. unfold Power.con_pump. rewrite scenarios. nia.
Qed.
Lemma curtailment_ok n : n < Power.n_bus W -> Power.w_feas W = true -> exists r, get_curtailment K f s n o = Ok r /\ (r == energy K f o (fun h t => PowerSpec.curtailed W net h t n))%Q.
Proof.
  intros Ln FE. unfold get_curtailment. destruct (PowerTables.initialise_inv _ _ _ made_power) as (gs & _ & _ & _ & _ & _ & _ & EF & _). pose proof (PowerTables.fea_table_ok (Power.w_buses W)) as (C & _ & N). rewrite EF, (proj2 (at_nth _ _ _) (N n Ln)), bind_ok. unfold PowerTables.fea_of. fold (PowerSpec.loaded W). unfold PowerSpec.curtailed.
  destruct (nth n (PowerSpec.loaded W) false) eqn:Ld; cbn [fst snd Nat.eqb].
  - rewrite FE. apply total_ok; [exact OK|]. intros h t Ih It. apply asked_scen in Ih. apply asked_step in It. unfold Power.con_fea. rewrite (PowerBalance.nofea_count cf W M made_power). apply value_net. cbn [Power.declared]. apply andb_true_intro. split; apply Nat.ltb_lt; [|exact It]. rewrite (PowerBalance.nofea_count cf W M made_power), scenarios. pose proof (PowerTables.count_lt _ _ Ld). nia.
  - exists 0%Q. split; [reflexivity|]. unfold energy, expected. symmetry. apply qsum_zero. intros h _. rewrite (qsum_zero _ (steps K o)); [ring|]. intros t _. ring.
Qed.

Lemma demand_known n t h : n < Power.n_bus W -> t < Power.w_time W -> h < q_number K -> exists load d, at_ (Power.m_load M) n = Ok load /\ Power.demand_at W M n t h = Ok d.
Proof.
  intros Ln Lt Lh. rewrite <- scenarios in Lh. pose proof (proj1 (PowerTables.answer_rules _ _ _ answer_power)) as R. destruct R as (R & _). destruct (Power.w_flag W) eqn:FL.
  - destruct R as (_ & _ & _ & _ & R). destruct (R n t 0 h Ln Lt ltac:(lia) Lh) as (c & E & _). unfold Power.balance_rule in E. repeat (let x := fresh in let y := fresh in apply bind_inv in E as (x & y & E)). eauto.
  - destruct (R t 0 h Lt ltac:(lia) Lh) as (c & E & _). unfold Power.balance0_rule in E. apply bind_inv in E as (ds & Eds & _). destruct (PowerTables.mapM_seq _ _ _ Eds n Ln) as (q & Eq & _). apply bind_inv in Eq as (load & El & Eq). apply bind_inv in Eq as (d & Ed & _). eauto.
Qed.
Lemma demand_ok n : n < Power.n_bus W -> Power.w_nodem W <> 0 -> exists r q, get_demand K f (n + 1) o = Ok r /\ each K o (fun h t => PowerSpec.load_at W n t h (q h t)) /\ (r == energy K f o q)%Q.
Proof.
  intros Ln ND. pose (val h t := match at_ (Power.m_load M) n, Power.demand_at W M n t h with Ok l, Ok d => (l * d)%Q | _, _ => 0%Q end). unfold get_demand.
  match goal with |- context [total K f o ?g] => destruct (total_ok K f o OK g val) as (r & E & R) end.
  - intros h t Ih It. apply asked_scen in Ih. apply asked_step in It. destruct (demand_known n t h Ln It Ih) as (load & d & El & Ed). unfold val. rewrite El, Ed. assert (LL : n < List.length (Power.m_load M)) by (apply nth_error_Some; apply at_nth in El; congruence). replace (n + 1) with (S n) by lia. cbn [slot]. destruct (Nat.ltb_spec n (List.length (Power.m_load M))); [|lia]. rewrite bind_ok, El, bind_ok. unfold Power.demand_at, Power.daux in Ed. destruct (Nat.eqb_spec (Power.w_nodem W) 0); [lia|]. rewrite Nat.mul_1_r in Ed. apply bind_inv in Ed as (r & Er & Ed). apply bind_inv in Ed as (z & Ez & Ed). rewrite Er, bind_ok, Ez, bind_ok, Ed. reflexivity.
  - exists r, val. sp; auto. intros h t Ih It. apply asked_scen in Ih. apply asked_step in It. destruct (demand_known n t h Ln It Ih) as (load & d & El & Ed). unfold val. rewrite El, Ed. exact (PowerBalance.load_at_ok cf W M made_power n t h load d Ln El Ed).
Qed.
Lemma load_unique n t h q1 q2 : PowerSpec.load_at W n t h q1 -> PowerSpec.load_at W n t h q2 -> (q1 == q2)%Q.
Proof.
  intros (b & d & Nb & P & Q1) (b' & d' & Nb' & P' & Q2). assert (b' = b) by congruence. subst b'. assert (d' = d). { unfold PowerSpec.profile_at in *. destruct (Power.w_nodem W =? 0); [congruence|]. destruct P as (l & Nl & P). destruct P' as (l' & Nl' & P'). assert (l' = l) by congruence. subst l'. congruence. } subst d'. rewrite Q1, Q2. reflexivity.
Qed.

(** The farms. *)
Definition could r t h : Q := match Power.farm_max W M r t h with Ok q => q | Err _ => 0%Q end.
Lemma farm_known r t h : r < Power.n_ren W -> t < Power.w_time W -> h < q_number K ->
  exists q, Power.farm_max W M r t h = Ok q /\ (PowerSpec.output W net h t (Power.n_conv W + Power.n_hyd W + r) <= q)%Q /\ exists p, PowerSpec.farm_profile W r t h p /\ q = (p * nth r (map fa_max (Power.w_farms W)) 0)%Q.
Proof.
  intros Lr Lt Lh. rewrite <- scenarios in Lh. destruct (nth_error (Power.w_farms W) r) as [fa|] eqn:Nr; [|apply nth_error_None in Nr; unfold Power.n_ren in Lr; lia].
  pose proof (proj1 (PowerTables.answer_rules _ _ _ answer_power)) as R. unfold PowerTables.all_rules in R. assert (RF : PowerTables.rule3 (fun x => s (JNet x)) (Power.res_rule W M) (Power.w_time W) (Power.n_ren W) (Power.w_noh W)) by tauto. clear R.
  destruct (RF t r h Lt Lr Lh) as (c & E & S). unfold Power.res_rule in E. apply bind_inv in E as (e & Ee & E). apply bind_inv in E as (q & Eq & E). injection E as <-. specialize (S _ eq_refl). cbn [sat eval] in S. unfold Power.get in Ee. destruct (Power.declared W M _); [|discriminate]. injection Ee as <-. cbn [eval] in S. exists q. sp; [exact Eq|exact S|].
  unfold Power.farm_max in Eq. apply bind_inv in Eq as (row & Er & Eq). apply bind_inv in Eq as (oo & Eo & Eq). apply bind_inv in Eq as (p & Ep & Eq). rewrite (proj2 (at_nth _ _ _) Nr), bind_ok in Eq. injection Eq as <-. exists p. split; [|rewrite (nth_error_nth _ _ 0%Q (map_nth_error fa_max r (Power.w_farms W) Nr)); reflexivity].
  destruct (PowerTables.initialise_inv _ _ _ made_power) as (gs & _ & _ & _ & _ & _ & _ & _ & _ & _ & _ & ER & _). destruct (PowerTables.offsets_size _ _ _ _ _ _ _ _ _ ER Er Eo) as (_ & Ls). destruct (PowerTables.offsets_ok _ _ _ _ _ ER r h Lr Ls) as (l & r' & Nl & Er' & Eo'). assert (r' = row) by congruence. subst r'. assert (oo = Power.offset (Power.w_time W) l) by congruence. subst oo.
  exists l. split; [|unfold Power.offset in Ep; exact Ep]. unfold Power.res_links in Nl. destruct (Power.w_nores W =? 1); [|exact Nl]. apply nth_error_In in Nl. now apply repeat_spec in Nl.
Qed.
Lemma res_ok r : r < Power.n_ren W -> exists x q, get_res K f s (r + 1) o = Ok x /\ each K o (fun h t => PowerSpec.farm_profile W r t h (q h t)) /\
  (x == energy K f o (fun h t => q h t * nth r (map fa_max (Power.w_farms W)) 0 - PowerSpec.output W net h t (Power.n_conv W + Power.n_hyd W + r)))%Q /\
  each K o (fun h t => (PowerSpec.output W net h t (Power.n_conv W + Power.n_hyd W + r) <= q h t * nth r (map fa_max (Power.w_farms W)) 0)%Q).
Proof.
  intros Lr. pose (prof h t := match (do row <- at_ (Power.m_roffset M) r; do z <- at_ row h; py_index (Power.w_profile W) (z + Z.of_nat t)) with Ok q => q | Err _ => 0%Q end).
  assert (PF : forall h t, In h (scens K o) -> In t (steps K o) -> exists q, Power.farm_max W M r t h = Ok q /\ q = (prof h t * nth r (map fa_max (Power.w_farms W)) 0)%Q /\ PowerSpec.farm_profile W r t h (prof h t) /\ (PowerSpec.output W net h t (Power.n_conv W + Power.n_hyd W + r) <= q)%Q).
  { intros h t Ih It. apply asked_scen in Ih. apply asked_step in It. destruct (farm_known r t h Lr It Ih) as (q & Eq & B & p & FP & Q). exists q. assert (X : prof h t = p). { unfold prof. destruct FP as (l & Hl & Pl). unfold Power.farm_max in Eq. apply bind_inv in Eq as (row & Er & Eq). apply bind_inv in Eq as (z & Ez & Eq). apply bind_inv in Eq as (p' & Ep & _). rewrite Er, bind_ok, Ez, bind_ok, Ep.
      destruct (PowerTables.initialise_inv _ _ _ made_power) as (gs & _ & _ & _ & _ & _ & _ & _ & _ & _ & _ & ER & _). destruct (PowerTables.offsets_size _ _ _ _ _ _ _ _ _ ER Er Ez) as (_ & Ls). destruct (PowerTables.offsets_ok _ _ _ _ _ ER r h Lr Ls) as (l' & r' & Nl & Er' & Eo'). assert (r' = row) by congruence. subst r'. assert (z = Power.offset (Power.w_time W) l') by congruence. subst z.
      assert (l' = l). { unfold Power.res_links in Nl. destruct (Power.w_nores W =? 1); [|unfold Power.links_of, Power.default_links in Nl; congruence]. subst l. apply nth_error_In in Nl. now apply repeat_spec in Nl. } subst l'. unfold Power.offset in Ep. congruence. }
    rewrite X. sp; auto. }
  unfold get_res. match goal with |- context [total K f o ?g] => destruct (total_ok K f o OK g (fun h t => prof h t * nth r (map fa_max (Power.w_farms W)) 0 - PowerSpec.output W net h t (Power.n_conv W + Power.n_hyd W + r))%Q) as (x & E & R) end.
  - intros h t Ih It. destruct (PF h t Ih It) as (q & Eq & Q & _ & _). apply asked_scen in Ih. apply asked_step in It. replace (r + 1) with (S r) by lia. cbn [slot]. destruct (Nat.ltb_spec r (Power.n_ren W)); [|lia]. rewrite bind_ok, Eq, bind_ok. rewrite value_net; [rewrite bind_ok, Q; reflexivity|]. cbn [Power.declared]. apply andb_true_intro. split; apply Nat.ltb_lt; [|exact It]. unfold Power.con_gen, Power.farm_gen. rewrite scenarios. unfold Power.n_gen. nia.
  - exists x, prof. sp; auto; intros h t Ih It; destruct (PF h t Ih It) as (q & Eq & Q & FP & B); [exact FP|]. rewrite <- Q. exact B.
Qed.
End Asked.
End Values.
