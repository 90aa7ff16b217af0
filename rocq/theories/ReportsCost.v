(** Parts of the objective, sums over several scenarios or steps, and what the farms spill. *)
From Coq Require Import List Bool Arith ZArith QArith Lia Lqa.
From Verif Require Import Base GraphData GraphDataProofs Cases CasesProofs ConverterOpen HydroSpec HydroTables ScreeningProofs Linear LinearProofs Devices Joint JointSpec JointEnergy JointCost Reports ReportsSpec ReportsProofs ReportsTotals.
From Verif Require Power PowerSpec PowerTables PowerBalance PowerLimits PowerUnits EnergyTree Hydro.
Import ListNotations.
Open Scope nat_scope.
Open Scope list_scope.

Local Ltac sp := repeat match goal with |- _ /\ _ => split end.

Definition everything : options := mkOptions None false None.
Definition all_flags : flags := mkFlags true true true true true.

Section Cost.
Variable cf : list Q -> nat -> res (list Q).
Variables (pow53 root pow23 : Q -> Q).
Variables (J : settings) (K : joint) (inputs : list (list Q)) (v : nat -> EnergyTree.soc) (s : var -> Q).
Hypothesis I : ready cf pow53 root pow23 J K.
Hypothesis A : answer J K inputs v s.
Notation W := (q_power K).
Notation M := (q_model K).
Notation net := (fun x => s (JNet x)).
Variables (f : list Q) (o : options).
Hypothesis OK : askable K f o.

Lemma unweighted_sum {B} (g : B -> nat -> nat -> Q) l : (qsum (map (fun x => unweighted K f o (g x)) l) == unweighted K f o (fun h t => qsum (map (fun x => g x h t) l)))%Q.
Proof.
  unfold unweighted. rewrite qsum_swap. apply qsum_ext. intros h _. rewrite qsum_scale. apply Qmult_comp; [reflexivity|]. apply qsum_swap.
Qed.
Lemma share_sum (g : nat -> res Q) (q : nat -> Q) : (forall h, In h (scens K o) -> exists r, g h = Ok r /\ (r == q h)%Q) ->
  exists r, add_all (fun h => do a <- g h; do k <- at_ (scen_weights K f o) h; Ok (a * k)%Q) (scens K o) = Ok r /\ (r == qsum (map (fun h => scen_share f o h * q h) (scens K o)))%Q.
Proof.
  intros G. apply add_all_ok. intros h Ih. destruct (G h Ih) as (r & E & R). rewrite E, bind_ok, (scenario_share K f o OK h Ih), bind_ok. eexists. split; [reflexivity|]. rewrite R. ring.
Qed.
Lemma parts_ok g q : each K o (fun h t => exists r, g h t = Ok r /\ (r == q h t)%Q) -> exists r, parts K f o g = Ok r /\ (r == unweighted K f o q)%Q.
Proof.
  intros G. unfold parts, unweighted. change (asked_scens K o) with (scens K o). change (asked_times K o) with (steps K o). apply share_sum. intros h Ih. apply add_all_ok. intros t It. now apply G.
Qed.
Lemma of_part_ok g : g < Power.n_gen W -> exists r, of_part K f s g o = Ok r /\ (r == unweighted K f o (fun h t => PowerSpec.cost_of W net h t g))%Q.
Proof.
  intros Lg. apply parts_ok. intros h t Ih It. apply (asked_scen K f o OK) in Ih. apply (asked_step K f o OK) in It. eexists. split; [|reflexivity]. unfold PowerSpec.cost_of. apply value_net. cbn [Power.declared]. apply andb_true_intro. split; apply Nat.ltb_lt; [|exact It]. rewrite (scenarios cf pow53 root pow23 J K I). unfold Power.con_gen. nia.
Qed.
Lemma group_ok a n : a + n <= Power.n_gen W -> exists r, add_all (fun g => of_part K f s g o) (seq a n) = Ok r /\ (r == qsum (map (fun g => unweighted K f o (fun h t => PowerSpec.cost_of W net h t g)) (seq a n)))%Q.
Proof. intros L. apply add_all_ok. intros g Ig. apply in_seq in Ig. apply of_part_ok. lia. Qed.
Lemma of_parts_ok : exists r, of_parts J K f s all_flags o = Ok r /\
  (r == unweighted K f o (fun h t => below (Power.n_gen W) (PowerSpec.cost_of W net h t) + below (PowerSpec.count (PowerSpec.loaded W)) (fun i => s (JNet (Power.NFea (h * PowerSpec.count (PowerSpec.loaded W) + i) t))) * j_penalty J)
        - unweighted K f o (fun h t => below (Power.n_pump W) (fun p => nth p (map Power.pu_value (Power.w_pumps W)) 0 * (base K * PowerSpec.pump_power W net h t p))))%Q.
Proof.
  pose proof (made_power cf pow53 root pow23 J K I) as PI. pose proof (PowerBalance.nofea_count cf W M PI) as NF. pose proof (scenarios cf pow53 root pow23 J K I) as NS.
  unfold of_parts, all_flags, numbers_of. cbn [f_0 f_1 f_2 f_3 f_4].
  destruct (group_ok 0 (Power.n_conv W)) as (a & Ea & Ra); [unfold Power.n_gen; lia|]. destruct (group_ok (Power.n_conv W + Power.n_hyd W) (Power.n_ren W)) as (b & Eb & Rb); [unfold Power.n_gen; lia|]. destruct (group_ok (Power.n_conv W) (Power.n_hyd W)) as (c & Ec & Rc); [unfold Power.n_gen; lia|].
  rewrite Ea, bind_ok, Eb, bind_ok, Ec, bind_ok. change (asked_scens K o) with (scens K o). change (asked_times K o) with (steps K o).
  match goal with |- context [add_all (fun h => do a <- @?g h; _) (scens K o)] => destruct (share_sum g (fun h => qsum (map (fun t => below (Power.n_pump W) (fun p => nth p (map Power.pu_value (Power.w_pumps W)) 0 * (base K * PowerSpec.pump_power W net h t p))%Q) (steps K o)))) as (d & Ed & Rd) end.
  { intros h Ih. apply (asked_scen K f o OK) in Ih. unfold below at 1. match goal with |- context [add_all ?g (seq 0 (Power.n_pump W))] => destruct (add_all_ok g (fun p => qsum (map (fun t => nth p (map Power.pu_value (Power.w_pumps W)) 0 * (base K * PowerSpec.pump_power W net h t p))%Q (steps K o))) (seq 0 (Power.n_pump W))) as (r & E & R) end.
    - intros p Ip. apply in_seq in Ip. destruct Ip as (_ & Lp). cbn in Lp. destruct (nth_error (Power.w_pumps W) p) as [u|] eqn:Nu; [|apply nth_error_None in Nu; unfold Power.n_pump in Lp; lia]. rewrite (proj2 (at_nth _ _ _) Nu), bind_ok.
      destruct (add_all_ok (fun t => value K s (JNet (Power.NPump (Power.con_pump W h + p + 1) t))) (fun t => PowerSpec.pump_power W net h t p) (steps K o)) as (x & Ex & Rx).
      { intros t It. apply (asked_step K f o OK) in It. eexists. split; [|reflexivity]. apply value_net. cbn [Power.declared]. apply andb_true_intro. split; apply Nat.ltb_lt; [|exact It]. unfold Power.con_pump. rewrite NS. nia. }
      rewrite Ex, bind_ok. eexists. split; [reflexivity|]. rewrite Rx, (nth_error_nth _ _ 0%Q (map_nth_error Power.pu_value p (Power.w_pumps W) Nu)), <- Qmult_assoc. rewrite <- !qsum_scale. apply qsum_ext. intros t _. reflexivity.
    - exists r. split; [exact E|]. rewrite R. apply qsum_swap. }
  rewrite Ed, bind_ok.
  match goal with |- context [parts K f o ?g] => destruct (parts_ok g (fun h t => below (PowerSpec.count (PowerSpec.loaded W)) (fun i => s (JNet (Power.NFea (h * PowerSpec.count (PowerSpec.loaded W) + i) t))) * j_penalty J)%Q) as (e & Ee & Re) end.
  { intros h t Ih It. apply (asked_scen K f o OK) in Ih. apply (asked_step K f o OK) in It. rewrite NF. destruct (add_all_ok (fun i => value K s (JNet (Power.NFea (Power.con_fea M h + i) t))) (fun i => s (JNet (Power.NFea (h * PowerSpec.count (PowerSpec.loaded W) + i) t))) (seq 0 (PowerSpec.count (PowerSpec.loaded W)))) as (x & Ex & Rx).
    - intros i Ii. apply in_seq in Ii. eexists. split; [|reflexivity]. unfold Power.con_fea. rewrite NF. apply value_net. cbn [Power.declared]. rewrite NF. apply andb_true_intro. split; apply Nat.ltb_lt; [|exact It]. rewrite NS. nia.
    - rewrite Ex, bind_ok. eexists. split; [reflexivity|]. rewrite Rx. reflexivity. }
  rewrite Ee, bind_ok. eexists. split; [reflexivity|]. rewrite Ra, Rb, Rc, Rd, Re.
  assert (G : (qsum (map (fun g => unweighted K f o (fun h t => PowerSpec.cost_of W net h t g)) (seq 0 (Power.n_conv W))) + qsum (map (fun g => unweighted K f o (fun h t => PowerSpec.cost_of W net h t g)) (seq (Power.n_conv W + Power.n_hyd W) (Power.n_ren W))) + qsum (map (fun g => unweighted K f o (fun h t => PowerSpec.cost_of W net h t g)) (seq (Power.n_conv W) (Power.n_hyd W)))
    == unweighted K f o (fun h t => below (Power.n_gen W) (PowerSpec.cost_of W net h t)))%Q).
  { transitivity (qsum (map (fun g => unweighted K f o (fun h t => PowerSpec.cost_of W net h t g)) (seq 0 (Power.n_gen W)))); [|apply unweighted_sum]. unfold Power.n_gen. rewrite !seq_app, !map_app, !qsum_app. cbn [Nat.add]. ring. }
  rewrite G. unfold unweighted. fold (unweighted K f o). transitivity (qsum (map (fun h => scen_share f o h * qsum (map (fun t => below (Power.n_gen W) (PowerSpec.cost_of W net h t) + below (PowerSpec.count (PowerSpec.loaded W)) (fun i => s (JNet (Power.NFea (h * PowerSpec.count (PowerSpec.loaded W) + i) t))) * j_penalty J)%Q (steps K o)))%Q (scens K o)) - qsum (map (fun h => scen_share f o h * qsum (map (fun t => below (Power.n_pump W) (fun p => nth p (map Power.pu_value (Power.w_pumps W)) 0 * (base K * PowerSpec.pump_power W net h t p))%Q) (steps K o)))%Q (scens K o)))%Q; [|reflexivity].
  assert (S : (qsum (map (fun h => scen_share f o h * qsum (map (fun t => below (Power.n_gen W) (PowerSpec.cost_of W net h t) + below (PowerSpec.count (PowerSpec.loaded W)) (fun i => s (JNet (Power.NFea (h * PowerSpec.count (PowerSpec.loaded W) + i) t))) * j_penalty J)%Q (steps K o)))%Q (scens K o))
    == qsum (map (fun h => scen_share f o h * qsum (map (fun t => below (Power.n_gen W) (PowerSpec.cost_of W net h t)) (steps K o)))%Q (scens K o)) + qsum (map (fun h => scen_share f o h * qsum (map (fun t => below (PowerSpec.count (PowerSpec.loaded W)) (fun i => s (JNet (Power.NFea (h * PowerSpec.count (PowerSpec.loaded W) + i) t))) * j_penalty J)%Q (steps K o)))%Q (scens K o)))%Q).
  { rewrite <- qsum_add. apply qsum_ext. intros h _. rewrite qsum_add. ring. }
  rewrite S. ring.
Qed.

(** What the farms generate and spill. *)
Lemma farms_ok : exists x g q, all_res K f s o = Ok x /\ all_generation K f s Farms o = Ok g /\ (forall r, r < Power.n_ren W -> each K o (fun h t => PowerSpec.farm_profile W r t h (q r h t))) /\
  (g + x == energy K f o (fun h t => below (Power.n_ren W) (fun r => q r h t * nth r (map fa_max (Power.w_farms W)) 0)))%Q /\
  ((0 <= Power.w_base W)%Q -> each K o (fun h t => (0 <= scen_share f o h)%Q /\ (0 <= step_share K o t)%Q) -> (0 <= x)%Q).
Proof.
  destruct (functional_below (fun r q => each K o (fun h t => PowerSpec.farm_profile W r t h (q h t)) /\ each K o (fun h t => (PowerSpec.output W net h t (Power.n_conv W + Power.n_hyd W + r) <= q h t * nth r (map fa_max (Power.w_farms W)) 0)%Q) /\
    exists x, get_res K f s (r + 1) o = Ok x /\ (x == energy K f o (fun h t => q h t * nth r (map fa_max (Power.w_farms W)) 0 - PowerSpec.output W net h t (Power.n_conv W + Power.n_hyd W + r)))%Q) (Power.n_ren W)) as (q & Hq).
  { intros r Lr. destruct (res_ok cf pow53 root pow23 J K inputs v s I A f o OK r Lr) as (x & q & E & P & R & B). exists q. sp; eauto. }
  unfold all_res, all_generation, numbers_of.
  destruct (add_all_ok (fun r => get_res K f s (r + 1) o) (fun r => energy K f o (fun h t => q r h t * nth r (map fa_max (Power.w_farms W)) 0 - PowerSpec.output W net h t (Power.n_conv W + Power.n_hyd W + r))%Q) (seq 0 (Power.n_ren W))) as (x & Ex & Rx).
  { intros r Ir. apply in_seq in Ir. apply Hq. lia. }
  destruct (add_all_ok (fun g => get_generation K f s g o) (fun g => energy K f o (fun h t => PowerSpec.output W net h t g)) (seq (Power.n_conv W + Power.n_hyd W) (Power.n_ren W))) as (g & Eg & Rg).
  { intros g Ig. apply in_seq in Ig. apply (generation_ok cf pow53 root pow23 J K s I f o OK). unfold Power.n_gen. lia. }
  exists x, g, q. sp; [exact Ex|exact Eg|intros r Lr; now apply Hq| |].
  - rewrite Rx, Rg, !energy_sum, <- energy_add. apply energy_ext. intros h t Ih It. assert (X : forall n a, (qsum (map (fun g => PowerSpec.output W net h t g) (seq a n)) == below n (fun r => PowerSpec.output W net h t (a + r)))%Q). { induction n as [|n IH]; intros a; [reflexivity|]. rewrite seq_S, map_app, qsum_app, IH, below_S. cbn [map]. change (qsum [?u]) with (u + 0)%Q. ring. }
    rewrite X. fold (below (Power.n_ren W) (fun r => q r h t * nth r (map fa_max (Power.w_farms W)) 0 - PowerSpec.output W net h t (Power.n_conv W + Power.n_hyd W + r))%Q). rewrite <- below_add. apply below_ext. intros r _. ring.
  - intros B P. rewrite Rx. apply HydroLimits.qsum_nonneg. apply Forall_forall. intros q' Iq. apply in_map_iff in Iq as (r & <- & Ir). revert r Ir. intros r Ir. apply in_seq in Ir. apply energy_nonneg; [exact B|]. intros h t Ih It. destruct (P h t Ih It). sp; auto. destruct (Hq r ltac:(lia)) as (_ & L & _). specialize (L h t Ih It). cbv beta in L |- *. lra.
Qed.
End Cost.

Lemma qsum_minus {B} (a x y : B -> Q) l : (qsum (map (fun h => a h * (x h - y h)) l) == qsum (map (fun h => a h * x h) l) - qsum (map (fun h => a h * y h) l))%Q.
Proof. induction l as [|h l IH]; [reflexivity|]. cbn [map]. change (a h * (x h - y h) + qsum (map (fun h => a h * (x h - y h)) l) == (a h * x h + qsum (map (fun h => a h * x h) l)) - (a h * y h + qsum (map (fun h => a h * y h) l)))%Q. rewrite IH. ring. Qed.
(** All parts and the penalty of the rivers are the objective, with steps of weight 1. *)
Lemma objective_parts cf pow53 root pow23 J K s f : ready cf pow53 root pow23 J K -> askable K f everything -> (forall t, t < Power.w_time (q_power K) -> (step_weight K t == 1)%Q) ->
  exists r, of_parts J K f s all_flags everything = Ok r /\ (objective J K f s == r + s (JWater Hydro.HPenalty))%Q.
Proof.
  intros I OK W1. destruct (of_parts_ok cf pow53 root pow23 J K s I f everything OK) as (r & E & R). exists r. split; [exact E|]. rewrite R. unfold objective. apply Qplus_comp; [|reflexivity]. unfold unweighted, steps, scens, everything. cbn [o_times o_scens o_snapshot scen_share].
  pose proof (PowerBalance.nofea_count cf (q_power K) (q_model K) (made_power cf pow53 root pow23 J K I)) as NF.
  rewrite <- qsum_minus.
  apply qsum_ext. intros h _. rewrite Qmult_comm. apply Qmult_comp; [reflexivity|]. unfold times. apply Qplus_comp.
  - apply qsum_ext. intros t It. apply in_seq in It. specialize (W1 t ltac:(lia)). unfold step_weight in W1. rewrite W1, Qmult_1_r. unfold Power.con_fea. rewrite NF. unfold below, PowerSpec.cost_of, Power.con_gen. reflexivity.
  - apply Qopp_comp. unfold Power.n_pump at 1. rewrite (combine_seq (Power.mkPump 0 0 0)), map_map. unfold below. rewrite qsum_swap. cbn [fst snd]. change (seq 0 (List.length (Power.w_pumps (q_power K)))) with (seq 0 (Power.n_pump (q_power K))). apply qsum_ext. intros p Ip. apply in_seq in Ip. rewrite <- qsum_scale. apply qsum_ext. intros t It. apply in_seq in It. specialize (W1 t ltac:(lia)). unfold step_weight in W1. rewrite W1.
    rewrite (nth_indep _ 0%Q (Power.pu_value (Power.mkPump 0 0 0))) by (rewrite map_length; unfold Power.n_pump in Ip; lia). rewrite map_nth. unfold PowerSpec.pump_power, Power.con_pump. ring.
Qed.

(** ** Sums over several scenarios or steps *)

Lemma foldM_ext {S B} (g g' : S -> B -> res S) l : (forall a x, In x l -> g a x = g' a x) -> forall a, foldM g l a = foldM g' l a.
Proof. induction l as [|x l IH]; intros E a; [reflexivity|]. cbn [foldM]. rewrite E by now left. destruct (g' a x); [|reflexivity]. cbn [rbind]. apply IH. intros b y I. apply E. now right. Qed.
(** The sums as sums of terms. *)
Definition term {B} (g : B -> res Q) (w : B -> res Q) (x : B) : res Q := do q <- g x; do k <- w x; Ok (q * k)%Q.
Lemma weighted_fold {B} (g w : B -> res Q) l a : foldM (fun v x => do q <- g x; do k <- w x; Ok (v + q * k)%Q) l a = foldM (fun v x => do q <- term g w x; Ok (v + q)%Q) l a.
Proof. apply foldM_ext. intros b x _. unfold term. destruct (g x) as [q|]; [|reflexivity]. cbn [rbind]. destruct (w x); reflexivity. Qed.
Definition scen_term K f o g h := term (fun h => add_all (term (g h) (at_ (time_weights K o))) (asked_times K o)) (at_ (scen_weights K f o)) h.
Lemma total_terms K f o g : total K f o g = do r <- add_all (scen_term K f o g) (asked_scens K o); Ok (r * base K)%Q.
Proof.
  unfold total, add_all, scen_term. rewrite weighted_fold. f_equal. apply foldM_ext. intros a h _. unfold term at 1 3. rewrite weighted_fold. reflexivity.
Qed.
Definition with_scens (o : options) (l : list nat) : options := mkOptions (o_times o) (o_snapshot o) (Some l).
Definition with_times (o : options) (l : list nat) : options := mkOptions (Some l) (o_snapshot o) (o_scens o).
Lemma total_scens K f o g l1 l2 r : total K f (with_scens o (l1 ++ l2)) g = Ok r -> exists a b, total K f (with_scens o l1) g = Ok a /\ total K f (with_scens o l2) g = Ok b /\ (r == a + b)%Q.
Proof.
  rewrite !total_terms. cbn [with_scens asked_scens o_scens]. intros E. apply bind_inv in E as (x & E & X). injection X as <-. apply add_all_app in E as (a & b & Ea & Eb & R). exists (a * base K)%Q, (b * base K)%Q.
  change (scen_term K f (mkOptions (o_times o) (o_snapshot o) (Some l1)) g) with (scen_term K f (with_scens o (l1 ++ l2)) g). change (scen_term K f (mkOptions (o_times o) (o_snapshot o) (Some l2)) g) with (scen_term K f (with_scens o (l1 ++ l2)) g). fold (with_scens o l1) (with_scens o l2). change (scen_term K f (with_scens o l1) g) with (scen_term K f (with_scens o (l1 ++ l2)) g). change (scen_term K f (with_scens o l2) g) with (scen_term K f (with_scens o (l1 ++ l2)) g). unfold with_scens in *. rewrite Ea, Eb, !bind_ok. sp; [reflexivity|reflexivity|]. rewrite R. ring.
Qed.
Lemma add_split {B} (g g1 g2 : B -> res Q) l r : (forall x q, In x l -> g x = Ok q -> exists a b, g1 x = Ok a /\ g2 x = Ok b /\ (q == a + b)%Q) -> add_all g l = Ok r ->
  exists a b, add_all g1 l = Ok a /\ add_all g2 l = Ok b /\ (r == a + b)%Q.
Proof.
  intros H. unfold add_all. assert (X : forall c c1 c2 r, (c == c1 + c2)%Q -> foldM (fun v x => do q <- g x; Ok (v + q)%Q) l c = Ok r -> exists a b, foldM (fun v x => do q <- g1 x; Ok (v + q)%Q) l c1 = Ok a /\ foldM (fun v x => do q <- g2 x; Ok (v + q)%Q) l c2 = Ok b /\ (r == a + b)%Q).
  { induction l as [|x l IH]; intros c c1 c2 r' C E; cbn [foldM] in *; [injection E as <-; eauto|]. apply bind_inv in E as (y & Ey & E). apply bind_inv in Ey as (q & Eq & Ey). injection Ey as <-. destruct (H x q (or_introl eq_refl) Eq) as (a & b & Ea & Eb & Q_). rewrite Ea, Eb, !bind_ok. apply (IH (fun y p I => H y p (or_intror I)) (c + q)%Q); [rewrite C, Q_; ring|exact E]. }
  apply X. ring.
Qed.
Lemma total_times K f o g l1 l2 r : total K f (with_times o (l1 ++ l2)) g = Ok r -> exists a b, total K f (with_times o l1) g = Ok a /\ total K f (with_times o l2) g = Ok b /\ (r == a + b)%Q.
Proof.
  rewrite !total_terms. intros E. apply bind_inv in E as (x & E & X). injection X as <-. change (asked_scens K (with_times o l1)) with (asked_scens K (with_times o (l1 ++ l2))). change (asked_scens K (with_times o l2)) with (asked_scens K (with_times o (l1 ++ l2))).
  assert (P : exists a b, add_all (scen_term K f (with_times o l1) g) (asked_scens K (with_times o (l1 ++ l2))) = Ok a /\ add_all (scen_term K f (with_times o l2) g) (asked_scens K (with_times o (l1 ++ l2))) = Ok b /\ (x == a + b)%Q).
  { revert E. apply add_split. intros h q _. unfold scen_term, term at 1. intros Eq. apply bind_inv in Eq as (y & Ey & Eq). apply bind_inv in Eq as (k & Ek & Eq). injection Eq as <-. change (asked_times K (with_times o (l1 ++ l2))) with (l1 ++ l2) in Ey. apply add_all_app in Ey as (a & b & Ea & Eb & R). exists (a * k)%Q, (b * k)%Q. unfold term at 1 3. change (asked_times K (with_times o l1)) with l1. change (asked_times K (with_times o l2)) with l2. change (time_weights K (with_times o l1)) with (time_weights K (with_times o (l1 ++ l2))). change (time_weights K (with_times o l2)) with (time_weights K (with_times o (l1 ++ l2))). change (scen_weights K f (with_times o l1)) with (scen_weights K f (with_times o (l1 ++ l2))). change (scen_weights K f (with_times o l2)) with (scen_weights K f (with_times o (l1 ++ l2))). rewrite Ea, Eb, !bind_ok, Ek, !bind_ok. sp; [reflexivity|reflexivity|]. rewrite R. ring. }
  destruct P as (a & b & Ea & Eb & R).
  exists (a * base K)%Q, (b * base K)%Q. rewrite Ea, Eb, !bind_ok. sp; [reflexivity|reflexivity|]. rewrite R. ring.
Qed.
Lemma parts_scens K f o g l1 l2 r : parts K f (with_scens o (l1 ++ l2)) g = Ok r -> exists a b, parts K f (with_scens o l1) g = Ok a /\ parts K f (with_scens o l2) g = Ok b /\ (r == a + b)%Q.
Proof. unfold parts. intros E. cbn [asked_scens with_scens o_scens] in E |- *. apply add_all_app in E. exact E. Qed.
Lemma parts_times K f o g l1 l2 r : parts K f (with_times o (l1 ++ l2)) g = Ok r -> exists a b, parts K f (with_times o l1) g = Ok a /\ parts K f (with_times o l2) g = Ok b /\ (r == a + b)%Q.
Proof.
  unfold parts. intros E. change (asked_scens K (with_times o l1)) with (asked_scens K (with_times o (l1 ++ l2))). change (asked_scens K (with_times o l2)) with (asked_scens K (with_times o (l1 ++ l2))). revert E. apply add_split. intros h q _ Eq. apply bind_inv in Eq as (y & Ey & Eq). apply bind_inv in Eq as (k & Ek & Eq). injection Eq as <-. cbn [asked_times with_times o_times] in Ey |- *. apply add_all_app in Ey as (a & b & Ea & Eb & R). exists (a * k)%Q, (b * k)%Q.
  change (scen_weights K f (with_times o l1)) with (scen_weights K f (with_times o (l1 ++ l2))). change (scen_weights K f (with_times o l2)) with (scen_weights K f (with_times o (l1 ++ l2))). rewrite Ea, Eb, !bind_ok, Ek, !bind_ok. sp; [reflexivity|reflexivity|]. rewrite R. ring.
Qed.
Lemma ask_scens K f s k o l1 l2 r : ask K f s k (with_scens o (l1 ++ l2)) = Ok r -> exists a b, ask K f s k (with_scens o l1) = Ok a /\ ask K f s k (with_scens o l2) = Ok b /\ (r == a + b)%Q.
Proof.
  destruct k as [x|x|x|x|x|x]; cbn [ask]; [apply total_scens|apply total_scens|apply total_scens| |apply total_scens|apply parts_scens].
  unfold get_curtailment. intros E. apply bind_inv in E as (p & Ep & E). rewrite Ep, !bind_ok. destruct (fst p =? 0); [injection E as <-; exists 0%Q, 0%Q; sp; reflexivity|]. destruct (Power.w_feas (q_power K)); [revert E; apply total_scens|injection E as <-; exists 0%Q, 0%Q; sp; reflexivity].
Qed.
Lemma ask_times K f s k o l1 l2 r : ask K f s k (with_times o (l1 ++ l2)) = Ok r -> exists a b, ask K f s k (with_times o l1) = Ok a /\ ask K f s k (with_times o l2) = Ok b /\ (r == a + b)%Q.
Proof.
  destruct k as [x|x|x|x|x|x]; cbn [ask]; [apply total_times|apply total_times|apply total_times| |apply total_times|apply parts_times].
  unfold get_curtailment. intros E. apply bind_inv in E as (p & Ep & E). rewrite Ep, !bind_ok. destruct (fst p =? 0); [injection E as <-; exists 0%Q, 0%Q; sp; reflexivity|]. destruct (Power.w_feas (q_power K)); [revert E; apply total_times|injection E as <-; exists 0%Q, 0%Q; sp; reflexivity].
Qed.
