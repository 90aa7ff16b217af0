(** Complete settings give a model: initialise and addCon of the electricity network do not fail. *)
From Coq Require Import List Bool Arith ZArith QArith Qround Lia Lqa.
From Verif Require Import Base ReaderProofs GraphData GraphDataProofs Cases CasesProofs Network InputOutput InputOutputProofs ConverterOpen HydroSpec HydroTables HydroNet ScreeningProofs Linear LinearProofs Devices Power PowerSpec DevicesProofs FleetProofs PowerTables PowerBalance PowerLimits PowerUnits.
Import ListNotations.
Open Scope nat_scope.
Open Scope list_scope.
Local Ltac sp := repeat match goal with |- _ /\ _ => split end.

(** ** Complete settings *)

(** One value for all or one for each of [n]. *)
Definition covers {A} (l : list A) (n : nat) : Prop := List.length l = 1 \/ n <= List.length l.
(** Profiles: [k] of them, and links from [width] rows and all scenarios to them. *)
Definition profiles_set (k width scen time : nat) (links : option (list nat)) (values : list Q) : Prop :=
  k * time <= List.length values /\ match links with None => scen <= k | Some l => width * scen <= List.length l /\ Forall (fun x => 1 <= x <= k) l end.
Record complete (W : power) : Prop := {
  cp_time : 0 < w_time W;
  cp_noh : w_noh W <= w_scen W;
  cp_branches : Forall (fun b => In (br_from b) (numbers W) /\ In (br_to b) (numbers W) /\ ~ (br_x b == 0)%Q) (w_branches W);
  cp_gens : Forall (fun b => In b (numbers W)) (gen_buses W);
  cp_flag : w_secflag W = false;
  cp_sec : branch_numbers (n_bra W) (w_security W);
  cp_sec_losses : w_flag W = true -> w_losses W = true \/ w_security W = [];
  cp_points : w_losses W = true -> w_points W <> [] /\ forall l p q, nth_error (w_points W) l = Some p -> nth_error (w_points W) (S l) = Some q -> ~ (q == p)%Q;
  cp_pumps : Forall (fun p => 1 <= pu_bus p <= n_bus W) (w_pumps W);
  cp_stores : w_stores W = [];
  cp_conv : covers (cv_anc (w_conv W)) (n_conv W) /\ covers (cv_base (w_conv W)) (n_conv W) /\ covers (cv_res (w_conv W)) (n_conv W);
  cp_ramp : match cv_ramp (w_conv W) with [] => forall c, w_column W = Some c -> n_conv W <= List.length c | l => covers l (n_conv W) end;
  cp_times : (cv_mut (w_conv W) = [] \/ covers (cv_mut (w_conv W)) (n_conv W)) /\ (cv_mdt (w_conv W) = [] \/ covers (cv_mdt (w_conv W)) (n_conv W));
  cp_hyd : covers (hs_anc (w_hyd W)) (n_hyd W) /\ covers (hs_base (w_hyd W)) (n_hyd W) /\ covers (hs_ramp (w_hyd W)) (n_hyd W) /\ covers (hs_res (w_hyd W)) (n_hyd W);
  cp_pieces : w_pieces W = [] \/ exists d, w_pieces W = [d] /\ (0 < d)%Q;
  cp_curves : Forall (fun r => let c := ma_curve r in if cu_points c then 1 <= cu_n c /\ 2 * cu_n c <= List.length (cu_cost c) else (0 < ma_max r)%Q /\ 1 <= cu_n c <= List.length (cu_cost c)) (w_machines W);
  cp_demand : if w_nodem W =? 0 then w_demand W <> [] else profiles_set (w_nodem W) (n_bus W) (w_scen W) (w_time W) (w_links W) (w_demand W);
  cp_farms : 0 < n_ren W -> w_nores W = 1 /\ w_time W <= List.length (w_profile W) \/ w_nores W <> 1 /\ profiles_set (w_nores W) (n_ren W) (w_scen W) (w_time W) (w_links_res W) (w_profile W);
  cp_weights : forall l, w_weights W = Some l -> w_time W <= List.length l;
  cp_anc : w_anc W = None;
  cp_unc : 0 < n_ren W -> nth_error (w_unc W) 0 = Some None;
  cp_cool : w_cool W = None;
  cp_feas : w_flag W = false -> w_feas W = true -> exists b, In b (w_buses W) /\ (0 < b_pd b)%Q;
  cp_uc : w_uc W = true -> w_noh W = 1 /\ 2 <= w_time W }.

(** ** Results *)

Definition ok {A} (r : res A) : Prop := exists a, r = Ok a.
Lemma ok_bind {A B} (m : res A) (k : A -> res B) : ok m -> (forall a, m = Ok a -> ok (k a)) -> ok (do x <- m; k x).
Proof. intros (a & E) K. rewrite E, bind_ok. now apply K. Qed.
Lemma ok_ret {A} (a : A) : ok (Ok a).
Proof. eexists. reflexivity. Qed.
Lemma ok_at {A} (l : list A) i : i < List.length l -> ok (at_ l i).
Proof. intros L. destruct (at_total l i L) as (a & E & _). now exists a. Qed.
Lemma ok_mapM {A B} (f : A -> res B) l : (forall x, In x l -> ok (f x)) -> ok (mapM f l).
Proof. apply mapM_total. Qed.
Lemma ok_pick {A} (l : list A) n i : covers l n -> i < n -> ok (pick l i).
Proof. intros C L. unfold pick. destruct l as [|a [|b l]]; [destruct C as [C|C]; cbn in C; lia|apply ok_ret|]. apply ok_at. destruct C as [C|C]; cbn in *; lia. Qed.
Lemma ok_time l n i : l = [] \/ covers l n -> i < n -> ok (pick_time l i).
Proof. intros [->|C] L; [apply ok_ret|]. unfold pick_time. destruct l as [|a [|b l]]; [apply ok_ret|apply ok_ret|]. apply ok_at. destruct C as [C|C]; cbn in *; lia. Qed.
Lemma in_combine_seq {A} (l : list A) i a : In (i, a) (combine (seq 0 (List.length l)) l) -> nth_error l i = Some a.
Proof.
  assert (G : forall k (l : list A), In (i, a) (combine (seq k (List.length l)) l) -> k <= i /\ nth_error l (i - k) = Some a).
  { clear l. intros k l. revert k. induction l as [|x l IH]; intros k H; cbn in H; [easy|]. destruct H as [H|H]; [injection H as <- <-; rewrite Nat.sub_diag; split; [lia|reflexivity]|]. apply IH in H as (L & H). split; [lia|]. replace (i - k) with (S (i - S k)) by lia. exact H. }
  intros H. apply G in H as (_ & H). now rewrite Nat.sub_0_r in H.
Qed.
Lemma chords_total l : l <> [] -> (forall i p q, nth_error l i = Some p -> nth_error l (S i) = Some q -> ~ (q == p)%Q) -> ok (chords l).
Proof.
  induction l as [|a r IH]; intros N H; [easy|]. cbn [chords]. destruct r as [|b r]; [apply ok_ret|]. apply ok_bind; [|intros c _; apply ok_bind; [|intros cs _; apply ok_ret]].
  - unfold chord. destruct (Qeq_bool (b - a) 0) eqn:E; [|apply ok_ret]. apply Qeq_bool_iff in E. exfalso. apply (H 0 a b); [reflexivity|reflexivity|]. lra.
  - apply IH; [easy|]. intros i. apply (H (S i)).
Qed.

Section Built.
Variable cf : list Q -> nat -> res (list Q).
Variable W : power.
Hypothesis C : complete W.

Lemma gens_total : ok (all_gens (w_conv W) (w_column W) (w_machines W) (w_hyd W) (w_plants W) (w_farms W)).
Proof.
  unfold all_gens. destruct (cp_conv W C) as (C1 & C2 & C3). destruct (cp_times W C) as (C4 & C5). destruct (cp_hyd W C) as (C6 & C7 & C8 & C9). pose proof (cp_ramp W C) as CR. apply ok_bind; [|intros a _; apply ok_bind; [|intros b _; apply ok_ret]].
  - apply ok_mapM. intros (i, r) Ir. apply in_combine_seq in Ir. assert (Li : i < n_conv W) by (apply nth_error_Some; congruence). unfold conv_gen. apply ok_bind.
    + unfold pick_ramp. destruct (cv_ramp (w_conv W)) as [|x [|y l]]; [|apply ok_ret|].
      * destruct (w_column W) as [c|]; [|apply ok_ret]. apply ok_bind; [|intros; apply ok_ret]. apply ok_at. specialize (CR c eq_refl). lia.
      * destruct CR as [CR|CR]; [discriminate|]. destruct (_ <=? _); [|apply ok_ret]. apply ok_at. lia.
    + intros ramp _. apply ok_bind; [eapply ok_time; eauto|]. intros mut _. apply ok_bind; [eapply ok_time; eauto|]. intros mdt _. apply ok_bind; [eapply ok_pick; eauto|]. intros x _. apply ok_bind; [eapply ok_pick; eauto|]. intros y _. apply ok_bind; [eapply ok_pick; eauto|]. intros z _. apply ok_ret.
  - apply ok_mapM. intros (i, r) Ir. apply in_combine_seq in Ir. assert (Li : i < n_hyd W) by (apply nth_error_Some; congruence). unfold hydro_gen. apply ok_bind; [eapply ok_pick; eauto|]. intros x _. apply ok_bind; [eapply ok_pick; eauto|]. intros y _. apply ok_bind; [eapply ok_pick; eauto|]. intros z _. apply ok_bind; [eapply ok_pick; eauto|]. intros v _. apply ok_ret.
Qed.
Lemma grid_total : ok (build_grid (numbers W) (w_branches W) (w_secflag W) (w_security W)).
Proof.
  pose proof (build_grid_cases (numbers W) (w_branches W) (w_secflag W) (w_security W)) as B. destruct (build_grid _ _ _ _) as [G|e]; [apply ok_ret|]. destruct B as (_ & br & Ib & N). exfalso. apply N. pose proof (cp_branches W C) as F. rewrite Forall_forall in F. destruct (F br Ib) as (A & B & _). auto.
Qed.
Lemma sec_eq : security W = w_security W.
Proof. unfold security. rewrite (cp_flag W C). now destruct (w_security W). Qed.
Lemma poly_total c x : 1 <= cu_n c <= List.length (cu_cost c) -> ok (poly c x).
Proof.
  intros (N1 & N2). unfold poly. apply ok_bind; [destruct (cu_n c); [lia|]; apply ok_at; lia|]. intros k0 _. assert (G : forall l y, (forall k, In k l -> 1 <= k) -> ok (foldM (fun y k => do a <- at_ (cu_cost c) (cu_n c - 1 - k); Ok (y + a * x ^ Z.of_nat k)%Q) l y)).
  { induction l as [|k l IH]; intros y H; [apply ok_ret|]. cbn [foldM]. apply ok_bind; [apply ok_bind; [apply ok_at; lia|intros; apply ok_ret]|]. intros y' _. apply IH. intros k' I. apply H. now right. }
  apply G. intros k I. apply in_seq in I. lia.
Qed.
Lemma machine_lines i r : nth_error (w_machines W) i = Some r -> ok (cost_lines (w_base W) (w_pieces W) i (ma_max r) (ma_min r) (ma_curve r)).
Proof.
  intros Nr. pose proof (cp_curves W C) as F. rewrite Forall_forall in F. specialize (F r (nth_error_In _ _ Nr)). cbv zeta in F. unfold cost_lines. apply ok_bind; [|intros; apply ok_ret]. destruct (cu_points (ma_curve r)) eqn:CP.
  - destruct F as (F1 & F2). destruct (cu_n (ma_curve r)) eqn:EN; [lia|]. unfold given_points. rewrite EN. apply ok_mapM. intros x Ix. apply in_seq in Ix. apply ok_bind; [apply ok_at; lia|]. intros a _. apply ok_bind; [apply ok_at; lia|]. intros; apply ok_ret.
  - destruct F as (F1 & F2). unfold poly_points. assert (D : exists d, piece_length (w_pieces W) i (ma_max r) (ma_curve r) = Ok d /\ (0 < d)%Q).
    { destruct (cp_pieces W C) as [->|(d & -> & P)]; [|exists d; split; [reflexivity|exact P]]. unfold piece_length. destruct (at_total (cu_cost (ma_curve r)) 0) as (a & -> & _); [lia|]. rewrite bind_ok. eexists. split; [reflexivity|]. destruct (Qeq_bool a 0); [exact F1|]. apply Qlt_shift_div_l; lra. }
    destruct D as (d & -> & P). rewrite bind_ok. destruct (Qeq_bool d 0) eqn:Z; [apply Qeq_bool_iff in Z; exfalso; lra|]. destruct (Z.ltb_spec (Qfloor (ma_max r / d)) 0) as [B|B].
    + exfalso. assert (H : (0 <= ma_max r / d)%Q) by (apply Qle_shift_div_l; lra). apply Qfloor_resp_le in H. change (Qfloor 0) with 0%Z in H. lia.
    + apply ok_mapM. intros k _. apply ok_bind; [now apply poly_total|intros; apply ok_ret].
Qed.
Lemma fleet_total gs : all_gens (w_conv W) (w_column W) (w_machines W) (w_hyd W) (w_plants W) (w_farms W) = Ok gs -> ok (build_fleet (numbers W) (w_base W) (w_pieces W) gs).
Proof.
  intros EG. apply build_fleet_total. intros i g Ni. pose proof (cp_gens W C) as F. rewrite Forall_forall in F. pose proof (all_gens_ok _ _ _ _ _ _ _ EG) as (L & B & _). split; [apply F; unfold gen_buses; rewrite <- B; apply in_map; eapply nth_error_In; eauto|].
  unfold all_gens in EG. apply bind_inv in EG as (a & Ea & EG). apply bind_inv in EG as (b & Eb & EG). injection EG as <-. assert (La : List.length a = n_conv W) by (apply mapM_comb in Ea as (La & _); exact La). destruct (Nat.lt_ge_cases i (List.length a)) as [Li|Li].
  - rewrite nth_error_app1 in Ni by exact Li. destruct (nth_error (w_machines W) i) as [r|] eqn:Nr; [|apply nth_error_None in Nr; unfold n_conv in La; lia]. apply mapM_comb in Ea as (_ & Ea). pose proof (conv_gen_inv _ _ _ _ _ (Ea i r g Nr Ni)) as (_ & _ & MX & MN & CV & _). rewrite MX, MN, CV. now apply machine_lines.
  - assert (X : cu_points (ge_curve g) = true /\ cu_n (ge_curve g) = 2 /\ List.length (cu_cost (ge_curve g)) = 4).
    { rewrite nth_error_app2 in Ni by exact Li. apply nth_error_In, in_app_iff in Ni as [Ni|Ni].
      - apply In_nth_error in Ni as (k & Nk). apply mapM_comb in Eb as (Lb & Eb). destruct (nth_error (w_plants W) k) as [r|] eqn:Nr; [|apply nth_error_None in Nr; assert (k < List.length b) by (apply nth_error_Some; congruence); lia]. specialize (Eb k r g Nr Nk). unfold hydro_gen in Eb. apply bind_inv in Eb as (x1 & _ & Eb). apply bind_inv in Eb as (x2 & _ & Eb). apply bind_inv in Eb as (x3 & _ & Eb). apply bind_inv in Eb as (x4 & _ & Eb). injection Eb as <-. auto.
      - apply in_map_iff in Ni as (f & <- & _). auto. }
    destruct X as (X1 & X2 & X3). unfold cost_lines. apply ok_bind; [|intros; apply ok_ret]. rewrite X1, X2. unfold given_points. rewrite X2. apply ok_mapM. intros x Ix. apply in_seq in Ix. apply ok_bind; [apply ok_at; lia|]. intros q _. apply ok_bind; [apply ok_at; lia|]. intros; apply ok_ret.
Qed.
Lemma links_total width scen time links : width * scen <= List.length links -> ok (offsets width scen time links).
Proof. intros L. unfold offsets. apply ok_mapM. intros n In_. apply in_seq in In_. apply ok_mapM. intros h Ih. apply in_seq in Ih. apply ok_bind; [|intros; apply ok_ret]. apply ok_at. nia. Qed.
Lemma default_length width scen : List.length (default_links width scen) = width * scen.
Proof. unfold default_links. assert (G : forall k j, List.length (flat_map (fun h => repeat (S h) width) (seq j k)) = width * k). { induction k as [|k IH]; intros j; [cbn; lia|]. cbn [seq flat_map]. rewrite app_length, repeat_length, IH. lia. } apply G. Qed.
Lemma default_range width scen : Forall (fun x => 1 <= x <= scen) (default_links width scen).
Proof. unfold default_links. apply Forall_forall. intros x Ix. apply in_flat_map in Ix as (h & Ih & Ix). apply in_seq in Ih. apply repeat_spec in Ix. lia. Qed.
Lemma stores_none : stor_table (n_bus W) (w_scen W) (w_stores W) = Ok (repeat (repeat 0 (w_scen W)) (n_bus W)).
Proof. rewrite (cp_stores W C). unfold stor_table. cbn [List.length seq combine]. assert (P : forall l : list nat, list_prod l (@nil (nat * store_)) = []) by (induction l; auto). now rewrite P. Qed.

Theorem initialise_total : ok (initialise cf W).
Proof.
  unfold initialise. apply ok_bind; [exact gens_total|]. intros gs EG. apply ok_bind; [exact grid_total|]. intros G _. apply ok_bind; [rewrite sec_eq; rewrite (proj2 (proj1 (check_security_spec _ _)) (cp_sec W C)); apply ok_ret|]. intros _ _. apply ok_bind. { destruct (w_losses W) eqn:LS; [|apply ok_ret]. destruct (cp_points W C LS) as (P1 & P2). now apply chords_total. } intros ch _.
  apply ok_bind. { apply pump_table_total. pose proof (cp_pumps W C) as F. eapply Forall_impl; [|exact F]. intros p (A & B). unfold slot. destruct (pu_bus p) as [|b]; [lia|]. destruct (Nat.ltb_spec b (n_bus W)); [eauto|lia]. } intros pt _.
  apply ok_bind. { pose proof (cp_demand W C) as D. destruct (Nat.ltb_spec 0 (w_nodem W)) as [B|B]; [|apply ok_ret]. destruct (Nat.eqb_spec (w_nodem W) 0); [lia|]. destruct D as (_ & D). apply links_total. unfold links_of. destruct (w_links W) as [l|]; [tauto|]. rewrite default_length. lia. } intros off _.
  apply ok_bind. { pose proof (cp_farms W C) as D. apply links_total. destruct (Nat.eq_dec (n_ren W) 0) as [Z|Z]; [rewrite Z; cbn; lia|]. destruct (D ltac:(lia)) as [(D1 & D2)|(D1 & D2 & D3)]; unfold res_links.
    - rewrite D1. cbn [Nat.eqb]. rewrite repeat_length. lia.
    - destruct (Nat.eqb_spec (w_nores W) 1); [lia|]. unfold links_of. destruct (w_links_res W) as [l|]; [tauto|]. rewrite default_length. lia. } intros roff _.
  rewrite (cp_cool W C), bind_ok. apply ok_bind; [now apply fleet_total|]. intros F _. rewrite stores_none, bind_ok. apply ok_bind. { unfold previous. pose proof (cp_time W C). destruct (w_time W); [lia|apply ok_ret]. } intros pv _. unfold ancillary. rewrite (cp_anc W C), bind_ok. apply ok_bind; [|intros; apply ok_ret].
  unfold support. destruct (Nat.eqb_spec (n_ren W) 0); [apply ok_ret|]. pose proof (cp_unc W C ltac:(lia)) as U. apply at_nth in U. rewrite U, bind_ok. apply ok_ret.
Qed.

(** ** Constraints *)

Variable M : model.
Hypothesis I : initialise cf W = Ok M.

Lemma ok_get v : declared W M v = true -> ok (get W M v).
Proof. intros D. unfold get. rewrite D. apply ok_ret. Qed.
Lemma ok_gets vs : (forall v, In v vs -> declared W M v = true) -> ok (gets W M vs).
Proof. intros H. unfold gets. apply ok_bind; [|intros; apply ok_ret]. apply ok_mapM. intros v Iv. now apply ok_get, H. Qed.
Lemma ok_over2 f a b : (forall x y, x < a -> y < b -> ok (f x y)) -> ok (over2 f (seq 0 a) (seq 0 b)).
Proof. intros H. unfold over2. apply family_ok. intros (x, y) J. apply in_prod_iff in J as (Jx & Jy). apply in_seq in Jx, Jy. cbn [fst snd]; apply H; lia. Qed.
Lemma ok_over3 f a b c : (forall x y z, x < a -> y < b -> z < c -> ok (f x y z)) -> ok (over3 f (seq 0 a) (seq 0 b) (seq 0 c)).
Proof. intros H. unfold over3. apply family_ok. intros ((x, y), z) J. apply in_prod_iff in J as (J & Jz). apply in_prod_iff in J as (Jx & Jy). apply in_seq in Jx, Jy, Jz. cbn [fst snd]; apply H; lia. Qed.
Lemma ok_over4 f a b c d : (forall x y z v, x < a -> y < b -> z < c -> v < d -> ok (f x y z v)) -> ok (over4 f (seq 0 a) (seq 0 b) (seq 0 c) (seq 0 d)).
Proof. intros H. unfold over4. apply family_ok. intros (((x, y), z), v) J. apply in_prod_iff in J as (J & Jv). apply in_prod_iff in J as (J & Jz). apply in_prod_iff in J as (Jx & Jy). apply in_seq in Jx, Jy, Jz, Jv. cbn [fst snd]; apply H; lia. Qed.
Lemma ok_opt b r : (b = true -> ok r) -> ok (optional b r).
Proof. unfold optional. destruct b; [auto|intros; apply ok_ret]. Qed.
Lemma row_lt h n i k : h < k -> i < n -> h * n + i < k * n.
Proof. intros. nia. Qed.
Local Ltac decl := apply andb_true_intro; split; apply Nat.ltb_lt.

Lemma d_gen h g t : h < w_noh W -> g < n_gen W -> t < w_time W -> declared W M (NGen (con_gen W h + g) t) = true.
Proof. intros. cbn [declared]. decl; [unfold con_gen; nia|auto]. Qed.
Lemma d_cost h g t : h < w_noh W -> g < n_gen W -> t < w_time W -> declared W M (NGCost (con_gen W h + g) t) = true.
Proof. intros. cbn [declared]. decl; [apply row_lt; auto|auto]. Qed.
Lemma d_pump h p t : h < w_noh W -> p <= n_pump W -> t < w_time W -> declared W M (NPump (con_pump W h + p) t) = true.
Proof. intros. cbn [declared]. decl; [apply row_lt; lia|auto]. Qed.
Lemma units_length : List.length (fl_units (m_fleet M)) = n_gen W.
Proof. destruct (initialise_inv _ _ _ I) as (gs & EG & _ & _ & _ & _ & _ & _ & _ & _ & _ & _ & _ & EF & _). apply build_fleet_ok in EF as (_ & LU & _). pose proof (all_gens_ok _ _ _ _ _ _ _ EG) as (L & _). unfold n_gen. rewrite LU. exact L. Qed.
Lemma ok_unit g : g < n_gen W -> ok (unit_at M g).
Proof. intros L. apply ok_at. now rewrite units_length. Qed.
Lemma ok_weight t : t < w_time W -> ok (at_ (m_weights M) t).
Proof. intros L. destruct (initialise_inv _ _ _ I) as (gs & _ & _ & _ & _ & _ & _ & _ & _ & _ & _ & _ & _ & _ & _ & _ & EW & _). apply ok_at. rewrite EW. destruct (w_weights W) as [l|] eqn:E; [|now rewrite repeat_length]. pose proof (cp_weights W C l E). lia. Qed.
Lemma ok_prev t : t < w_time W -> exists p, at_ (m_prev M) t = Ok p /\ p < w_time W.
Proof. intros L. destruct (initialise_inv _ _ _ I) as (gs & _ & _ & _ & _ & _ & _ & _ & _ & _ & _ & _ & _ & _ & _ & EP & _). apply previous_ok in EP as (P & _ & N). exists (before (w_time W) t). split; [apply at_nth; now apply N|]. unfold before. destruct (t =? 0); lia. Qed.
Lemma cases_eq : m_cases M = List.length (w_security W).
Proof. destruct (initialise_inv _ _ _ I) as (gs & _ & _ & _ & E & _). now rewrite E, sec_eq. Qed.
Lemma index_ok k (l : list Q) time x t : 1 <= x <= k -> k * time <= List.length l -> t < time -> ok (py_index l (Z.of_nat t + offset time x)).
Proof. intros (X1 & X2) L T. unfold offset. replace (Z.of_nat t + (Z.of_nat x - 1) * Z.of_nat time)%Z with (Z.of_nat ((x - 1) * time + t)) by nia. rewrite py_index_nat. destruct (nth_error l ((x - 1) * time + t)) eqn:N; [apply ok_ret|]. apply nth_error_None in N. nia. Qed.
Lemma ok_demand n t h : n < n_bus W -> t < w_time W -> h < w_noh W -> ok (demand_at W M n t h).
Proof.
  intros Ln Lt Lh. pose proof (cp_noh W C) as NH. pose proof (cp_demand W C) as D. destruct (initialise_inv _ _ _ I) as (gs & _ & _ & _ & _ & _ & _ & _ & _ & _ & EO & _). unfold demand_at, daux. destruct (Nat.eqb_spec (w_nodem W) 0) as [Z|Z].
  - rewrite Z in EO. cbn [Nat.ltb Nat.leb] in EO. injection EO as EO. rewrite <- EO. assert (A1 : at_ (repeat (repeat 0%Z (w_scen W)) (n_bus W)) n = Ok (repeat 0%Z (w_scen W))) by (apply at_nth; now apply HydroTables.nth_repeat). assert (A2 : at_ (repeat 0%Z (w_scen W)) h = Ok 0%Z) by (apply at_nth; apply HydroTables.nth_repeat; lia). rewrite A1, bind_ok, A2, bind_ok, Nat.mul_0_r. change (Z.of_nat 0 + 0)%Z with (Z.of_nat 0). rewrite py_index_nat. destruct (w_demand W); [easy|apply ok_ret].
  - replace (0 <? w_nodem W) with true in EO by (symmetry; apply Nat.ltb_lt; lia). destruct (offsets_ok _ _ _ _ _ EO n h Ln ltac:(lia)) as (l & r & Nl & Er & Eo). rewrite Er, bind_ok, Eo, bind_ok, Nat.mul_1_r. destruct D as (D1 & D2). apply (index_ok (w_nodem W)); auto. apply nth_error_In in Nl. unfold links_of in Nl. destruct (w_links W) as [ls|].
    + destruct D2 as (_ & F). rewrite Forall_forall in F. now apply F.
    + pose proof (default_range (n_bus W) (w_scen W)) as F. rewrite Forall_forall in F. specialize (F l Nl). lia.
Qed.
Lemma ok_farm r t h : r < n_ren W -> t < w_time W -> h < w_noh W -> ok (farm_max W M r t h).
Proof.
  intros Lr Lt Lh. pose proof (cp_noh W C) as NH. pose proof (cp_farms W C ltac:(lia)) as D. destruct (initialise_inv _ _ _ I) as (gs & _ & _ & _ & _ & _ & _ & _ & _ & _ & _ & EO & _). destruct (offsets_ok _ _ _ _ _ EO r h Lr ltac:(lia)) as (l & row & Nl & Er & Eo). unfold farm_max. rewrite Er, bind_ok, Eo, bind_ok. apply ok_bind; [|intros q _; apply ok_bind; [now apply ok_at|intros; apply ok_ret]].
  rewrite Z.add_comm. apply nth_error_In in Nl. unfold res_links in Nl. destruct D as [(D1 & D2)|(D1 & D2 & D3)].
  - rewrite D1 in Nl. cbn [Nat.eqb] in Nl. apply repeat_spec in Nl. subst l. apply (index_ok 1); lia.
  - destruct (Nat.eqb_spec (w_nores W) 1); [lia|]. apply (index_ok (w_nores W)); auto. unfold links_of in Nl. destruct (w_links_res W) as [ls|].
    + destruct D3 as (_ & F). rewrite Forall_forall in F. now apply F.
    + pose proof (default_range (n_ren W) (w_scen W)) as F. rewrite Forall_forall in F. specialize (F l Nl). lia.
Qed.
Lemma ok_all_gen h t : h < w_noh W -> t < w_time W -> ok (all_gen W M h t).
Proof. intros Lh Lt. unfold all_gen, gen_sum. apply ok_gets. intros v Iv. apply in_map_iff in Iv as (g & <- & Ig). apply in_seq in Ig. apply d_gen; auto; lia. Qed.

Section Network.
Hypothesis FL : w_flag W = true.
Lemma d_flow h i t : h < w_noh W -> i < all_flows W M -> t < w_time W -> declared W M (NFlow (con_flow W M h + i) t) = true.
Proof. intros. cbn [declared]. rewrite FL. cbn [andb]. decl; [apply row_lt; auto|auto]. Qed.
Lemma d_volt h xs p t : h < w_noh W -> xs < m_cases M + 1 -> p < n_bus W -> t < w_time W -> declared W M (NVolt (con_volt W M h + (xs * n_bus W + p)) t) = true.
Proof. intros. cbn [declared]. rewrite FL. cbn [andb]. decl; [apply row_lt; auto; unfold all_volts; nia|auto]. Qed.
Lemma d_loss h b t : w_losses W = true -> h < w_noh W -> b < n_bra W -> t < w_time W -> declared W M (NLoss (con_loss W h + b) t) = true.
Proof. intros LS. intros. cbn [declared]. rewrite FL, LS. cbn [andb]. decl; [apply row_lt; auto|auto]. Qed.
Lemma flow_case xs b : xs < m_cases M + 1 -> b < n_bra W -> exists o, flow_no (m_grid M) xs b = Ok o /\ forall i, o = Some i -> i < all_flows W M.
Proof.
  intros Lx Lb. rewrite cases_eq in Lx. eexists. split; [apply (flow_no_ok cf W M I (cp_flag W C)); [lia|exact Lb]|]. intros i E. unfold all_flows. rewrite cases_eq. apply (flow_index_lt _ _ _ _ _ (cp_sec W C) Lb E).
Qed.
Lemma volt_ok xs p : xs < m_cases M + 1 -> volt_no (m_grid M) (n_bus W) xs p = Ok (xs * n_bus W + p).
Proof.
  intros Lx. unfold volt_no. destruct (initialise_inv _ _ _ I) as (gs & _ & EG & _). pose proof (build_grid_cases (numbers W) (w_branches W) (w_secflag W) (w_security W)) as B. rewrite EG in B. destruct B as (_ & _ & _ & _ & B). rewrite B, case_rows_length, (cp_flag W C). cbn [tripped]. rewrite cases_eq in Lx. replace (xs <? S (List.length (w_security W))) with true by (symmetry; apply Nat.ltb_lt; lia). reflexivity.
Qed.
Lemma ok_flow t b xs h : t < w_time W -> b < n_bra W -> xs < m_cases M + 1 -> h < w_noh W -> ok (flow_rule W M t b xs h).
Proof.
  intros Lt Lb Lx Lh. unfold flow_rule. destruct (at_total (w_branches W) b Lb) as (br & Eb & Nb). rewrite Eb, bind_ok. destruct (flow_case xs b Lx Lb) as (o & Eo & Ho). rewrite Eo, bind_ok. destruct o as [i|]; [|apply ok_ret]. specialize (Ho i eq_refl).
  destruct (initialise_inv _ _ _ I) as (gs & _ & EG & _). pose proof (build_grid_cases (numbers W) (w_branches W) (w_secflag W) (w_security W)) as B. rewrite EG in B. destruct B as (_ & E & _). unfold ends_ok in E. destruct (F2_nth _ _ _ _ _ E Nb) as (e & Ne & E1 & E2). apply at_nth in Ne. rewrite Ne, bind_ok. apply find_bus_lt in E1, E2. unfold numbers in E1, E2. rewrite map_length in E1, E2. rewrite !volt_ok, !bind_ok by exact Lx.
  apply ok_bind; [now apply ok_get, d_flow|]. intros f _. apply ok_bind; [now apply ok_get, d_volt|]. intros a _. apply ok_bind; [now apply ok_get, d_volt|]. intros c _. destruct (Qeq_bool (br_x br) 0) eqn:X; [|apply ok_ret]. apply Qeq_bool_iff in X. exfalso. pose proof (cp_branches W C) as F. rewrite Forall_forall in F. destruct (F br (nth_error_In _ _ Nb)) as (_ & _ & N). easy.
Qed.
Lemma ok_limit lowr t b xs h : t < w_time W -> b < n_bra W -> xs < m_cases M + 1 -> h < w_noh W -> ok (limit_rule W M lowr t b xs h).
Proof.
  intros Lt Lb Lx Lh. unfold limit_rule. destruct (at_total (w_branches W) b Lb) as (br & Eb & Nb). rewrite Eb, bind_ok. destruct (flow_case xs b Lx Lb) as (o & Eo & Ho). rewrite Eo, bind_ok. destruct o as [i|]; [|apply ok_ret]. specialize (Ho i eq_refl). apply ok_bind; [now apply ok_get, d_flow|]. intros f _. destruct lowr; apply ok_ret.
Qed.
Lemma ok_loss neg b l t h : w_losses W = true -> b < n_bra W -> l < List.length (m_chords M) -> t < w_time W -> h < w_noh W -> ok (loss_rule W M neg b l t h).
Proof.
  intros LS Lb Ll Lt Lh. unfold loss_rule. apply ok_bind; [now apply ok_at|]. intros br _. apply ok_bind; [now apply ok_at|]. intros c _. apply ok_bind; [now apply ok_get, d_loss|]. intros v _. apply ok_bind; [apply ok_get, d_flow; auto; unfold all_flows; lia|]. intros f _. apply ok_ret.
Qed.
Lemma table_ok l tab n : placed (numbers W) (map l (w_branches W)) (n_bra W) tab -> n < n_bus W -> exists bs, at_ tab n = Ok bs /\ forall b, In b bs -> b < n_bra W.
Proof. intros P Ln. assert (E : exists bs, at_ tab n = Ok bs) by (apply ok_at; destruct P as (P & _); rewrite P; unfold numbers; now rewrite map_length). destruct E as (bs & E). exists bs. split; [exact E|]. intros b Ib. eapply placed_bound; eauto. Qed.
Lemma ok_flows l tab n xs : placed (numbers W) (map l (w_branches W)) (n_bra W) tab -> n < n_bus W -> xs < m_cases M + 1 -> exists fs, flows_at (m_grid M) tab n xs = Ok fs /\ (forall i, In i fs -> i < all_flows W M) /\ (w_security W = [] -> forall i, In i fs -> i < n_bra W).
Proof.
  intros P Ln Lx. destruct (table_ok l tab n P Ln) as (bs & E & H). unfold flows_at. rewrite E, bind_ok. assert (X : exists r, mapM (flow_no (m_grid M) xs) bs = Ok r). { apply ok_mapM. intros b Ib. destruct (flow_case xs b Lx (H b Ib)) as (o & -> & _). apply ok_ret. } destruct X as (r & X). rewrite X, bind_ok. eexists. split; [reflexivity|].
  apply mapM_Ok in X. assert (Y : forall i, In i (somes r) -> exists b, In b bs /\ flow_no (m_grid M) xs b = Ok (Some i)). { intros i Ii. apply somes_in, In_nth_error in Ii as (k & Nk). destruct (F2_nth_r _ _ _ _ _ X Nk) as (b & Nb & Eb). exists b. split; [eapply nth_error_In; eauto|exact Eb]. } split.
  - intros i Ii. destruct (Y i Ii) as (b & Ib & Eb). destruct (flow_case xs b Lx (H b Ib)) as (o & Eo & Ho). apply Ho. congruence.
  - intros S i Ii. destruct (Y i Ii) as (b & Ib & Eb). rewrite cases_eq, S in Lx. cbn [List.length] in Lx. assert (xs = 0) by lia. subst xs. rewrite (flow_no_ok cf W M I (cp_flag W C)) in Eb by (auto; lia). cbn [flow_index] in Eb. injection Eb as <-. now apply H.
Qed.
Lemma ok_half l tab n t h fs : placed (numbers W) (map l (w_branches W)) (n_bra W) tab -> n < n_bus W -> t < w_time W -> h < w_noh W -> (w_security W = [] -> forall i, In i fs -> i < n_bra W) -> ok (half_losses W M n t h tab fs).
Proof.
  intros P Ln Lt Lh H. unfold half_losses. destruct (w_losses W) eqn:LS.
  - destruct (table_ok l tab n P Ln) as (bs & E & Hb). rewrite E, bind_ok. apply ok_bind; [|intros; apply ok_ret]. apply ok_gets. intros v Iv. apply in_map_iff in Iv as (b & <- & Ib). now apply d_loss; auto.
  - apply ok_bind; [|intros; apply ok_ret]. apply ok_mapM. intros i Ii. apply ok_bind; [|intros; apply ok_ret]. apply ok_at. destruct (cp_sec_losses W C FL) as [?|S]; [congruence|]. now apply H.
Qed.
Lemma ok_balance n t xs h : n < n_bus W -> t < w_time W -> xs < m_cases M + 1 -> h < w_noh W -> ok (balance_rule W M n t xs h).
Proof.
  intros Ln Lt Lx Lh. pose proof (cp_noh W C) as NH. destruct (initialise_inv _ _ _ I) as (gs & EGS & EG & _ & _ & _ & EP & EF1 & EF2 & EL & _ & _ & _ & _ & ES & _). rewrite stores_none in ES. injection ES as ES. pose proof (build_grid_cases (numbers W) (w_branches W) (w_secflag W) (w_security W)) as B. rewrite EG in B. destruct B as (_ & _ & PF & PT & _).
  unfold balance_rule. assert (A1 : at_ (m_stor M) n = Ok (repeat 0 (w_scen W))) by (rewrite <- ES; apply at_nth; now apply HydroTables.nth_repeat). assert (A2 : at_ (repeat 0 (w_scen W)) h = Ok 0) by (apply at_nth; apply HydroTables.nth_repeat; lia). rewrite A1, bind_ok, A2, bind_ok. cbn [Nat.eqb]. rewrite bind_ok.
  destruct (ok_flows _ _ n xs PT Ln Lx) as (fin & Ein & Hin & Hin0). destruct (ok_flows _ _ n xs PF Ln Lx) as (fout & Eout & Hout & Hout0). rewrite Ein, bind_ok, Eout, bind_ok. apply ok_bind; [eapply ok_half; eauto|]. intros lf _. apply ok_bind; [eapply ok_half; eauto|]. intros lt _.
  pose proof (fleet_placed cf W M I) as PG. destruct PG as (PG1 & PG2). assert (Ln' : n < List.length (numbers W)) by (unfold numbers; now rewrite map_length). apply ok_bind; [apply ok_at; now rewrite PG1|]. intros gl Egl. apply ok_bind. { unfold gen_sum. apply ok_gets. intros v Iv. apply in_map_iff in Iv as (g & <- & Ig). apply at_nth in Egl. rewrite PG2 in Egl by exact Ln'. injection Egl as <-. apply filter_In in Ig as (Ig & _). apply in_seq in Ig. apply d_gen; auto; lia. } intros g _.
  apply ok_bind. { apply ok_gets. intros v Iv. apply in_map_iff in Iv as (i & <- & Ii). apply d_flow; auto. } intros i _. apply ok_bind; [apply ok_at; rewrite EL, map_length; exact Ln|]. intros load _. apply ok_bind; [now apply ok_demand|]. intros d _.
  apply ok_bind. { unfold store_change. destruct (ok_prev t Lt) as (p & Ep & Lp). rewrite Ep, bind_ok. apply ok_bind; [now apply ok_weight|]. intros w _. apply ok_bind; [apply ok_get; cbn [declared]; decl; lia|]. intros a _. apply ok_bind; [apply ok_get; cbn [declared]; decl; lia|]. intros; apply ok_ret. } intros sc _.
  destruct (fea_table_ok (w_buses W)) as (FC & FLn & FN). apply ok_bind; [apply ok_at; rewrite EF1, FLn; exact Ln|]. intros fe Efe. rewrite EF1 in Efe. apply at_nth in Efe. rewrite FN in Efe by exact Ln. injection Efe as <-. apply ok_bind.
  { apply ok_gets. intros v Iv. apply in_map_iff in Iv as (k & <- & Ik). apply in_seq in Ik. unfold fea_of in *. destruct (nth n (map (fun b => negb (Qle_bool (b_pd b) 0)) (w_buses W)) false) eqn:X; cbn [fst snd] in *; [|lia]. apply count_lt in X. rewrite <- FC in X. cbn [declared]. decl; [|exact Lt]. apply row_lt; auto. now rewrite EF2. } intros c _.
  apply pump_table_ok in EP as (PL & PN). apply ok_bind; [apply ok_at; now rewrite PL|]. intros pn Epn. apply at_nth in Epn. rewrite PN in Epn by exact Ln. apply ok_bind. { apply ok_get, d_pump; auto. destruct (find _ _) as [p|] eqn:FP; injection Epn as <-; [|lia]. apply find_some in FP as (IP & _). apply in_rev, in_seq in IP. unfold n_pump. lia. } intros p _.
  apply ok_bind; [|intros; apply ok_ret]. apply ok_gets. intros v Iv. apply in_map_iff in Iv as (k & <- & Ik). apply d_flow; auto.
Qed.
Lemma ok_network : ok (network_constraints W M).
Proof.
  unfold network_constraints, s_tim, s_bra, s_sec, s_con, s_bus. apply ok_bind; [apply ok_over4; intros; now apply ok_flow|]. intros a _. apply ok_bind; [apply ok_over4; intros; now apply ok_limit|]. intros b _. apply ok_bind; [apply ok_over4; intros; now apply ok_limit|]. intros c _. apply ok_bind; [apply ok_opt; intros LS; apply ok_over4; intros; now apply ok_loss|]. intros d _. apply ok_bind; [apply ok_opt; intros LS; apply ok_over4; intros; now apply ok_loss|]. intros e _. apply ok_bind; [apply ok_over4; intros; now apply ok_balance|]. intros f _. apply ok_ret.
Qed.
End Network.

Lemma ok_balance0 t xs h : w_flag W = false -> t < w_time W -> h < w_noh W -> ok (balance0_rule W M t xs h).
Proof.
  intros FL Lt Lh. destruct (initialise_inv _ _ _ I) as (gs & _ & _ & _ & _ & _ & _ & _ & EF2 & EL & _). unfold balance0_rule. apply ok_bind.
  { apply ok_mapM. intros n In_. apply in_seq in In_. apply ok_bind; [apply ok_at; rewrite EL, map_length; unfold n_bus in *; lia|]. intros load _. apply ok_bind; [apply ok_demand; auto; lia|]. intros; apply ok_ret. } intros ds _.
  apply ok_bind. { apply ok_gets. intros v Iv. apply in_map_iff in Iv as (x & <- & Ix). apply in_seq in Ix. cbn [declared]. decl; [nia|exact Lt]. } intros p _.
  apply ok_bind. { unfold dummy, faux. apply ok_gets. intros v Iv. apply in_map_iff in Iv as (x & <- & Ix). destruct (w_feas W) eqn:FE; [|easy]. destruct (cp_feas W C FL FE) as (b & Ib & Pb). destruct (fea_table_ok (w_buses W)) as (FC & _). assert (K : 1 <= m_nofea M). { rewrite EF2, FC. apply In_nth_error in Ib as (k & Nk). pose proof (count_lt (map (fun b => negb (Qle_bool (b_pd b) 0)) (w_buses W)) k) as CL. assert (X : nth k (map (fun b => negb (Qle_bool (b_pd b) 0)) (w_buses W)) false = true). { apply nth_error_nth. rewrite nth_error_map, Nk. cbn. f_equal. apply negb_true_iff. destruct (Qle_bool (b_pd b) 0) eqn:Q; [|reflexivity]. apply Qle_bool_iff in Q. exfalso. lra. } apply CL in X. lia. } cbn [declared]. decl; [nia|exact Lt]. } intros c _.
  apply ok_bind; [now apply ok_all_gen|]. intros g _. unfold n_stor. rewrite (cp_stores W C). cbn [List.length seq mapM]. rewrite bind_ok. apply ok_ret.
Qed.
Lemma ok_baseload g t h : g < n_gen W -> t < w_time W -> h < w_noh W -> ok (baseload_rule W M g t h).
Proof.
  intros Lg Lt Lh. unfold baseload_rule. apply ok_bind; [now apply ok_unit|]. intros u _. apply ok_bind; [now apply ok_weight|]. intros w _. match goal with |- ok (if ?b then _ else _) => destruct b end; [|apply ok_ret]. apply ok_bind; [now apply ok_get, d_gen|]. intros v _. apply ok_bind; [|intros; apply ok_ret]. apply ok_gets. intros x Ix. apply in_map_iff in Ix as (t2 & <- & It). apply in_seq in It. apply d_gen; auto; lia.
Qed.
Lemma no_derate u g t : derate_of M u g t = Ok 1%Q.
Proof. destruct (initialise_inv _ _ _ I) as (gs & _ & _ & _ & _ & _ & _ & _ & _ & _ & _ & _ & D & _). rewrite (cp_cool W C) in D. injection D as D. unfold derate_of. rewrite <- D. now destruct (un_kind u). Qed.
Lemma ok_max g t h : g < n_gen W -> t < w_time W -> h < w_noh W -> ok (max_rule W M g t h).
Proof. intros Lg Lt Lh. unfold max_rule. apply ok_bind; [now apply ok_unit|]. intros u _. rewrite no_derate, bind_ok. destruct (un_kind u); try apply ok_ret; (apply ok_bind; [now apply ok_get, d_gen|intros; apply ok_ret]). Qed.
Lemma ok_min g t h : g < n_gen W -> t < w_time W -> h < w_noh W -> ok (min_rule W M g t h).
Proof. intros Lg Lt Lh. unfold min_rule. apply ok_bind; [now apply ok_unit|]. intros u _. destruct (un_kind u); try apply ok_ret; (destruct (positive _); [|apply ok_ret]; apply ok_bind; [now apply ok_get, d_gen|intros; apply ok_ret]). Qed.

Section Commitment.
Hypothesis UC : w_uc W = true.
Lemma tally_le p gs n : tally p (firstn n gs) <= tally p gs.
Proof. unfold tally. rewrite <- (firstn_skipn n gs) at 2. rewrite filter_app, app_length. lia. Qed.
Lemma tally_sub (p q : gen -> bool) gs : (forall g, p g = true -> q g = true) -> tally p gs <= tally q gs.
Proof. intros H. unfold tally. induction gs as [|g gs IH]; [cbn; lia|]. cbn [filter]. destruct (p g) eqn:P; [rewrite (H g P); cbn [List.length]; lia|]. destruct (q g); cbn [List.length]; lia. Qed.
Lemma unit_bins g u : g < n_gen W -> unit_at M g = Ok u ->
  (forall b, un_bin u = Some b -> b <= fl_bin (m_fleet M)) /\ (forall b, un_mutv u = Some b -> b <= fl_mut (m_fleet M) /\ b <= fl_bin (m_fleet M)) /\ (forall b, un_mdtv u = Some b -> b <= fl_mdt (m_fleet M) /\ b <= fl_bin (m_fleet M)).
Proof.
  intros Lg Eu. destruct (unit_facts cf W M I g Lg) as (gs & ge & u' & EG & Ng & Eu' & U & _). assert (u' = u) by congruence. subst u'. destruct (initialise_inv _ _ _ I) as (gs' & EG' & _ & _ & _ & _ & _ & _ & _ & _ & _ & _ & _ & EF & _). assert (gs' = gs) by congruence. subst gs'. apply build_fleet_ok in EF as (_ & _ & _ & FB & FD & FM). destruct U as (_ & _ & _ & _ & _ & _ & UB & UD & UM & _).
  pose proof (tally_le has_bin gs g) as T1. pose proof (tally_le has_mut gs g) as T2. pose proof (tally_le has_mdt gs g) as T3. assert (T4 : tally has_mut gs <= tally has_bin gs) by (apply tally_sub; intros x H; unfold has_mut in H; now apply andb_prop in H). assert (T5 : tally has_mdt gs <= tally has_bin gs) by (apply tally_sub; intros x H; unfold has_mdt in H; now apply andb_prop in H).
  rewrite UB, UD, UM, FB, FD, FM. sp; intros b.
  - destruct (has_bin ge); [|discriminate]. intros [= <-]. lia.
  - destruct (has_mut ge); [|discriminate]. intros [= <-]. lia.
  - destruct (has_mdt ge); [|discriminate]. intros [= <-]. lia.
Qed.
Lemma d_bin h b t : h < w_noh W -> b <= fl_bin (m_fleet M) -> t < w_time W -> declared W M (NBin (con_gen W h + b) t) = true.
Proof. intros Lh Lb Lt. destruct (cp_uc W C UC) as (N1 & _). assert (h = 0) by lia. subst h. cbn [declared]. rewrite UC. cbn [andb]. decl; [unfold con_gen; nia|exact Lt]. Qed.
Lemma d_turn (up : bool) h b t : h < w_noh W -> b <= (if up then fl_mut (m_fleet M) else fl_mdt (m_fleet M)) -> t < w_time W -> declared W M (if up then NMut (con_gen W h + b) t else NMdt (con_gen W h + b) t) = true.
Proof. intros Lh Lb Lt. destruct (cp_uc W C UC) as (N1 & _). assert (h = 0) by lia. subst h. destruct up; cbn [declared]; rewrite UC; cbn [andb]; (decl; [unfold con_gen; nia|exact Lt]). Qed.
Lemma ok_max_uc g t h : g < n_gen W -> t < w_time W -> h < w_noh W -> ok (max_uc_rule W M g t h).
Proof.
  intros Lg Lt Lh. unfold max_uc_rule. destruct (ok_unit g Lg) as (u & Eu). rewrite Eu, bind_ok. destruct (unit_bins g u Lg Eu) as (B & _). rewrite no_derate, bind_ok. destruct (un_kind u); try apply ok_ret; (apply ok_bind; [now apply ok_get, d_gen|intros v _]; destruct (un_bin u) as [b|]; [|apply ok_ret]; apply ok_bind; [apply ok_get, d_bin; auto|intros; apply ok_ret]).
Qed.
Lemma ok_min_uc g t h : g < n_gen W -> t < w_time W -> h < w_noh W -> ok (min_uc_rule W M g t h).
Proof.
  intros Lg Lt Lh. unfold min_uc_rule. destruct (ok_unit g Lg) as (u & Eu). rewrite Eu, bind_ok. destruct (unit_bins g u Lg Eu) as (B & _). destruct (un_kind u); try apply ok_ret; (destruct (un_bin u) as [b|]; [|apply ok_ret]; apply ok_bind; [now apply ok_get, d_gen|intros v _]; apply ok_bind; [apply ok_get, d_bin; auto|intros; apply ok_ret]).
Qed.
Lemma ok_turn up g t h : g < n_gen W -> t < w_time W -> h < w_noh W -> ok (turn_rule W M up g t h).
Proof.
  intros Lg Lt Lh. unfold turn_rule. destruct (ok_unit g Lg) as (u & Eu). rewrite Eu, bind_ok. destruct (unit_bins g u Lg Eu) as (_ & B1 & B2). destruct (un_kind u); try apply ok_ret. destruct (if up then un_mutv u else un_mdtv u) as [i|] eqn:V; [|apply ok_ret].
  assert (B : i <= (if up then fl_mut (m_fleet M) else fl_mdt (m_fleet M)) /\ i <= fl_bin (m_fleet M)) by (destruct up; auto). destruct B as (B & B3). destruct (ok_prev t Lt) as (p & Ep & Lp). rewrite Ep, bind_ok. apply ok_bind; [apply ok_get, d_turn; auto|]. intros v _. apply ok_bind; [apply ok_get, d_bin; auto|]. intros a _. apply ok_bind; [apply ok_get, d_bin; auto|]. intros b _. apply ok_ret.
Qed.
Lemma window_lt time k t x : 2 <= time -> In x (window time k t) -> x < time.
Proof.
  intros Lt Ix. assert (X : In x (cycle time (2 * time) 1)). { unfold window in Ix. destruct t as [|y].
    - set (l := cycle time (2 * time) 1) in *. clearbody l. set (m := match k with O => 2 * time - 1 | S k' => k' end) in *. clearbody m. assert (Y : In x (firstn m l)) by (rewrite <- (firstn_skipn (2 * time - 1) (firstn m l)); apply in_or_app; now right). rewrite <- (firstn_skipn m l). apply in_or_app. now left.
    - assert (Y : In x (skipn y (cycle time (2 * time) 1))) by (rewrite <- (firstn_skipn k (skipn y _)); apply in_or_app; now left). rewrite <- (firstn_skipn y (cycle time (2 * time) 1)). apply in_or_app. now right. }
  apply In_nth_error in X as (i & Ni). assert (Li : i < 2 * time) by (rewrite <- (cycle_length time (2 * time) 1); apply nth_error_Some; congruence). rewrite cycle_nth in Ni by lia. injection Ni as <-. apply Nat.mod_upper_bound. lia.
Qed.
Lemma ok_hold up g t h : g < n_gen W -> t < w_time W -> h < w_noh W -> ok (hold_rule W M up g t h).
Proof.
  intros Lg Lt Lh. unfold hold_rule. destruct (ok_unit g Lg) as (u & Eu). rewrite Eu, bind_ok. destruct (unit_bins g u Lg Eu) as (_ & B1 & B2). destruct (un_kind u); try apply ok_ret. destruct (if up then un_mutv u else un_mdtv u) as [i|] eqn:V; [|apply ok_ret].
  assert (B : i <= (if up then fl_mut (m_fleet M) else fl_mdt (m_fleet M)) /\ i <= fl_bin (m_fleet M)) by (destruct up; auto). destruct B as (B & B3). apply ok_bind; [apply ok_get, d_turn; auto|]. intros v _. apply ok_bind; [|intros; apply ok_ret]. apply ok_mapM. intros x Ix. apply window_lt in Ix; [|now apply (cp_uc W C UC)]. apply ok_bind; [apply ok_get, d_bin; auto|intros; apply ok_ret].
Qed.
End Commitment.

Lemma ok_units : ok (unit_constraints W M).
Proof.
  unfold unit_constraints, s_gen, s_tim, s_con. destruct (w_uc W) eqn:UC.
  - apply ok_bind; [apply ok_over3; intros; now apply ok_max_uc|]. intros a _. apply ok_bind; [apply ok_over3; intros; now apply ok_min_uc|]. intros b _. apply ok_bind; [apply ok_over3; intros; now apply ok_turn|]. intros c _. apply ok_bind; [apply ok_over3; intros; now apply ok_turn|]. intros d _. apply ok_bind; [apply ok_over3; intros; now apply ok_hold|]. intros e _. apply ok_bind; [apply ok_over3; intros; now apply ok_hold|]. intros f _. apply ok_ret.
  - apply ok_bind; [apply ok_over3; intros; now apply ok_max|]. intros a _. apply ok_bind; [apply ok_over3; intros; now apply ok_min|]. intros b _. apply ok_ret.
Qed.
Lemma ok_cost g c t h : g < n_gen W -> t < w_time W -> h < w_noh W -> ok (cost_rule W M g c t h).
Proof.
  intros Lg Lt Lh. unfold cost_rule. apply ok_bind; [now apply ok_unit|]. intros u _. apply ok_bind; [now apply ok_weight|]. intros w _. destruct (Nat.ltb_spec c (List.length (un_lines u))); [|apply ok_ret]. apply ok_bind; [now apply ok_at|]. intros l _. apply ok_bind; [now apply ok_get, d_cost|]. intros x _. apply ok_bind; [now apply ok_get, d_gen|intros; apply ok_ret].
Qed.
Lemma ok_ramp up g t h : g < n_gen W -> t < w_time W -> h < w_noh W -> ok (ramp_rule W M up g t h).
Proof.
  intros Lg Lt Lh. unfold ramp_rule. destruct (ok_prev t Lt) as (p & Ep & Lp). rewrite Ep, bind_ok. apply ok_bind; [now apply ok_unit|]. intros u _. destruct (un_kind u); try apply ok_ret; (destruct (negb _); [|apply ok_ret]; apply ok_bind; [now apply ok_get, d_gen|intros a _]; apply ok_bind; [now apply ok_get, d_gen|intros; apply ok_ret]).
Qed.
Lemma ok_services : ok (service_constraints W M).
Proof.
  destruct (initialise_inv _ _ _ I) as (gs & _ & _ & _ & _ & _ & _ & _ & _ & _ & _ & _ & _ & _ & _ & _ & _ & a & r & EA & ER & S1 & S2 & S3). unfold ancillary in EA. rewrite (cp_anc W C) in EA. injection EA as <-. assert (R0 : r = (0, 0)). { unfold support in ER. destruct (Nat.eqb_spec (n_ren W) 0); [congruence|]. pose proof (cp_unc W C ltac:(lia)) as U. apply at_nth in U. rewrite U, bind_ok in ER. congruence. } subst r. cbn [fst snd] in *.
  unfold service_constraints, services. rewrite S2, S3. cbn [Nat.add Nat.ltb Nat.leb optional Nat.eqb andb]. rewrite bind_ok. destruct (n_ren W) eqn:B.
  - rewrite bind_ok. cbn [optional]. rewrite bind_ok. apply ok_ret.
  - pose proof (cp_unc W C ltac:(lia)) as U. apply at_nth in U. rewrite U, !bind_ok. cbn [given optional]. rewrite bind_ok. apply ok_ret.
Qed.
Theorem constraints_total : ok (constraints W M).
Proof.
  unfold constraints, s_gen, s_tim, s_con, s_sec. apply ok_bind. { destruct (w_flag W) eqn:FL; [now apply ok_network|]. apply ok_over3. intros. now apply ok_balance0. } intros c1 _. apply ok_bind; [apply ok_opt; intros _; apply ok_over3; intros; now apply ok_baseload|]. intros c2 _. apply ok_bind; [exact ok_units|]. intros c3 _. apply ok_bind; [apply ok_over4; intros; now apply ok_cost|]. intros c4 _.
  apply ok_bind. { apply ok_over3. intros p t h Lp Lt Lh. unfold pump_max_rule. apply ok_bind; [rewrite <- Nat.add_assoc; apply ok_get, d_pump; auto; lia|]. intros v _. apply ok_bind; [now apply ok_at|intros; apply ok_ret]. } intros c5 _.
  apply ok_bind. { apply ok_over2. intros t h Lt Lh. unfold pump_ini_rule. rewrite <- (Nat.add_0_r (con_pump W h)). apply ok_bind; [apply ok_get, d_pump; auto; lia|intros; apply ok_ret]. } intros c6 _.
  apply ok_bind. { apply ok_over3. intros t r h Lt Lr Lh. unfold res_rule. apply ok_bind; [apply ok_get, d_gen; auto; unfold farm_gen, n_gen; lia|]. intros v _. apply ok_bind; [now apply ok_farm|intros; apply ok_ret]. } intros c7 _.
  unfold n_stor. rewrite (cp_stores W C). cbn [List.length Nat.ltb Nat.leb]. rewrite bind_ok. apply ok_bind. { apply family_ok. intros t It. apply in_seq in It. unfold store0_rule. apply ok_bind; [|intros; apply ok_ret]. apply ok_get. cbn [declared]. decl; lia. } intros c8 _.
  apply ok_bind; [apply ok_over3; intros; now apply ok_ramp|]. intros c9 _. apply ok_bind; [apply ok_over3; intros; now apply ok_ramp|]. intros c10 _. apply ok_bind; [exact ok_services|]. intros c11 _. apply ok_ret.
Qed.
End Built.
