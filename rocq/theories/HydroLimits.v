(** Flow limits and the delay of rivers. *)
From Coq Require Import List Bool Arith ZArith QArith Qround Qminmax Lia Lqa.
From Verif Require Import Base GraphData GraphDataProofs Cases CasesProofs Network InputOutput InputOutputProofs ConverterOpen Hydro HydroSpec HydroNet HydroParts HydroTables HydroModel HydroFlow.
Import ListNotations.
Open Scope nat_scope.
Open Scope list_scope.

Local Ltac sp := repeat match goal with |- _ /\ _ => split end.
Local Ltac binv H := repeat (let a := fresh "v" in let E := fresh "E" in apply bind_inv in H as (a & E & H)).

(** ** The share that leaves *)

Open Scope Q_scope.
(** The share for [k] of [b] buckets, [x] buckets long in a time step. *)
Definition bucket_share (b k x : Q) : Q := k / b * (1 - (k + 1) / (2 * x)).

Lemma inject_pos b : (0 < b)%Z -> 0 < inject_Z b.
Proof. intros L. unfold Qlt, inject_Z. cbn. lia. Qed.
Lemma leaving_bucket seconds len b s : 0 < seconds -> 0 < len -> (0 < b)%Z -> 0 < s ->
  let x := s * seconds / (len / inject_Z b) in 0 < x /\ leaving seconds len b s == bucket_share (inject_Z b) (inject_Z (Z.min b (Qfloor x))) x.
Proof.
  intros P1 P2 P3 P4. pose proof (inject_pos b P3) as PB. cbv zeta. split.
  - apply Qlt_shift_div_l; [apply Qlt_shift_div_l; lra|]. rewrite Qmult_0_l. now apply Qmult_lt_0_compat.
  - unfold leaving, bucket_share. cbv zeta. generalize (inject_Z (Z.min b (Qfloor (s * seconds / (len / inject_Z b))))). intros k. field. repeat split; lra.
Qed.

Lemma Qfloor_mono x y : x <= y -> (Qfloor x <= Qfloor y)%Z.
Proof. apply Qfloor_resp_le. Qed.
Lemma bucket_range b x : (0 < b)%Z -> 0 < x -> let k := Z.min b (Qfloor x) in (0 <= k <= b)%Z /\ inject_Z k <= x.
Proof.
  intros PB PX. cbv zeta. assert (F : (0 <= Qfloor x)%Z) by (change 0%Z with (Qfloor 0); apply Qfloor_resp_le; lra). split; [lia|]. eapply Qle_trans; [|apply (Qfloor_le x)]. rewrite <- Zle_Qle. lia.
Qed.
Lemma bucket_bounds b k x : (0 < b)%Z -> (0 <= k <= b)%Z -> 0 < x -> inject_Z k <= x -> 0 <= bucket_share (inject_Z b) (inject_Z k) x <= 1.
Proof.
  intros PB (K0 & K1) PX KX. pose proof (inject_pos b PB) as PB2. assert (KB : 0 <= inject_Z k / inject_Z b <= 1). { split; [apply Qle_shift_div_l; auto; rewrite Qmult_0_l; rewrite Zle_Qle in K0; exact K0|apply Qle_shift_div_r; auto; rewrite Qmult_1_l; now rewrite <- Zle_Qle]. }
  unfold bucket_share. destruct (Z.eq_dec k 0) as [->|Nk].
  - setoid_replace (inject_Z 0 / inject_Z b) with 0 by (unfold Qdiv; change (inject_Z 0) with 0; ring). lra.
  - assert (K2 : inject_Z k + 1 <= 2 * x). { assert (1 <= inject_Z k) by (change 1 with (inject_Z 1); rewrite <- Zle_Qle; lia). lra. }
    assert (R : 0 <= (inject_Z k + 1) / (2 * x) <= 1). { rewrite Zle_Qle in K0. change (inject_Z 0) with 0 in K0. split; [apply Qle_shift_div_l; lra|apply Qle_shift_div_r; lra]. }
    set (u := inject_Z k / inject_Z b) in *. set (v := (inject_Z k + 1) / (2 * x)) in *. clearbody u v. split.
    + apply Qmult_le_0_compat; lra.
    + setoid_replace 1 with (1 * 1) at 2 by ring. apply Qmult_le_compat_nonneg; lra.
Qed.
Lemma bucket_more b k k' x x' : (0 < b)%Z -> (0 <= k <= k')%Z -> 0 < x <= x' -> inject_Z k' <= x' -> bucket_share (inject_Z b) (inject_Z k) x <= bucket_share (inject_Z b) (inject_Z k') x'.
Proof.
  intros PB (K0 & K1) (PX & XX) KX. pose proof (inject_pos b PB) as PB2. apply Qle_trans with (bucket_share (inject_Z b) (inject_Z k) x').
  - unfold bucket_share. assert (KB : 0 <= inject_Z k / inject_Z b) by (apply Qle_shift_div_l; auto; rewrite Qmult_0_l; rewrite Zle_Qle in K0; exact K0).
    assert (KP : 0 <= inject_Z k) by (rewrite Zle_Qle in K0; exact K0).
    assert (V : (inject_Z k + 1) / (2 * x') <= (inject_Z k + 1) / (2 * x)). { apply Qle_shift_div_r; [lra|]. setoid_replace ((inject_Z k + 1) / (2 * x) * (2 * x')) with ((inject_Z k + 1) * (x' / x)) by (field; lra). assert (1 <= x' / x) by (apply Qle_shift_div_l; lra). setoid_replace (inject_Z k + 1) with ((inject_Z k + 1) * 1) at 1 by ring. apply Qmult_le_compat_nonneg; lra. }
    set (u := inject_Z k / inject_Z b) in *. destruct (Qlt_le_dec 0 u) as [Pu|Pu]; [apply Qmult_le_l; lra|]. assert (Z : u == 0) by lra. rewrite Z. lra.
  - destruct (Z.eq_dec k k') as [->|Nk]; [apply Qle_refl|].
    assert (D : bucket_share (inject_Z b) (inject_Z k') x' - bucket_share (inject_Z b) (inject_Z k) x' == (inject_Z k' - inject_Z k) / inject_Z b * (1 - (inject_Z k' + inject_Z k + 1) / (2 * x'))) by (unfold bucket_share; field; lra).
    assert (L : inject_Z k + 1 <= inject_Z k') by (change 1 with (inject_Z 1); rewrite <- inject_Z_plus, <- Zle_Qle; lia).
    assert (P : 0 <= (inject_Z k' - inject_Z k) / inject_Z b * (1 - (inject_Z k' + inject_Z k + 1) / (2 * x'))). { apply Qmult_le_0_compat; [apply Qle_shift_div_l; lra|]. assert ((inject_Z k' + inject_Z k + 1) / (2 * x') <= 1) by (apply Qle_shift_div_r; lra). lra. }
    lra.
Qed.

Theorem leaving_bounds seconds len b s : 0 < seconds -> 0 < len -> (0 < b)%Z -> 0 < s -> 0 <= leaving seconds len b s <= 1.
Proof.
  intros P1 P2 P3 P4. destruct (leaving_bucket seconds len b s P1 P2 P3 P4) as (PX & E). rewrite E. destruct (bucket_range b _ P3 PX) as (K & KX). now apply bucket_bounds.
Qed.
Theorem leaving_faster seconds len b s s' : 0 < seconds -> 0 < len -> (0 < b)%Z -> 0 < s <= s' -> leaving seconds len b s <= leaving seconds len b s'.
Proof.
  intros P1 P2 P3 (P4 & P5). assert (P6 : 0 < s') by lra. destruct (leaving_bucket seconds len b s P1 P2 P3 P4) as (PX & E). destruct (leaving_bucket seconds len b s' P1 P2 P3 P6) as (PX' & E'). rewrite E, E'.
  destruct (bucket_range b _ P3 PX) as (K & KX). destruct (bucket_range b _ P3 PX') as (K' & KX'). pose proof (inject_pos b P3) as PB.
  assert (XX : s * seconds / (len / inject_Z b) <= s' * seconds / (len / inject_Z b)). { unfold Qdiv at 1 3. apply Qmult_le_compat_r; [apply Qmult_le_compat_r; lra|]. apply Qinv_le_0_compat. apply Qle_shift_div_l; lra. }
  pose proof (Qfloor_resp_le _ _ XX). apply bucket_more; auto; lia.
Qed.

Section Powers.
Variables (pow53 root pow23 : Q -> Q).

Lemma ceiling_pos q : 0 < q -> (0 < Qceiling q)%Z.
Proof. intros P. pose proof (Qle_ceiling q) as H. assert (X : 0 < inject_Z (Qceiling q)) by lra. unfold Qlt, inject_Z in X. cbn in X. lia. Qed.

Theorem leaving_pair_bounds seconds r : 0 < seconds -> 0 < ri_length r -> 0 < speed root pow23 r (ri_dmax r) -> 0 <= speed root pow23 r (ri_dmin r) <= speed root pow23 r (ri_dmax r) ->
  let a := leaving_pair root pow23 seconds r in 0 <= snd a <= fst a /\ fst a <= 1.
Proof.
  intros P1 P2 P3 (P4 & P5). unfold leaving_pair. cbv zeta. set (s0 := speed root pow23 r (ri_dmax r)) in *. set (s1 := speed root pow23 r (ri_dmin r)) in *. destruct (Qeq_bool (s1 * seconds) 0) eqn:Z.
  - cbn [fst snd]. set (d := Qmin (s0 * seconds) (ri_length r)). assert (PD : 0 < s0 * seconds) by now apply Qmult_lt_0_compat. assert (D0 : 0 < d) by (unfold d; apply Q.min_glb_lt; auto). assert (D1 : d <= s0 * seconds) by apply Q.le_min_l. assert (D2 : d <= ri_length r) by apply Q.le_min_r.
    assert (V : 0 <= (1 # 2) * d ^ 2 / seconds / s0 <= d * (1 # 2)). { setoid_replace ((1 # 2) * d ^ 2 / seconds / s0) with (d * (1 # 2) * (d / (s0 * seconds))) by (field; lra). assert (W : 0 <= d / (s0 * seconds) <= 1) by (split; [apply Qle_shift_div_l; lra|apply Qle_shift_div_r; lra]). split; [apply Qmult_le_0_compat; lra|]. setoid_replace (d * (1 # 2)) with (d * (1 # 2) * 1) at 2 by ring. apply Qmult_le_compat_nonneg; lra. }
    set (v := (1 # 2) * d ^ 2 / seconds / s0) in *. clearbody v. split; [split; [lra|apply Qle_shift_div_l; lra]|apply Qle_shift_div_r; lra].
  - assert (P6 : 0 < s1). { destruct (Qlt_le_dec 0 s1) as [|L]; auto. exfalso. assert (X : s1 == 0) by lra. rewrite (proj2 (Qeq_bool_iff _ _)) in Z; [discriminate|]. rewrite X. ring. }
    assert (PB : (0 < Qceiling (ri_length r / (s1 * seconds)))%Z). { apply ceiling_pos. apply Qlt_shift_div_l; [now apply Qmult_lt_0_compat|lra]. }
    cbn [fst snd]. destruct (leaving_bounds seconds (ri_length r) _ s1 P1 P2 PB P6) as (A & _). destruct (leaving_bounds seconds (ri_length r) _ s0 P1 P2 PB P3) as (_ & B). split; [split; auto|auto]. apply leaving_faster; auto.
Qed.

(** The coefficients are the share that leaves at full speed. *)
Lemma f_linear_share seconds r : ~ q_max pow53 root r == q_min pow53 root r -> let a1 := fst (leaving_pair root pow23 seconds r) in let '(f0, f1, f2) := f_linear pow53 root pow23 seconds r in
  f0 == a1 /\ f1 == (1 - a1) * q_min pow53 root r /\ f2 == 1 - a1.
Proof.
  intros N. cbv zeta. unfold f_linear. destruct (leaving_pair root pow23 seconds r) as (a1, a2). cbn [fst]. assert (D : ~ q_max pow53 root r - q_min pow53 root r == 0) by lra. sp; field; auto.
Qed.
Lemma q_linear_empty seconds M r : let '(k, c) := q_linear pow53 root pow23 seconds M r in k * volume M r (ri_dmin r) + c == q_min pow53 root r.
Proof. unfold q_linear. destruct (f_linear _ _ _ _ _) as ((f0, f1), f2). cbv zeta. ring. Qed.

(** Flow downstream. *)
Lemma down_eq E Y rs nodes ramp s x r t h : made pow53 root pow23 E Y rs nodes ramp -> rules Y s -> (r < y_rivers Y)%nat -> (t < y_time Y)%nat -> (h < y_scen Y)%nat -> nth_error rs r = Some x -> ~ q_max pow53 root x == q_min pow53 root x ->
  let a := fst (leaving_pair root pow23 (e_seconds E) x) in let '(k, c) := q_linear pow53 root pow23 (e_seconds E) (e_m E) x in
  down Y s h t r == a * up Y s h t r + (1 - a) * (k * content Y s h t r + c) - s (HFeas (feas_row Y r h) (feas_time Y t)).
Proof.
  intros M RU Lr Lt Lh Ex NQ. cbv zeta. destruct (ru_down Y s RU r t h Lr Lt Lh) as (c & B & S1). unfold down_time, slack in B. binv B. apply get_inv in E0 as (-> & _). apply get_inv in E2 as (-> & _). apply get_inv in E3 as (-> & _). apply get_inv in E4 as (-> & _).
  rewrite (md_flin _ _ _ _ _ _ _ _ M) in E1. rewrite (md_qlin _ _ _ _ _ _ _ _ M) in E5. rewrite (md_qmin _ _ _ _ _ _ _ _ M) in E6. apply at_nth in E1, E5, E6. rewrite nth_error_map, Ex in E1. rewrite nth_error_map, Ex in E5. rewrite nth_error_map, Ex in E6. cbn [option_map] in E1, E5, E6. injection E1 as E1. injection E5 as E5. injection E6 as E6.
  pose proof (f_linear_share (e_seconds E) x NQ) as F. cbv zeta in F. rewrite E1 in F. rewrite E5. destruct v0 as ((f0, f1), f2). destruct v4 as (k, c0). injection B as <-. cbn [sat eval fst snd] in S1. unfold con_river in S1. rewrite (Nat.mul_comm _ h) in S1. destruct F as (F0 & F1 & F2). rewrite F0, F1, F2, <- E6 in S1. unfold down, up, content. rewrite S1. ring.
Qed.

(** Limits with slack. *)
Lemma limits_eq E Y rs nodes ramp s x r t h : made pow53 root pow23 E Y rs nodes ramp -> rules Y s -> (r < y_rivers Y)%nat -> (t < y_time Y)%nat -> (h < y_scen Y)%nat -> nth_error rs r = Some x ->
  let e := s (HFeas (feas_row Y r h) (feas_time Y t)) in
  declared Y (HFeas (feas_row Y r h) (feas_time Y t)) = true /\ q_min pow53 root x - e <= up Y s h t r <= q_max pow53 root x + e /\ q_min pow53 root x - e <= down Y s h t r <= q_max pow53 root x + e.
Proof.
  intros M RU Lr Lt Lh Ex. cbv zeta. pose proof (md_qmax _ _ _ _ _ _ _ _ M) as QM. pose proof (md_qmin _ _ _ _ _ _ _ _ M) as Qm.
  assert (AM : forall q, at_ (y_qmax Y) r = Ok q -> q = q_max pow53 root x). { intros q E0. rewrite QM in E0. apply at_nth in E0. rewrite nth_error_map, Ex in E0. now injection E0 as <-. }
  assert (Am : forall q, at_ (y_qmin Y) r = Ok q -> q = q_min pow53 root x). { intros q E0. rewrite Qm in E0. apply at_nth in E0. rewrite nth_error_map, Ex in E0. now injection E0 as <-. }
  destruct (ru_max_up Y s RU r t h Lr Lt Lh) as (c1 & B1 & S1). destruct (ru_max_down Y s RU r t h Lr Lt Lh) as (c2 & B2 & S2). destruct (ru_min_up Y s RU r t h Lr Lt Lh) as (c3 & B3 & S3). destruct (ru_min_down Y s RU r t h Lr Lt Lh) as (c4 & B4 & S4).
  unfold max_up, slack in B1. unfold max_down, slack in B2. unfold min_up, slack in B3. unfold min_down, slack in B4.
  apply bind_inv in B1 as (? & V1 & B1). apply bind_inv in B1 as (? & A1 & B1). apply bind_inv in B1 as (? & W1 & B1). injection B1 as <-. apply get_inv in V1 as (-> & _). apply get_inv in W1 as (-> & DC). apply AM in A1 as ->.
  apply bind_inv in B2 as (? & V1 & B2). apply bind_inv in B2 as (? & A1 & B2). apply bind_inv in B2 as (? & W1 & B2). injection B2 as <-. apply get_inv in V1 as (-> & _). apply get_inv in W1 as (-> & _). apply AM in A1 as ->.
  apply bind_inv in B3 as (? & V1 & B3). apply bind_inv in B3 as (? & A1 & B3). apply bind_inv in B3 as (? & W1 & B3). injection B3 as <-. apply get_inv in V1 as (-> & _). apply get_inv in W1 as (-> & _). apply Am in A1 as ->.
  apply bind_inv in B4 as (? & V1 & B4). apply bind_inv in B4 as (? & A1 & B4). apply bind_inv in B4 as (? & W1 & B4). injection B4 as <-. apply get_inv in V1 as (-> & _). apply get_inv in W1 as (-> & _). apply Am in A1 as ->.
  cbn [sat eval] in *. unfold con_river in *. rewrite !(Nat.mul_comm _ h) in *. unfold up, down. sp; auto.
Qed.
End Powers.

(** ** The penalty *)

Lemma qsum_nonneg l : Forall (fun q => 0 <= q) l -> 0 <= qsum l.
Proof. induction 1 as [|q l P F IH]; [apply Qle_refl|]. change (0 <= q + qsum l). lra. Qed.
Lemma qsum_zero l : Forall (fun q => 0 <= q) l -> qsum l == 0 -> Forall (fun q => q == 0) l.
Proof. induction 1 as [|q l P F IH]; intros H; [constructor|]. change (q + qsum l == 0) in H. pose proof (qsum_nonneg l F). constructor; [lra|]. apply IH. lra. Qed.
Lemma mapM_eval {A} (f : A -> res expr) (g : A -> Q) s l m : mapM f l = Ok m -> (forall a e, In a l -> f a = Ok e -> eval s e == g a) -> qsum (map (eval s) m) == qsum (map g l).
Proof.
  intros H. apply mapM_Ok in H. induction H as [|a e l m X F IH]; intros HG; [reflexivity|]. change (eval s e + qsum (map (eval s) m) == g a + qsum (map g l)). rewrite (HG a e (or_introl eq_refl) X), IH; [reflexivity|]. intros b e2 I. apply HG. now right.
Qed.
Lemma penalty_eq Y s : rules Y s -> s HPenalty == 1000 * below (y_scen Y) (fun h => below (y_time Y) (fun t => y_penalty Y * below (y_rivers Y) (fun r => s (HFeas (feas_row Y r h) (feas_time Y t))))).
Proof.
  intros RU. destruct (ru_penalty Y s RU) as (c & B & S1). unfold penalty_rule in B. apply bind_inv in B as (l & El & B). injection B as <-. cbn [sat eval] in S1. rewrite S1, esum_eval. apply Qmult_comp; [reflexivity|]. unfold below.
  eapply mapM_eval; [exact El|]. intros h e _ He. cbv beta in He. apply bind_inv in He as (l2 & El2 & He). injection He as <-. rewrite esum_eval. eapply mapM_eval; [exact El2|]. intros t e2 _ He2. cbv beta in He2. apply bind_inv in He2 as (l3 & El3 & He2). injection He2 as <-. cbn [eval]. rewrite esum_eval. apply Qmult_comp; [reflexivity|].
  eapply mapM_eval; [exact El3|]. intros r e3 _ He3. unfold slack in He3. apply get_inv in He3 as (-> & _). reflexivity.
Qed.
Lemma below_nonneg n f : (forall i, (i < n)%nat -> 0 <= f i) -> 0 <= below n f.
Proof. intros H. apply qsum_nonneg. apply Forall_forall. intros q I. apply in_map_iff in I as (i & <- & I). apply in_seq in I. apply H. lia. Qed.
Lemma below_all_zero n f : (forall i, (i < n)%nat -> 0 <= f i) -> below n f == 0 -> forall i, (i < n)%nat -> f i == 0.
Proof.
  intros H Z i L. assert (F : Forall (fun q => q == 0) (map f (seq 0 n))). { apply qsum_zero; auto. apply Forall_forall. intros q I. apply in_map_iff in I as (j & <- & I). apply in_seq in I. apply H. lia. }
  rewrite Forall_forall in F. apply F. apply in_map. apply in_seq. lia.
Qed.
Lemma slack_declared Y r t h : (r < y_rivers Y)%nat -> (t < y_time Y)%nat -> (h < y_scen Y)%nat -> declared Y (HFeas (feas_row Y r h) (feas_time Y t)) = true.
Proof.
  intros Lr Lt Lh. unfold declared, feas_row, feas_time, feas_no, feas_times. destruct (y_feas Y); apply andb_true_intro; split; apply Nat.ltb_lt; try lia. nia.
Qed.
Lemma no_slack Y s : answer Y s -> 0 < y_penalty Y -> s HPenalty == 0 -> forall r t h, (r < y_rivers Y)%nat -> (t < y_time Y)%nat -> (h < y_scen Y)%nat -> s (HFeas (feas_row Y r h) (feas_time Y t)) == 0.
Proof.
  intros AN P Z r t h Lr Lt Lh. pose proof (penalty_eq Y s (answer_rules Y s AN)) as PE. rewrite Z in PE. destruct AN as (NN & _).
  assert (N1 : forall r t h, (r < y_rivers Y)%nat -> (t < y_time Y)%nat -> (h < y_scen Y)%nat -> 0 <= s (HFeas (feas_row Y r h) (feas_time Y t))) by (intros; apply NN, slack_declared; auto).
  assert (N2 : forall t h, (t < y_time Y)%nat -> (h < y_scen Y)%nat -> 0 <= y_penalty Y * below (y_rivers Y) (fun r => s (HFeas (feas_row Y r h) (feas_time Y t)))) by (intros; apply Qmult_le_0_compat; [lra|]; apply below_nonneg; auto).
  set (big := below (y_scen Y) _) in PE. assert (ZB : big == 0) by lra. unfold big in ZB.
  pose proof (below_all_zero _ _ (fun h Lh => below_nonneg _ _ (fun t Lt => N2 t h Lt Lh)) ZB h Lh) as Z2. cbv beta in Z2. pose proof (below_all_zero _ _ (fun t Lt => N2 t h Lt Lh) Z2 t Lt) as Z3. cbv beta in Z3.
  assert (Z4 : below (y_rivers Y) (fun r => s (HFeas (feas_row Y r h) (feas_time Y t))) == 0). { apply Qmult_integral in Z3 as [Z3|Z3]; [lra|exact Z3]. }
  exact (below_all_zero _ _ (fun r Lr => N1 r t h Lr Lt Lh) Z4 r Lr).
Qed.
