(** Properties of the engines: wind and cooling profiles, failure sequences, Monte-Carlo simulation. *)
From Coq Require Import List Bool Arith ZArith QArith Qpower Qfield Lia Lqa.
From Verif Require Import Base GraphData GraphDataProofs Cases CasesSpec CasesProofs CasesClusters VerificationRun Engines EnginesProofs.
Import ListNotations.
Open Scope nat_scope.
Open Scope list_scope.

Local Ltac sp := repeat match goal with |- _ /\ _ => split end.

(** C59: the wind profile has an entry for each speed; with the corrected speed it is zero up to the cut-in speed and
    above the cut-out speed, the park rating from rated to cut-out speed, within zero and the rating everywhere, and it does
    not fall when the wind rises up to the cut-out speed. *)
Theorem C59_wind : forall t factor val, (0 <= tu_cutin t)%Q -> (tu_cutin t < tu_rated t)%Q -> (tu_rated t <= tu_cutout t)%Q -> (0 <= tu_park t)%Q -> 0 < tu_model t ->
  List.length (build_wind t factor val) = List.length val /\
  forall i v p, nth_error val i = Some v -> nth_error (build_wind t factor val) i = Some p ->
    (0 <= p <= tu_park t)%Q /\
    ((v * factor <= tu_cutin t)%Q -> (p == 0)%Q) /\
    ((tu_rated t <= v * factor <= tu_cutout t)%Q -> (p == tu_park t)%Q) /\
    ((tu_cutout t < v * factor)%Q -> (p == 0)%Q) /\
    (forall j w q, nth_error val j = Some w -> nth_error (build_wind t factor val) j = Some q -> (v * factor <= w * factor <= tu_cutout t)%Q -> (p <= q)%Q).
Proof.
  intros t factor val C R O P M. unfold build_wind. split; [apply map_length|]. intros i v p Hv Hp. rewrite nth_error_map, Hv in Hp. cbn [option_map] in Hp. inversion Hp as [E]. clear Hp. sp.
  - apply (wind_bounds t C R P M).
  - apply (wind_bounds t C R P M).
  - intros X. unfold wind_power. apply Qle_bool_iff in X. now rewrite X.
  - intros [X Y]. unfold wind_power. replace (Qle_bool (v * factor) (tu_cutin t)) with false by (symmetry; apply Qle_bool_false; lra).
    destruct (Qle_bool (v * factor) (tu_rated t)) eqn:E2.
    + apply Qle_bool_iff in E2. assert (EQ : (v * factor == tu_rated t)%Q) by lra. rewrite EQ. destruct (tu_model t) as [|n]; [lia|]. pose proof (Qpow_strict _ _ n C R) as S.
      revert S. generalize (tu_cutin t ^ Z.of_nat (S n))%Q (tu_rated t ^ Z.of_nat (S n))%Q. intros a b S. field. lra.
    + replace (Qle_bool (v * factor) (tu_cutout t)) with true by (symmetry; apply Qle_bool_iff; lra). reflexivity.
  - intros X. unfold wind_power. replace (Qle_bool (v * factor) (tu_cutin t)) with false by (symmetry; apply Qle_bool_false; lra).
    replace (Qle_bool (v * factor) (tu_rated t)) with false by (symmetry; apply Qle_bool_false; lra). replace (Qle_bool (v * factor) (tu_cutout t)) with false by (symmetry; apply Qle_bool_false; lra). reflexivity.
  - intros j w q Hw Hq [X Y]. rewrite nth_error_map, Hw in Hq. cbn [option_map] in Hq. inversion Hq. apply wind_mono; auto.
Qed.
Print Assumptions C59_wind.

Example C59_witness : let t := mkTurbine 3 10 24 (95 # 100) 3 in
  (0 <= tu_cutin t)%Q /\ (tu_cutin t < tu_rated t)%Q /\ (tu_rated t <= tu_cutout t)%Q /\ (0 <= tu_park t)%Q /\ 0 < tu_model t /\
  map Qred (build_wind t (6 # 5) [2; 5; 15; 21]%Q) = [0; 513 # 2780; 19 # 20; 0]%Q.
Proof. cbv zeta. sp; try discriminate; try (vm_compute; reflexivity); cbn; lia. Qed.

(** C60: with both drawn times positive an element is available for its time to failure, out for its time to repair,
    and so on until the horizon; an hour is intact exactly if all elements are available. *)
Theorem C60_status : forall total ttf ttr, 0 < ttf -> 0 < ttr -> exists row, status_row total (ttf, ttr) = Ok row /\ List.length row = total /\
  forall k t, k * (ttf + ttr) <= t < (k + 1) * (ttf + ttr) -> t < total ->
    nth_error row t = Some (if t <? k * (ttf + ttr) + ttf then 1 else 0).
Proof.
  intros total ttf ttr F R. destruct (status_row_spec total ttf ttr F R) as (row & E & L & H). exists row. sp; auto. intros k t K T.
  destruct (nth_error row t) as [v|] eqn:Hv; [|apply nth_error_None in Hv; lia]. rewrite (H t v Hv). f_equal.
  assert (M : t mod (ttf + ttr) = t - k * (ttf + ttr)). { symmetry. apply Nat.mod_unique with (q := k); [lia|]. nia. } rewrite M.
  destruct (Nat.ltb_spec (t - k * (ttf + ttr)) ttf), (Nat.ltb_spec t (k * (ttf + ttr) + ttf)); auto; lia.
Qed.
Print Assumptions C60_status.

Theorem C60_intact : forall total dl dg, exists lines gens, status_matrix total dl = Ok lines /\ status_matrix total dg = Ok gens /\
  List.length lines = List.length dl /\ List.length gens = List.length dg /\
  List.length (intact_hours total lines gens) = total /\
  forall t v, nth_error (intact_hours total lines gens) t = Some v -> v <= 1 /\ (v = 1 <-> forall row, In row (lines ++ gens) -> nth_error row t = Some 1).
Proof.
  intros total dl dg. destruct (matrix_total total dl) as (lines & El & Rl & Fl). destruct (matrix_total total dg) as (gens & Eg & Rg & Fg). exists lines, gens.
  destruct (intact_spec total lines gens) as [A B]; [apply Forall_app; auto|]. sp; auto; [symmetry; eapply Forall2_length; eauto|symmetry; eapply Forall2_length; eauto].
Qed.
Print Assumptions C60_intact.

Example C60_witness : status_row 9 (3, 2) = Ok [1; 1; 1; 0; 0; 1; 1; 1; 0] /\
  status_matrix 4 [(1, 2); (3, 1)] = Ok [[1; 0; 0; 1]; [1; 1; 1; 0]] /\ intact_hours 4 [[1; 0; 0; 1]; [1; 1; 1; 0]] [[1; 1; 0; 1]] = [1; 0; 0; 0].
Proof. sp; reflexivity. Qed.

(** C60 for all drawn times is false: an element with time to failure zero, which should be out from the first
    hour on, is available throughout the horizon, whatever its time to repair. *)
Theorem C60_refuted : forall ttr, exists total row, 0 < total /\ status_row total (0, ttr) = Ok row /\ (forall t, t < total -> nth_error row t = Some 1).
Proof.
  intros ttr. exists (S ttr), (repeat 1 (S ttr)). sp; [lia|apply status_row_zero; auto|]. intros t T. rewrite (nth_error_nth' _ 0) by (now rewrite repeat_length). f_equal. apply repeat_spec with (n := S ttr). apply nth_In. now rewrite repeat_length.
Qed.
Print Assumptions C60_refuted.

(** C80 (a Monte-Carlo simulation gives results) is false: it fails for all data, settings, horizons and drawn times,
    as the network model is not solved without the name of a solver, has no method for the curtailment of thermal
    generation, and the mean time divides by the number of steps. *)
Theorem C80_refuted : forall column objective m total demand gens lines draws, nm_solved m = false ->
  exists e, run_montecarlo column objective m total demand gens lines draws = Err e /\
    (total = 0 -> e = ZeroDivisionError) /\ (0 < total -> e = IndexError \/ e = AttributeError) /\
    (0 < total -> demand <> [] -> e = AttributeError).
Proof.
  intros column objective m total demand gens lines draws U. unfold run_montecarlo. destruct total as [|n].
  - cbn [seq mapM rbind]. destruct (mapM_total (iteration column objective m 0 demand []) draws) as (rs & E).
    { intros d _. unfold iteration. destruct (matrix_total 0 (fst d)) as (l & El & _). destruct (matrix_total 0 (snd d)) as (g & Eg & _). rewrite El, Eg. cbn. eauto. }
    rewrite E. cbn. exists ZeroDivisionError. sp; auto; lia.
  - cbn [seq mapM]. destruct (solve_step_fails column objective m demand 0 gens lines U) as [E|E]; rewrite E; cbn [rbind].
    + exists IndexError. sp; auto; [lia|]. intros _ N. exfalso. revert E. unfold solve_step, thermal_curtailment. destruct demand as [|d ds]; [congruence|]. cbn [at_ nth_error].
      destruct (nm_nodes m =? 0); cbn [rbind]; unfold optimisation_nm, load_curtailment, load_curtailment_nodes, load_curtailment_ed; rewrite U; destruct (nm_feasibility m); cbn; try discriminate; destruct (nm_problem m); cbn; try discriminate; destruct (_ || _); cbn; discriminate.
    + exists AttributeError. sp; auto. lia.
Qed.
Print Assumptions C80_refuted.

Example C80_witness : let m := mkNetmodel true true 1 1 2 1 0 false in nm_solved m = false /\
  run_montecarlo (fun _ _ _ _ _ _ => 0%Q) (fun _ _ => 0%Q) m 2 [1; 2]%Q [1] [1] [([(3, 2)], [(1, 1)])] = Err AttributeError.
Proof. split; reflexivity. Qed.

(** C81: the capacity factor for cooling water lies between zero and one, is one up to the healthy temperature,
    zero from the shutdown temperature on, and does not rise with the temperature. *)
Theorem C81_cooling : forall c l, (0 < co_delta c)%Q -> (0 < co_scarcity c)%Q -> (0 <= co_lambda c)%Q ->
  (co_lambda c * (co_max c - co_delta c / co_scarcity c - co_health c) <= 1)%Q -> (co_health c < co_shut c <= co_max c)%Q ->
  exists r, get_cf c (map Degrees l) = Ok r /\ List.length r = List.length l /\
    forall i t f, nth_error l i = Some t -> nth_error r i = Some f ->
      (0 <= f <= 1)%Q /\ ((t <= co_health c)%Q -> (f == 1)%Q) /\ ((co_shut c <= t)%Q -> (f == 0)%Q) /\
      (forall j u g, nth_error l j = Some u -> nth_error r j = Some g -> (t <= u)%Q -> (g <= f)%Q).
Proof.
  intros c l D S L K [HS M]. destruct (capacity_shape c D S L K M) as [B N]. exists (map (capacity_at c) l). sp; [|apply map_length|].
  { unfold get_cf. clear. induction l as [|t l IH]; [reflexivity|]. cbn [map mapM capacity_of rbind]. now rewrite IH. }
  intros i t f Ht Hf. rewrite nth_error_map, Ht in Hf. cbn [option_map] in Hf. inversion Hf as [E]. sp.
  - apply B.
  - apply B.
  - intros X. unfold capacity_at. apply Qle_bool_iff in X. now rewrite X.
  - intros X. unfold capacity_at. replace (Qle_bool t (co_health c)) with false by (symmetry; apply Qle_bool_false; lra). apply Qle_bool_iff in X. now rewrite X.
  - intros j u g Hu Hg TU. rewrite nth_error_map, Hu in Hg. cbn [option_map] in Hg. inversion Hg. now apply N.
Qed.
Print Assumptions C81_cooling.

Example C81_witness : let c := mkCooling 15 32 35 10 1 (97 # 10000) in (0 < co_delta c)%Q /\ (0 < co_scarcity c)%Q /\ (0 <= co_lambda c)%Q /\
  (co_lambda c * (co_max c - co_delta c / co_scarcity c - co_health c) <= 1)%Q /\ (co_health c < co_shut c <= co_max c)%Q /\
  (match get_cf c (map Degrees [10; 20; 30; 40]%Q) with Ok r => map Qred r = [1; 1903 # 2000; 903 # 2000; 0]%Q | Err _ => False end).
Proof. cbv zeta. sp; try discriminate; reflexivity. Qed.

(** C81 without the order of shutdown and maximum temperature is false: above the maximum outlet temperature the factor is
    negative. *)
Theorem C81_refuted : exists c t f, (0 < co_delta c)%Q /\ (0 < co_scarcity c)%Q /\ (0 <= co_lambda c)%Q /\ (co_health c < co_shut c)%Q /\
  (co_lambda c * (co_max c - co_delta c / co_scarcity c - co_health c) <= 1)%Q /\
  get_cf c [Degrees t] = Ok [f] /\ (f < 0)%Q.
Proof.
  exists (mkCooling 15 40 35 10 1 (97 # 10000)), 38%Q. eexists. sp; try reflexivity; try discriminate.
Qed.
Print Assumptions C81_refuted.

(** C82 (the capacity factors of the default temperatures can be computed) is false: the default is a list of profiles, which
    is read as one profile; so is any list of profiles that is given, for all data of the generator. *)
Theorem C82_refuted : (forall c, get_cf c (temperatures None) = Err TypeError) /\
  forall c l p rest, get_cf c (temperatures (Some (map Degrees l ++ Series p :: rest))) = Err TypeError.
Proof.
  split; [reflexivity|]. intros c l p rest. cbn [temperatures]. unfold get_cf. induction l as [|t l IH]; [reflexivity|]. cbn [map List.app mapM capacity_of rbind]. now rewrite IH.
Qed.
Print Assumptions C82_refuted.
