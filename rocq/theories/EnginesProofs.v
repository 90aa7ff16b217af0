(** Lemmas about failure sequences, profiles and the Monte-Carlo simulation. *)
From Coq Require Import List Bool Arith ZArith QArith Qpower Qfield Lia Lqa.
From Verif Require Import Base GraphData GraphDataProofs Cases CasesSpec CasesProofs CasesClusters VerificationRun Engines.
Import ListNotations.
Open Scope nat_scope.
Open Scope list_scope.

Local Ltac sp := repeat match goal with |- _ /\ _ => split end.

(** ** Failures *)

Lemma write_spec v total : forall k row count, List.length row = total -> count <= total ->
  let r := write v k total row count in List.length (fst r) = total /\ snd r = Nat.min total (count + k) /\
  forall t, nth_error (fst r) t = if (count <=? t) && (t <? Nat.min total (count + k)) then Some v else nth_error row t.
Proof.
  induction k as [|k IH]; intros row count L C; cbv zeta; cbn [write].
  - cbn [fst snd]. sp; auto; [lia|]. intros t. destruct (Nat.leb_spec count t), (Nat.ltb_spec t (Nat.min total (count + 0))); cbn [andb]; auto; lia.
  - destruct (Nat.ltb_spec count total).
    + destruct (IH (put row count v) (S count)) as (A & B & D); [now rewrite put_length|lia|]. rewrite B. replace (S count + k) with (count + S k) in * by lia. sp; auto. intros t. rewrite D, put_nth.
      replace (count <? List.length row) with true by (symmetry; apply Nat.ltb_lt; lia).
      destruct (Nat.leb_spec (S count) t), (Nat.leb_spec count t), (Nat.ltb_spec t (Nat.min total (count + S k))), (Nat.eqb_spec count t); cbn [andb]; auto; lia.
    + destruct (IH row count) as (A & B & D); auto. rewrite B. sp; auto; [lia|]. intros t. rewrite D.
      destruct (Nat.leb_spec count t), (Nat.ltb_spec t (Nat.min total (count + S k))), (Nat.ltb_spec t (Nat.min total (count + k))); cbn [andb]; auto; lia.
Qed.

(** The row that the times ask for: period ttf + ttr, available in the first ttf hours of it. *)
Lemma status_loop_spec total ttf ttr : 0 < ttf -> 0 < ttr -> forall fuel row count j, count = Nat.min total (j * (ttf + ttr)) -> total <= fuel + count -> List.length row = total ->
  (forall t v, t < count -> nth_error row t = Some v -> v = if t mod (ttf + ttr) <? ttf then 1 else 0) ->
  exists r, status_loop fuel total ttf ttr row count = Ok r /\ List.length r = total /\
    forall t v, nth_error r t = Some v -> v = if t mod (ttf + ttr) <? ttf then 1 else 0.
Proof.
  intros F R. induction fuel as [|fuel IH]; intros row count j C Fu L H; cbn [status_loop].
  - destruct (Nat.ltb_spec count total); [lia|]. exists row. sp; auto. intros t v Ht. apply H; auto. assert (t < List.length row) by (apply nth_error_Some; congruence). lia.
  - destruct (Nat.ltb_spec count total).
    2:{ exists row. sp; auto. intros t v Ht. apply H; auto. assert (t < List.length row) by (apply nth_error_Some; congruence). lia. }
    unfold phase. replace (ttf =? 0) with false by (symmetry; apply Nat.eqb_neq; lia). replace (ttr =? 0) with false by (symmetry; apply Nat.eqb_neq; lia).
    destruct (write_spec 1 total ttf row count L ltac:(lia)) as (L1 & C1 & W1). destruct (write 1 ttf total row count) as [row1 count1]. cbn [fst snd] in *.
    destruct (write_spec 0 total ttr row1 count1 L1 ltac:(lia)) as (L2 & C2 & W2). destruct (write 0 ttr total row1 count1) as [row2 count2]. cbn [fst snd] in *.
    apply (IH row2 count2 (S j)); auto; [lia|lia|]. intros t v Ht Hv. rewrite W2 in Hv. assert (CJ : count = j * (ttf + ttr)) by lia.
    assert (M : forall x, count <= x -> x < count + (ttf + ttr) -> x mod (ttf + ttr) = x - count).
    { intros x X1 X2. symmetry. apply Nat.mod_unique with (q := j); [lia|]. rewrite CJ in *. nia. }
    destruct (Nat.leb_spec count1 t), (Nat.ltb_spec t (Nat.min total (count1 + ttr))); cbn [andb] in Hv; [| |rewrite W1 in Hv|rewrite W1 in Hv].
    + inversion Hv; subst v. rewrite M by lia. destruct (Nat.ltb_spec (t - count) ttf); auto. lia.
    + lia.
    + destruct (Nat.leb_spec count t), (Nat.ltb_spec t (Nat.min total (count + ttf))); cbn [andb] in Hv; try (apply H; auto; lia); try lia.
      inversion Hv; subst v. rewrite M by lia. destruct (Nat.ltb_spec (t - count) ttf); auto. lia.
    + destruct (Nat.leb_spec count t), (Nat.ltb_spec t (Nat.min total (count + ttf))); cbn [andb] in Hv; try (apply H; auto; lia); try lia.
Qed.

Lemma status_row_spec total ttf ttr : 0 < ttf -> 0 < ttr -> exists r, status_row total (ttf, ttr) = Ok r /\ List.length r = total /\
  forall t v, nth_error r t = Some v -> v = if t mod (ttf + ttr) <? ttf then 1 else 0.
Proof. intros F R. apply (status_loop_spec total ttf ttr F R total (repeat 0 total) 0 0); auto; [lia|lia|now rewrite repeat_length|lia]. Qed.

Lemma map_ones {A} (l : list A) : map (fun _ => 1) l = repeat 1 (List.length l).
Proof. induction l; cbn; congruence. Qed.

Lemma write_full v k total row : List.length row = total -> write v k total row total = (row, total).
Proof. intros L. induction k as [|k IH]; cbn [write]; auto. rewrite Nat.ltb_irrefl. auto. Qed.

Lemma status_row_zero total ttf ttr : ttf = 0 \/ ttr = 0 -> status_row total (ttf, ttr) = Ok (repeat 1 total).
Proof.
  intros H. unfold status_row. cbn [fst snd].
  assert (E : forall f, status_loop f total ttf ttr (repeat 1 total) total = Ok (repeat 1 total)) by (intros [|f]; cbn [status_loop]; now rewrite Nat.ltb_irrefl).
  assert (G : forall f, 0 < total -> status_loop (S f) total ttf ttr (repeat 0 total) 0 = Ok (repeat 1 total)).
  { intros f P. cbn [status_loop]. replace (0 <? total) with true by (symmetry; apply Nat.ltb_lt; auto). unfold phase at 1. destruct (Nat.eqb_spec ttf 0) as [Z0|N].
    - rewrite map_ones, repeat_length. unfold phase. destruct (Nat.eqb_spec ttr 0).
      + rewrite map_ones, repeat_length. apply E.
      + rewrite write_full by apply repeat_length. apply E.
    - destruct H as [H|H]; [lia|]. subst ttr. destruct (write_spec 1 total ttf (repeat 0 total) 0) as (L & _ & _); [apply repeat_length|lia|]. destruct (write 1 ttf total (repeat 0 total) 0) as [row c]. cbn [fst] in L.
      unfold phase. cbn [Nat.eqb]. rewrite map_ones, L. apply E. }
  destruct (Nat.eq_dec total 0) as [E0|P]; [rewrite E0; reflexivity|]. replace total with (S (pred total)) at 1 by lia. apply G. lia.
Qed.

Lemma status_row_total total d : exists r, status_row total d = Ok r /\ List.length r = total /\ forall t v, nth_error r t = Some v -> v = 0 \/ v = 1.
Proof.
  destruct d as [ttf ttr]. destruct (Nat.eq_dec ttf 0) as [E|N]; [|destruct (Nat.eq_dec ttr 0) as [E|N']].
  - exists (repeat 1 total). sp; [apply status_row_zero; auto|apply repeat_length|]. intros t v H. apply nth_error_In in H. apply repeat_spec in H. auto.
  - exists (repeat 1 total). sp; [apply status_row_zero; auto|apply repeat_length|]. intros t v H. apply nth_error_In in H. apply repeat_spec in H. auto.
  - destruct (status_row_spec total ttf ttr) as (r & E & L & H); try lia. exists r. sp; auto. intros t v Ht. rewrite (H t v Ht). destruct (_ <? _); auto.
Qed.

Lemma hour_sum_full m t : Forall (fun row => nth t row 0 = 0 \/ nth t row 0 = 1) m -> (hour_sum m t = List.length m <-> Forall (fun row => nth t row 0 = 1) m) /\ hour_sum m t <= List.length m.
Proof.
  unfold hour_sum. induction 1 as [|row m H _ [IH LE]]; cbn [map fold_right List.length]; [split; [split; auto|lia]|]. split; [|destruct H as [-> | ->]; lia]. split; intros A.
  - assert (nth t row 0 = 1 /\ fold_right Nat.add 0 (map (fun row => nth t row 0) m) = List.length m) as [B C] by (destruct H as [E|E]; rewrite E in *; lia). constructor; auto. now apply IH.
  - inversion A; subst. apply IH in H3. lia.
Qed.

Lemma intact_spec total lines gens : Forall (fun row => List.length row = total /\ forall t v, nth_error row t = Some v -> v = 0 \/ v = 1) (lines ++ gens) ->
  List.length (intact_hours total lines gens) = total /\
  forall t v, nth_error (intact_hours total lines gens) t = Some v -> v <= 1 /\ (v = 1 <-> forall row, In row (lines ++ gens) -> nth_error row t = Some 1).
Proof.
  intros F. unfold intact_hours. split; [now rewrite map_length, seq_length|]. intros t v H.
  assert (Ht : t < total). { rewrite <- (seq_length total 0), <- (map_length (fun t => if (hour_sum lines t =? List.length lines) && (hour_sum gens t =? List.length gens) then 1 else 0)). apply nth_error_Some. congruence. }
  rewrite nth_error_map, (nth_error_nth' _ 0), seq_nth in H by (rewrite ?seq_length; auto). cbn [option_map Nat.add] in H. inversion H as [E]. clear H.
  assert (G : forall m, (forall row, In row m -> In row (lines ++ gens)) -> Forall (fun row => nth t row 0 = 0 \/ nth t row 0 = 1) m).
  { intros m I. apply Forall_forall. intros row Ir. rewrite Forall_forall in F. destruct (F row (I row Ir)) as [L D]. apply (D t). apply nth_error_nth'. lia. }
  destruct (hour_sum_full lines t) as [Al _]; [apply G; intros; apply in_app_iff; auto|]. destruct (hour_sum_full gens t) as [Ag _]; [apply G; intros; apply in_app_iff; auto|].
  assert (R : forall row, In row (lines ++ gens) -> (nth_error row t = Some 1 <-> nth t row 0 = 1)).
  { intros row I. rewrite Forall_forall in F. destruct (F row I) as [L _]. rewrite (nth_error_nth' row 0) by lia. split; congruence. }
  rewrite !Forall_forall in Al, Ag. destruct (Nat.eqb_spec (hour_sum lines t) (List.length lines)) as [El|El], (Nat.eqb_spec (hour_sum gens t) (List.length gens)) as [Eg|Eg]; cbn [andb] in *; (split; [lia|]); split; intros A; try lia.
  - intros row I. apply R; auto. apply in_app_iff in I as [I|I]; [apply (proj1 Al El)|apply (proj1 Ag Eg)]; auto.
  - exfalso. apply Eg, Ag. intros row I. apply R; [apply in_app_iff; auto|]. apply A. apply in_app_iff; auto.
  - exfalso. apply El, Al. intros row I. apply R; [apply in_app_iff; auto|]. apply A. apply in_app_iff; auto.
  - exfalso. apply El, Al. intros row I. apply R; [apply in_app_iff; auto|]. apply A. apply in_app_iff; auto.
Qed.

Lemma matrix_total total draws : exists m, status_matrix total draws = Ok m /\ Forall2 (fun d row => status_row total d = Ok row) draws m /\
  Forall (fun row => List.length row = total /\ forall t v, nth_error row t = Some v -> v = 0 \/ v = 1) m.
Proof.
  destruct (mapM_total (status_row total) draws) as (m & E). { intros d _. destruct (status_row_total total d) as (r & H & _). eauto. }
  exists m. unfold status_matrix. assert (F := proj1 (mapM_Ok _ _ _) E). sp; auto. clear E. induction F as [|d row ds m H _ IH]; constructor; auto. destruct (status_row_total total d) as (r & H' & P). rewrite H in H'. inversion H'; subst. exact P.
Qed.

(** ** Monte-Carlo simulation *)

Lemma solve_step_fails column objective m demand step gens lines : nm_solved m = false ->
  solve_step column objective m demand step gens lines = Err IndexError \/ solve_step column objective m demand step gens lines = Err AttributeError.
Proof.
  intros U. unfold solve_step, optimisation_nm, thermal_curtailment. destruct (nm_nodes m =? 0); cbn [rbind].
  - destruct (load_curtailment _ _ _ _) as [?|e] eqn:E; cbn [rbind]; auto. right. unfold load_curtailment, load_curtailment_nodes, load_curtailment_ed in E. rewrite U in E.
    destruct (nm_feasibility m); [destruct (nm_problem m); [|destruct (_ || _)]|]; congruence.
  - destruct (at_ demand step) as [?|e] eqn:A; cbn [rbind].
    + destruct (load_curtailment _ _ _ _) as [?|e] eqn:E; cbn [rbind]; auto. right. unfold load_curtailment, load_curtailment_nodes, load_curtailment_ed in E. rewrite U in E.
      destruct (nm_feasibility m); [destruct (nm_problem m); [|destruct (_ || _)]|]; congruence.
    + left. unfold at_ in A. destruct (nth_error demand step); congruence.
Qed.

(** ** Wind *)

Lemma Qpow_mono (a b : Q) n : (0 <= a)%Q -> (a <= b)%Q -> (a ^ Z.of_nat n <= b ^ Z.of_nat n)%Q.
Proof.
  intros H0 H. induction n as [|n IH]; [apply Qle_refl|]. rewrite !Qpow_S. assert (P : (0 <= a ^ Z.of_nat n)%Q) by (now apply Qpower_pos). nra.
Qed.

Lemma Qpow_strict (a b : Q) n : (0 <= a)%Q -> (a < b)%Q -> (a ^ Z.of_nat (S n) < b ^ Z.of_nat (S n))%Q.
Proof.
  intros H0 H. assert (P : forall m, (0 < b ^ Z.of_nat m)%Q). { induction m as [|m IH]; [reflexivity|]. rewrite Qpow_S. nra. }
  rewrite !Qpow_S. pose proof (Qpow_mono a b n H0 ltac:(lra)) as M. specialize (P n). assert (P0 : (0 <= a ^ Z.of_nat n)%Q) by (now apply Qpower_pos). nra.
Qed.

Lemma wind_bounds t : (0 <= tu_cutin t)%Q -> (tu_cutin t < tu_rated t)%Q -> (0 <= tu_park t)%Q -> (0 < tu_model t)%nat -> forall ws,
  (0 <= wind_power t ws <= tu_park t)%Q.
Proof.
  intros C R P M ws. unfold wind_power. destruct (Qle_bool ws (tu_cutin t)) eqn:E1; [lra|]. destruct (Qle_bool ws (tu_rated t)) eqn:E2.
  - assert (L1 : (tu_cutin t < ws)%Q). { apply Qnot_le_lt. intros X. apply Qle_bool_iff in X. congruence. } apply Qle_bool_iff in E2.
    destruct (tu_model t) as [|n]; [lia|]. pose proof (Qpow_strict _ _ n C L1). pose proof (Qpow_mono ws (tu_rated t) (S n) ltac:(lra) E2). pose proof (Qpow_strict _ _ n C R).
    revert H H0 H1. generalize (ws ^ Z.of_nat (S n))%Q (tu_cutin t ^ Z.of_nat (S n))%Q (tu_rated t ^ Z.of_nat (S n))%Q. intros a b c H H0 H1. split.
    + apply Qle_shift_div_l; [lra|]. nra.
    + apply Qle_shift_div_r; [lra|]. nra.
  - destruct (Qle_bool ws (tu_cutout t)); lra.
Qed.

Lemma wind_mono t : (0 <= tu_cutin t)%Q -> (tu_cutin t < tu_rated t)%Q -> (tu_rated t <= tu_cutout t)%Q -> (0 <= tu_park t)%Q -> (0 < tu_model t)%nat -> forall v w,
  (v <= w)%Q -> (w <= tu_cutout t)%Q -> (wind_power t v <= wind_power t w)%Q.
Proof.
  intros C R O P M v w VW W. pose proof (wind_bounds t C R P M v) as Bv. pose proof (wind_bounds t C R P M w) as Bw. unfold wind_power in *.
  destruct (Qle_bool v (tu_cutin t)) eqn:E1; [lra|]. assert (L1 : (tu_cutin t < v)%Q). { apply Qnot_le_lt. intros X. apply Qle_bool_iff in X. congruence. }
  assert (E1w : Qle_bool w (tu_cutin t) = false). { apply Bool.not_true_is_false. intros X. apply Qle_bool_iff in X. lra. } rewrite E1w in *.
  destruct (Qle_bool w (tu_rated t)) eqn:E2.
  - apply Qle_bool_iff in E2. assert (E2v : Qle_bool v (tu_rated t) = true) by (apply Qle_bool_iff; lra). rewrite E2v in *. destruct (tu_model t) as [|n]; [lia|]. clear Bv Bw.
    pose proof (Qpow_mono v w (S n) ltac:(lra) VW). pose proof (Qpow_strict _ _ n C R). revert H H0. generalize (w ^ Z.of_nat (S n))%Q (v ^ Z.of_nat (S n))%Q (tu_cutin t ^ Z.of_nat (S n))%Q (tu_rated t ^ Z.of_nat (S n))%Q. intros a b c d H H0.
    apply Qle_shift_div_l; [lra|]. setoid_replace (tu_park t * (b - c) / (d - c) * (d - c))%Q with (tu_park t * (b - c))%Q by (field; lra). nra.
  - assert (E3 : Qle_bool w (tu_cutout t) = true) by (apply Qle_bool_iff; lra). rewrite E3 in *. lra.
Qed.

(** ** Cooling *)

Lemma Qle_bool_false x y : Qle_bool x y = false <-> (y < x)%Q.
Proof. split; intros H; [apply Qnot_le_lt; intros X; apply Qle_bool_iff in X; congruence|apply Bool.not_true_is_false; intros X; apply Qle_bool_iff in X; lra]. Qed.

(** The derating with its slope written without division. *)
Lemma derating_value c : (0 < co_delta c)%Q -> (0 < co_scarcity c)%Q ->
  exists r, (0 < r)%Q /\ (risk_temperature c == co_max c - r)%Q /\ (scarcity_derating c * r == 1 - co_lambda c * (co_max c - r - co_health c))%Q.
Proof.
  intros D S. exists (co_delta c / co_scarcity c)%Q. sp.
  - apply Qlt_shift_div_l; lra.
  - unfold risk_temperature. lra.
  - unfold scarcity_derating. field. split; lra.
Qed.

Lemma capacity_shape c : (0 < co_delta c)%Q -> (0 < co_scarcity c)%Q -> (0 <= co_lambda c)%Q -> (co_lambda c * (risk_temperature c - co_health c) <= 1)%Q -> (co_shut c <= co_max c)%Q ->
  (forall t, (0 <= capacity_at c t <= 1)%Q) /\ (forall t u, (t <= u)%Q -> (capacity_at c u <= capacity_at c t)%Q).
Proof.
  intros D S L K M. destruct (derating_value c D S) as (r & R0 & RT & SD).
  assert (G : (0 <= scarcity_derating c)%Q). { rewrite RT in K. apply Qnot_lt_le. intros X. nra. }
  set (f := fun t => if Qle_bool t (co_health c) then 1%Q else if Qle_bool (co_shut c) t then 0%Q else if Qle_bool t (risk_temperature c) then (1 - co_lambda c * (t - co_health c))%Q else (scarcity_derating c * (co_max c - t))%Q).
  assert (E : forall t, capacity_at c t = if Qle_bool (f t) 1 then f t else 1%Q) by reflexivity.
  assert (P : forall t, (0 <= f t)%Q).
  { intros t. unfold f. destruct (Qle_bool t (co_health c)) eqn:E1; [lra|]. destruct (Qle_bool (co_shut c) t) eqn:E2; [lra|]. apply Qle_bool_false in E1, E2.
    destruct (Qle_bool t (risk_temperature c)) eqn:E3; [apply Qle_bool_iff in E3; nra|nra]. }
  split.
  - intros t. rewrite E. specialize (P t). destruct (Qle_bool (f t) 1) eqn:X; [apply Qle_bool_iff in X|]; lra.
  - intros t u TU.
    assert (W : (1 <= f t)%Q \/ (f u <= f t)%Q).
    { pose proof (P t) as Pt. unfold f in *. destruct (Qle_bool t (co_health c)) eqn:E1; [left; lra|]. assert (E1u : Qle_bool u (co_health c) = false) by (apply Qle_bool_false; apply Qle_bool_false in E1; lra). rewrite E1u.
      destruct (Qle_bool (co_shut c) u) eqn:E2; [right; exact Pt|]. assert (E2t : Qle_bool (co_shut c) t = false) by (apply Qle_bool_false; apply Qle_bool_false in E2; lra). rewrite E2t in *. clear Pt.
      right. destruct (Qle_bool u (risk_temperature c)) eqn:E3.
      + assert (E3t : Qle_bool t (risk_temperature c) = true) by (apply Qle_bool_iff; apply Qle_bool_iff in E3; lra). rewrite E3t. nra.
      + apply Qle_bool_false in E3. destruct (Qle_bool t (risk_temperature c)) eqn:E3t; [|nra]. apply Qle_bool_iff in E3t. rewrite RT in *.
        assert (A : (scarcity_derating c * (co_max c - u) <= scarcity_derating c * r)%Q) by nra. assert (B : (co_lambda c * (t - co_health c) <= co_lambda c * (co_max c - r - co_health c))%Q) by nra. lra. }
    rewrite !E. destruct (Qle_bool (f u) 1) eqn:X, (Qle_bool (f t) 1) eqn:Y; try (apply Qle_bool_iff in X); try (apply Qle_bool_iff in Y); try (apply Qle_bool_false in X); try (apply Qle_bool_false in Y); destruct W; lra.
Qed.
