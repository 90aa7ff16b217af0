(** Lemmas about the investment-planning entry point. *)
From Coq Require Import List String Ascii Bool Arith ZArith QArith Qround Qabs Lia Lqa Permutation Sorted.
From Verif Require Import Base Graph GraphData GraphDataProofs Reader ReaderProofs Cases CasesSpec.
Import ListNotations.
Open Scope nat_scope.
Open Scope list_scope.

Local Ltac sp := repeat match goal with |- _ /\ _ => split end.

(** ** Positions in the scenario tree *)

Lemma Qceiling_unique q k : (inject_Z (k - 1) < q)%Q -> (q <= inject_Z k)%Q -> Qceiling q = k.
Proof.
  intros L U. pose proof (Qle_ceiling q) as A. pose proof (Qceiling_lt q) as B.
  assert ((k - 1) < Qceiling q)%Z by (rewrite Zlt_Qlt; lra).
  assert ((Qceiling q - 1) < k)%Z by (rewrite Zlt_Qlt; lra). lia.
Qed.

Lemma inject_pos z : (0 < z)%Z -> (0 < inject_Z z)%Q.
Proof. rewrite Zlt_Qlt. auto. Qed.

Lemma tree_position_spec n y s : y < n -> s < 2 ^ (n - 1) -> tree_position n (Z.of_nat s) y = Z.of_nat (s / 2 ^ (n - 1 - y)).
Proof.
  intros Hy Hs. unfold tree_position. set (d := n - 1 - y). set (c := 2 ^ d).
  assert (C : c <> 0) by (apply Nat.pow_nonzero; lia).
  pose proof (Nat.div_mod s c C) as D. pose proof (Nat.mod_upper_bound s c C) as M. set (k := s / c) in *. set (r := s mod c) in *.
  enough (Qceiling (inject_Z (Z.of_nat s + 1) / inject_Z (2 ^ (Z.of_nat n - 1)) * inject_Z (2 ^ Z.of_nat y)) = Z.of_nat k + 1)%Z by lia.
  assert (Pc : (0 < inject_Z (Z.of_nat c))%Q) by (apply inject_pos; lia).
  assert (E : (inject_Z (Z.of_nat s + 1) / inject_Z (2 ^ (Z.of_nat n - 1)) * inject_Z (2 ^ Z.of_nat y) == inject_Z (Z.of_nat s + 1) / inject_Z (Z.of_nat c))%Q).
  { assert (Q1 : (2 ^ (Z.of_nat n - 1) = Z.of_nat c * 2 ^ Z.of_nat y)%Z).
    { unfold c. rewrite Nat2Z.inj_pow. rewrite <- Z.pow_add_r by lia. f_equal. unfold d. lia. }
    rewrite Q1, inject_Z_mult. field. split; apply Qnot_eq_sym, Qlt_not_eq; auto. apply inject_pos. lia. }
  rewrite E. apply Qceiling_unique.
  - apply Qlt_shift_div_l; auto. rewrite <- inject_Z_mult, <- Zlt_Qlt. nia.
  - apply Qle_shift_div_r; auto. rewrite <- inject_Z_mult, <- Zle_Qle. nia.
Qed.

Lemma position_parent n y s : S y < n -> s / 2 ^ (n - 1 - y) = (s / 2 ^ (n - 1 - S y)) / 2.
Proof.
  intros H. replace (n - 1 - y) with (S (n - 1 - S y)) by lia. rewrite Nat.div_div by (try apply Nat.pow_nonzero; lia).
  f_equal. rewrite Nat.pow_succ_r'. lia.
Qed.

Lemma filter_all {A} (f : A -> bool) l : (forall a, In a l -> f a = true) -> filter f l = l.
Proof. induction l as [|a l IH]; intros H; cbn; auto. rewrite H by (now left). f_equal. apply IH. intros; apply H; now right. Qed.

Lemma count_block c k : forall m, c <> 0 -> k < m ->
  List.length (filter (fun s => s / c =? k) (seq 0 (m * c))) = c.
Proof.
  intros m C. induction m as [|m IH]; intros K; [lia|].
  replace (S m * c) with (m * c + c) by lia. rewrite seq_app, filter_app, app_length. simpl (0 + _).
  assert (B : forall s, In s (seq (m * c) c) -> s / c = m).
  { intros s I. apply in_seq in I. symmetry. apply Nat.div_unique with (r := s - m * c); lia. }
  destruct (Nat.eq_dec k m) as [->|N].
  - replace (filter _ (seq 0 (m * c))) with (@nil nat).
    + cbn [List.length app Nat.add]. rewrite filter_all, seq_length; auto.
      intros s I. rewrite (B s I). apply Nat.eqb_refl.
    + symmetry. apply filter_none. intros s I. apply in_seq in I. apply Nat.eqb_neq. intro E.
      assert (s / c < m) by (apply Nat.div_lt_upper_bound; lia). lia.
  - rewrite IH by lia. rewrite (filter_none _ (seq (m * c) c)); [cbn; lia|].
    intros s I. rewrite (B s I). apply Nat.eqb_neq. auto.
Qed.

Lemma at_nth {A} (l : list A) i a : at_ l i = Ok a <-> nth_error l i = Some a.
Proof. unfold at_. destruct (nth_error l i); split; congruence. Qed.

Lemma at_total {A} (l : list A) i : i < List.length l -> exists a, at_ l i = Ok a /\ nth_error l i = Some a.
Proof. intros H. unfold at_. destruct (nth_error l i) eqn:E; eauto. apply nth_error_None in E. lia. Qed.

Lemma mapM_map {A B} (f : A -> res B) (g : A -> B) l : (forall a, In a l -> f a = Ok (g a)) -> mapM f l = Ok (map g l).
Proof. induction l as [|a l IH]; intros H; cbn [mapM map]; auto. rewrite H by (now left). cbn [rbind]. rewrite IH by (intros; apply H; now right). reflexivity. Qed.

(** Buses with active demand. *)
Lemma demand_buses_spec pd : demand_buses pd = filter (fun b => negb (Qeq_bool (nth b pd 0%Q) 0)) (seq 0 (List.length pd)).
Proof.
  unfold demand_buses. assert (G : forall l p, map fst (filter (fun e => negb (Qeq_bool (snd e) 0)) (combine (seq (List.length p) (List.length l)) l)) =
    filter (fun b => negb (Qeq_bool (nth b (p ++ l) 0%Q) 0)) (seq (List.length p) (List.length l))).
  { induction l as [|x l IH]; intros p; auto. cbn [List.length seq combine filter snd].
    rewrite app_nth2, Nat.sub_diag by lia. cbn [nth]. specialize (IH (p ++ [x])). rewrite app_length, <- app_assoc in IH. cbn [List.length app] in IH. rewrite Nat.add_1_r in IH.
    destruct (Qeq_bool x 0); cbn [negb map fst]; now rewrite IH. }
  exact (G pd []).
Qed.

Lemma combine_seq {A} (d : A) l : combine (seq 0 (List.length l)) l = map (fun i => (i, nth i l d)) (seq 0 (List.length l)).
Proof.
  assert (G : forall l p, combine (seq (List.length p) (List.length l)) l = map (fun i => (i, nth i (p ++ l) d)) (seq (List.length p) (List.length l))).
  { induction l0 as [|x r IH]; intros p; auto. cbn [List.length seq combine map]. rewrite app_nth2, Nat.sub_diag by lia. cbn [nth]. f_equal.
    specialize (IH (p ++ [x])). rewrite app_length, <- app_assoc in IH. cbn [List.length app] in IH. now rewrite Nat.add_1_r in IH. }
  exact (G l []).
Qed.

Lemma concat_map_flat_map {A B C} (F : B -> list C) (G : A -> list B) l :
  List.concat (map F (flat_map G l)) = flat_map (fun x => List.concat (map F (G x))) l.
Proof. induction l as [|x l IH]; cbn; auto. now rewrite map_app, concat_app, IH. Qed.

Lemma scenario_rows_ok pd qd yrs multiplier : yrs <> [] -> List.length multiplier = List.length yrs ->
  (forall y m, nth_error multiplier y = Some m -> List.length m = 2 ^ y) -> List.length qd = List.length pd ->
  scenario_rows pd qd yrs multiplier [] = Ok (expected_rows pd qd yrs multiplier).
Proof.
  intros NE Lm Hm Lq. unfold scenario_rows, expected_rows. set (n := List.length yrs) in *.
  assert (N : 0 < n) by (unfold n; destruct yrs; [congruence|simpl; lia]).
  replace (Z.of_nat n - 1)%Z with (Z.of_nat (n - 1)) by lia. rewrite py_index_nat.
  destruct (nth_error multiplier (n - 1)) as [lm|] eqn:El; [|apply nth_error_None in El; lia]. cbn [rbind].
  rewrite (Hm _ _ El). pose proof (combine_seq 0%Z yrs) as CS. fold n in CS. rewrite CS. clear CS.
  rewrite (mapM_map _ (fun sy => map (fun b =>
      let f := nth (Z.to_nat (fst sy) / 2 ^ (n - 1 - fst (snd sy))) (nth (fst (snd sy)) multiplier []) 0%Q in
      mkB (fst sy + 1) (snd (snd sy)) b (nth b pd 0 * f)%Q (nth b qd 0 * f)%Q)
    (filter (fun b => negb (Qeq_bool (nth b pd 0%Q) 0)) (seq 0 (List.length pd))))).
  - cbn [rbind]. f_equal. rewrite concat_map_flat_map, !flat_map_concat_map, map_map. f_equal. apply map_ext. intros s.
    rewrite !map_map, flat_map_concat_map. f_equal. apply map_ext. intros y. cbn [fst snd]. now rewrite Nat2Z.id.
  - intros [s [y v]] I. apply in_flat_map in I as (s' & Is & I). apply in_map_iff in Is as (k & <- & Ik). apply in_seq in Ik.
    apply in_map_iff in I as ([y' v'] & E & I). apply in_map_iff in I as (y2 & E2 & Iy). apply in_seq in Iy.
    inversion E2; subst. inversion E; subst. clear E E2. cbn [fst snd]. rewrite tree_position_spec by lia. rewrite Nat2Z.id.
    rewrite demand_buses_spec. apply mapM_map. intros b Ib. apply filter_In in Ib as [Ib _]. apply in_seq in Ib.
    unfold at_. rewrite (nth_error_nth' pd 0%Q) by lia. cbn [rbind].
    rewrite (nth_error_nth' multiplier []) by lia. cbn [rbind]. rewrite py_index_nat.
    rewrite (nth_error_nth' (nth y multiplier []) 0%Q). 2:{
      rewrite (Hm y) by (apply nth_error_nth'; lia).
      apply Nat.div_lt_upper_bound; [apply Nat.pow_nonzero; lia|]. rewrite <- Nat.pow_add_r. replace (n - 1 - y + y) with (n - 1) by lia. lia. }
    cbn [rbind]. rewrite (nth_error_nth' qd 0%Q) by lia. reflexivity.
Qed.

(** ** Growth multipliers *)

Lemma descend_length n : forall a st, List.length (descend n a st) = n.
Proof. induction n; intros; cbn; auto. Qed.

Lemma inject_S k : (inject_Z (Z.of_nat (S k)) == inject_Z (Z.of_nat k) + 1)%Q.
Proof. rewrite Nat2Z.inj_succ. unfold Z.succ. rewrite inject_Z_plus. reflexivity. Qed.

Lemma descend_nth n : forall a st k v, nth_error (descend n a st) k = Some v -> (v == a - inject_Z (Z.of_nat k) * st)%Q.
Proof.
  induction n as [|n IH]; intros a st [|k] v H; cbn in H; try discriminate.
  - inversion H; subst. cbn. ring.
  - apply IH in H. rewrite H, inject_S. ring.
Qed.

Lemma evenly_ext n a a' b b' l : (a == a')%Q -> (b == b')%Q -> evenly n a b l -> evenly n a' b' l.
Proof. intros Ea Eb [L H]. split; auto. intros k v Hk. rewrite (H k v Hk), Ea, Eb. reflexivity. Qed.

Lemma evenly_first n a b l : 0 < n -> evenly n a b l -> exists v, py_index l 0 = Ok v /\ (v == a)%Q.
Proof.
  intros N [L H]. destruct l as [|v l]; [cbn in L; lia|]. exists v. split; auto. rewrite (H 0 v eq_refl). cbn. ring.
Qed.

Lemma last_of_nth {A} (l : list A) : l <> [] -> exists v, last_of l = Ok v /\ nth_error l (List.length l - 1) = Some v.
Proof.
  intros NE. unfold last_of, py_index. assert (0 < List.length l) by (destruct l; [congruence|cbn; lia]).
  replace (-1 <? 0)%Z with true by reflexivity. destruct (Z.ltb_spec (-1 + Z.of_nat (List.length l)) 0); [lia|].
  replace (Z.to_nat (-1 + Z.of_nat (List.length l))) with (List.length l - 1) by lia.
  destruct (nth_error l (List.length l - 1)) eqn:E; eauto. apply nth_error_None in E. lia.
Qed.

Lemma evenly_last n a b l : 1 < n -> evenly n a b l -> exists v, last_of l = Ok v /\ (v == b)%Q.
Proof.
  intros N [L H]. destruct (last_of_nth l) as (v & E1 & E2); [intros ->; cbn in L; lia|]. exists v. split; auto.
  rewrite (H _ _ E2), L. replace (Z.of_nat (n - 1)) with (Z.of_nat n - 1)%Z by lia. field.
  apply Qnot_eq_sym, Qlt_not_eq, inject_pos. lia.
Qed.

Lemma descend_evenly yr a b : evenly (2 ^ S yr) a b (descend (2 ^ S yr) a ((a - b) / inject_Z (2 ^ Z.of_nat (S yr) - 1))).
Proof.
  split; [apply descend_length|]. intros k v H. rewrite (descend_nth _ _ _ _ _ H), Nat2Z.inj_pow. change (Z.of_nat 2) with 2%Z. field.
  apply Qnot_eq_sym, Qlt_not_eq, inject_pos. pose proof (Z.pow_gt_1 2 (Z.of_nat (S yr))). lia.
Qed.

Lemma stages_spec growth dsr k0 k1 gA gS dA dS : forall rest yr y prev A B,
  (forall z, In z rest -> value_of growth k0 z = Ok (gA z) /\ value_of growth k1 z = Ok (gS z) /\
                          value_of dsr k0 z = Ok (dA z) /\ value_of dsr k1 z = Ok (dS z)) ->
  (exists v, py_index prev 0 = Ok v /\ (v == A)%Q) -> (exists v, last_of prev = Ok v /\ (v == B)%Q) ->
  exists ms fs, stages growth dsr k0 (Ok k1) yr y prev rest = Ok (ms, fs) /\
    List.length ms = List.length rest /\ List.length fs = List.length rest /\
    (forall i m, nth_error ms i = Some m ->
       evenly (2 ^ (S (yr + i))) (A * compounded gA y (firstn (S i) rest)) (B * compounded gS y (firstn (S i) rest)) m) /\
    (forall i f, nth_error fs i = Some f -> exists z, nth_error rest i = Some z /\ evenly (2 ^ (S (yr + i))) (1 - dA z) (1 - dS z) f).
Proof.
  induction rest as [|y' rest IH]; intros yr y prev A B HV (v0 & P0 & E0) (v1 & P1 & E1).
  - exists [], []. cbn. sp; auto; intros [|i] m H; discriminate.
  - cbn [stages]. rewrite P0. cbn [rbind]. destruct (HV y' (or_introl eq_refl)) as (V1 & V2 & V3 & V4).
    rewrite V1. cbn [rbind]. rewrite P1. cbn [rbind]. rewrite V2. cbn [rbind]. rewrite V3. cbn [rbind]. rewrite V4. cbn [rbind].
    set (a := (v0 * (1 + gA y' * (inject_Z (y' - y) / 100)))%Q). set (b := (v1 * (1 + gS y' * (inject_Z (y' - y) / 100)))%Q).
    pose proof (descend_evenly yr a b) as EV. set (mul := descend (2 ^ S yr) a _) in *.
    assert (P : 1 < 2 ^ S yr) by (cbn; pose proof (Nat.pow_nonzero 2 yr); lia).
    destruct (IH (S yr) y' mul a b) as (ms & fs & E & Lm & Lf & Hm & Hf).
    + intros z Iz. apply HV. now right.
    + apply (evenly_first _ _ _ _ (Nat.lt_trans _ _ _ Nat.lt_0_1 P) EV).
    + apply (evenly_last _ _ _ _ P EV).
    + rewrite E. cbn [rbind fst snd]. eexists; eexists; split; [reflexivity|]. cbn [List.length]. sp; auto.
      * intros [|i] m H.
        -- inversion H; subst m. rewrite Nat.add_0_r. eapply evenly_ext; [| |exact EV]; cbn [firstn compounded]; unfold a, b.
           ++ rewrite <- E0. ring.
           ++ rewrite <- E1. ring.
        -- cbn [nth_error] in H. apply Hm in H. replace (S (yr + S i)) with (S (S yr + i)) by lia.
           eapply evenly_ext; [| |exact H]; unfold a, b; cbn [firstn].
           ++ cbn [compounded]. rewrite <- E0. ring.
           ++ cbn [compounded]. rewrite <- E1. ring.
      * intros [|i] f H.
        -- inversion H; subst f. exists y'. split; auto. rewrite Nat.add_0_r.
           pose proof (descend_evenly yr (1 - dA y') (1 - dS y')) as Ed. destruct Ed as [Ld Hd]. split; [apply descend_length|].
           intros k v Hk. rewrite (descend_nth _ _ _ _ _ Hk), Nat2Z.inj_pow. change (Z.of_nat 2) with 2%Z. change (Z.pow_pos 2 (Pos.of_succ_nat yr)) with (2 ^ Z.of_nat (S yr))%Z. field.
           apply Qnot_eq_sym, Qlt_not_eq, inject_pos. pose proof (Z.pow_gt_1 2 (Z.of_nat (S yr))). lia.
        -- cbn [nth_error] in H. apply Hf in H as (z & Hz & Ez). exists z. split; auto. now replace (S (yr + S i)) with (S (S yr + i)) by lia.
Qed.

(** Data for all years, in both scenarios. *)
Definition full_data (d : yearly) (k : string) (yrs : list Z) (g : Z -> Q) : Prop := forall z, In z yrs -> value_of d k z = Ok (g z).

Lemma growth_tree_spec growth dsr k0 t0 k1 t1 others gA gS dA dS y0 later :
  growth = (k0, t0) :: (k1, t1) :: others -> map fst t0 = y0 :: later ->
  full_data growth k0 (y0 :: later) gA -> full_data growth k1 later gS ->
  full_data dsr k0 (y0 :: later) dA -> full_data dsr k1 later dS ->
  exists mult flex, growth_tree growth dsr = Ok (y0 :: later, mult, flex) /\
    List.length mult = S (List.length later) /\ List.length flex = S (List.length later) /\
    (forall y m, nth_error mult y = Some m ->
       evenly (2 ^ y) ((1 + gA y0) * compounded gA y0 (firstn y later)) ((1 + gA y0) * compounded gS y0 (firstn y later)) m) /\
    (forall y f, nth_error flex y = Some f -> exists z, nth_error (y0 :: later) y = Some z /\ evenly (2 ^ y) (1 - dA z) (1 - (if y =? 0 then dA z else dS z)) f).
Proof.
  intros -> Ht HA HS DA DS. unfold growth_tree. cbn [py_index]. unfold py_index at 1. cbn [Z.ltb Z.compare Z.to_nat nth_error rbind fst snd].
  rewrite Ht. unfold py_index at 1. cbn [Z.ltb Z.compare Z.to_nat nth_error rbind fst snd].
  rewrite (HA y0 (or_introl eq_refl)). cbn [rbind]. rewrite (DA y0 (or_introl eq_refl)). cbn [rbind].
  unfold py_index at 1. cbn [Z.ltb Z.compare Z.to_nat Pos.to_nat Pos.iter_op nth_error rbind fst snd tl].
  destruct (stages_spec ((k0, t0) :: (k1, t1) :: others) dsr k0 k1 gA gS dA dS later 0 y0 [(1 * (1 + gA y0))%Q] (1 + gA y0) (1 + gA y0)) as (ms & fs & E & Lm & Lf & Hm & Hf).
  - intros z Iz. sp; [apply HA|apply HS|apply DA|apply DS]; auto; now right.
  - exists (1 * (1 + gA y0))%Q. split; auto. ring.
  - exists (1 * (1 + gA y0))%Q. split; auto. ring.
  - change (Pos.to_nat 1) with 1. cbn [nth_error rbind fst]. rewrite E. cbn [rbind fst snd]. eexists; eexists; split; [reflexivity|]. cbn [List.length]. sp; auto.
    + intros [|y] m H.
      * inversion H; subst. split; auto. intros [|[|k]] v Hk; try discriminate. inversion Hk; subst. cbn [firstn compounded Z.of_nat]. change (inject_Z 0) with 0%Q. ring.
      * cbn [nth_error] in H. apply Hm in H. exact H.
    + intros [|y] f H.
      * inversion H; subst. exists y0. split; auto. split; auto. intros [|[|k]] v Hk; try discriminate. inversion Hk; subst. cbn [Z.of_nat]. change (inject_Z 0) with 0%Q. ring.
      * cbn [nth_error] in H. apply Hf in H as (z & Hz & Ez). exists z. split; auto.
Qed.
