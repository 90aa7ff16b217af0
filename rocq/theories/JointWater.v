(** The water of the joint model: tables of pumps and plants, and the constraints that use them. *)
From Coq Require Import List Bool Arith ZArith QArith Lia Lqa.
From Verif Require Import Base GraphData GraphDataProofs Cases CasesProofs Network InputOutput InputOutputProofs ConverterOpen HydroTables Linear LinearProofs Devices EnergyTreeSpec EnergyTreeProofs EnergyTreeSoC Joint JointTree JointSpec JointEnergy.
From Verif Require Power Hydro HydroSpec HydroModel HydroNet.
Import ListNotations.
Open Scope nat_scope.
Open Scope list_scope.

Local Ltac sp := repeat match goal with |- _ /\ _ => split end.

Lemma foldM_ind {A St} (f : St -> A -> res St) (I : nat -> St -> Prop) : forall l a s0 s1, foldM f l s0 = Ok s1 -> I a s0 ->
  (forall i x s s', nth_error l i = Some x -> I (a + i) s -> f s x = Ok s' -> I (S (a + i)) s') -> I (a + List.length l) s1.
Proof.
  induction l as [|x l IH]; intros a s0 s1 E H0 H; cbn [foldM List.length] in *.
  - injection E as <-. now rewrite Nat.add_0_r.
  - apply bind_inv in E as (s & Es & E). pose proof (H 0 x s0 s eq_refl) as H1. rewrite Nat.add_0_r in H1. replace (a + S (List.length l)) with (S a + List.length l) by lia. apply (IH (S a) s s1 E (H1 H0 Es)). intros i y u u' Hy Hi Eu. replace (S a + i) with (a + S i) in * by lia. apply (H (S i) y u u'); auto.
Qed.
Lemma seq_ind {St} (f : St -> nat -> res St) (I : nat -> St -> Prop) n s0 s1 : foldM f (seq 0 n) s0 = Ok s1 -> I 0 s0 ->
  (forall i s s', i < n -> I i s -> f s i = Ok s' -> I (S i) s') -> I n s1.
Proof.
  intros E H0 H. pose proof (foldM_ind f I (seq 0 n) 0 s0 s1 E H0) as X. rewrite seq_length in X. apply X. intros i x s s' Hx Hi Es. cbn [Nat.add] in *. assert (L : i < n) by (rewrite <- (seq_length n 0); apply nth_error_Some; congruence). apply nth_error_nth with (d := 0) in Hx. rewrite seq_nth in Hx by auto. subst x. now apply (H i s s').
Qed.

(** The last of the first [n] numbers whose entry is [node], or none. *)
Definition last_at (l : list nat) (n node : nat) (e : nat * nat) : Prop :=
  (exists x, x < n /\ nth_error l x = Some node /\ (forall y, x < y < n -> nth_error l y <> Some node) /\ e = (1, x)) \/
  ((forall y, y < n -> nth_error l y <> Some node) /\ e = (0, 0)).
Lemma last_at_same l n node node' e : node' <> node -> nth_error l n = Some node' -> last_at l n node e -> last_at l (S n) node e.
Proof.
  intros Ne E [(x & X & Ex & H & ->)|[H ->]]; [left; exists x; sp; auto|right; sp; auto].
  - intros y Y. destruct (Nat.eq_dec y n) as [->|]; [congruence|]. apply H. lia.
  - intros y Y. destruct (Nat.eq_dec y n) as [->|]; [congruence|]. apply H. lia.
Qed.
Lemma last_at_new l n node : nth_error l n = Some node -> last_at l (S n) node (1, n).
Proof. intros E. left. exists n. sp; auto. intros y Y. lia. Qed.

Lemma seek_inv V inputs node i : seek V inputs node = Ok i -> node <> 0 -> nth_error inputs i = Some node.
Proof.
  unfold seek. destruct (find _ _) as [j|] eqn:F; [|discriminate]. intros E N. injection E as <-. apply find_some in F as [_ F]. apply Nat.eqb_eq in F. destruct (nth_error inputs j) eqn:X; [apply nth_error_nth with (d := 0) in X; congruence|]. apply nth_error_None in X. rewrite nth_overflow in F by auto. congruence.
Qed.

Lemma pump_inputs_spec V inputs to n t : NoDup inputs -> ~ In 0 inputs -> pump_inputs V inputs to n = Ok t ->
  List.length t = List.length inputs /\ forall i node, nth_error inputs i = Some node -> exists e, nth_error t i = Some e /\ last_at to n node e.
Proof.
  intros ND N0 E. unfold pump_inputs in E. apply (seq_ind _ (fun m t => List.length t = List.length inputs /\ forall i node, nth_error inputs i = Some node -> exists e, nth_error t i = Some e /\ last_at to m node e) n _ _ E).
  - rewrite repeat_length. split; auto. intros i node H. exists (0, 0). split; [apply nth_repeat, nth_error_Some; congruence|]. right. split; auto. intros y Y. lia.
  - intros m s s' M [L H] Es. apply bind_inv in Es as (p & Ep & Es). apply at_nth in Ep. destruct (Nat.eqb_spec p 0) as [->|Np].
    + injection Es as <-. split; auto. intros i node Hi. destruct (H i node Hi) as (e & A & B). exists e. split; auto. apply (last_at_same _ _ _ 0); auto. intros Z. apply N0. rewrite Z. eapply nth_error_In; eauto.
    + apply bind_inv in Es as (j & Ej & Es). injection Es as <-. apply seek_inv in Ej; auto. rewrite set_nth_length. split; auto. intros i node Hi. rewrite nth_set_nth. destruct (Nat.eqb_spec j i) as [->|Ne].
      * destruct (H i node Hi) as (e & A & _). rewrite A. exists (1, m). split; auto. assert (p = node) by congruence. subst p. now apply last_at_new.
      * destruct (H i node Hi) as (e & A & B). exists e. split; auto. apply (last_at_same _ _ _ p); auto. intros ->. apply Ne. apply (proj1 (NoDup_nth_error inputs) ND); [apply nth_error_Some; congruence|congruence].
Qed.

Section Water.
Variable cf : list Q -> nat -> res (list Q).
Variables (pow53 root pow23 : Q -> Q).
Notation initialise := (initialise cf pow53 root pow23).

Lemma joint_water J K E : initialise J = Ok K -> j_water J = Some E -> exists E' Y, q_water K = Some Y /\
  water_of E (q_power K) (q_model K) (q_number K) = Ok E' /\ Hydro.initialise pow53 root pow23 E' = Ok Y /\
  pump_inputs (vectors_of J) (Hydro.y_in Y) (Hydro.e_pump_to E) (Power.n_pump (q_power K)) = Ok (q_hin K) /\
  plants_above (Hydro.e_units E) (Power.n_hyd (q_power K)) Y = Ok (q_down K) /\
  plants_out (Hydro.e_units E) (Power.n_hyd (q_power K)) (q_down K) Y = Ok (q_hout K) /\
  pumps_out (Hydro.e_pump_from E) (Power.n_pump (q_power K)) Y = Ok (q_pout K).
Proof.
  unfold Joint.initialise. intros H EW. rewrite EW in H. apply bind_inv in H as (e & Ee & H). apply bind_inv in H as ((l1, l2) & El & H). apply bind_inv in H as (W & Ew & H). apply bind_inv in H as (M & Em & H). cbn [fst snd] in *.
  apply bind_inv in H as (E' & Eq & H). apply bind_inv in H as (Y & Ey & H). apply bind_inv in H as (h & Eh & H). apply bind_inv in H as (u & Eu & H). apply bind_inv in H as (o & Eo & H). apply bind_inv in H as (p & Ep & H). injection H as <-. cbn. exists E', Y. sp; auto.
Qed.

Lemma water_of_fields E W M n E' : water_of E W M n = Ok E' -> exists w, nth_error (Power.m_weights M) 0 = Some w /\
  E' = Hydro.mkSettings (Hydro.e_rivers E) (Hydro.e_parts E) (Hydro.e_ramps E) (Hydro.e_in E) (Hydro.e_out E) (Hydro.e_pump_from E) (Hydro.e_pump_to E)
        (Hydro.e_units E) (Hydro.e_storage E) (map (fun h => (h, 0)) (seq 0 n)) (map (fun h => (h, 1)) (seq 0 n)) n (Power.w_time W)
        (Hydro.e_feas E) (Hydro.e_seconds E * w)%Q (Hydro.e_m E) (Hydro.e_penalty E) [] (Hydro.e_incn E) (Hydro.e_incs E) (Hydro.e_series1 E) (Hydro.e_series E).
Proof. unfold water_of. intros H. apply bind_inv in H as (w & Ew & H). injection H as <-. apply at_nth in Ew. exists w. auto. Qed.

Lemma time_pos J K : initialise J = Ok K -> 1 <= Power.w_time (q_power K).
Proof.
  intros E. destruct (initialise_energy _ _ _ _ J K E) as (_ & _ & _ & P & _). unfold Power.initialise in P. do 10 (apply bind_inv in P as (? & _ & P)).
  apply bind_inv in P as (pv & Ev & _). unfold Power.previous in Ev. destruct (Power.w_time (q_power K)); [discriminate|lia].
Qed.

Lemma well_set_joint E W M n E' : HydroSpec.well_set E -> 1 <= Power.w_time W -> water_of E W M n = Ok E' -> HydroSpec.well_set E'.
Proof.
  intros (parts & A & B & C) T H. apply water_of_fields in H as (w & _ & ->). exists parts. cbv zeta in *. unfold HydroSpec.all_nodes_count in *. cbn [Hydro.e_rivers Hydro.e_parts Hydro.e_ramps Hydro.e_in Hydro.e_out Hydro.e_pump_from Hydro.e_pump_to Hydro.e_units Hydro.e_storage Hydro.e_time]. tauto.
Qed.

(** ** Constraints *)

Definition plant_factor (E : Hydro.settings) (g : nat) : Q := match nth_error (Hydro.e_units E) g with Some u => unit_factor (Hydro.u_head u) (Hydro.u_eff u) | None => 0%Q end.
Definition pump_factor (J : settings) (p : nat) : Q := match nth_error (j_lifts J) p with Some u => unit_factor (fst u) (snd u) | None => 0%Q end.

Lemma factors_nth K E eh g q : plant_factors K E = Ok eh -> at_ eh g = Ok q -> g < Power.n_hyd (q_power K) /\ q = plant_factor E g.
Proof.
  unfold plant_factors. intros H A. apply at_nth in A. assert (L : g < Power.n_hyd (q_power K)). { apply mapM_Ok, Forall2_length in H. rewrite seq_length in H. rewrite H. apply nth_error_Some. congruence. }
  split; auto. apply mapM_Ok in H. destruct (HydroNet.F2_nth_r _ _ _ _ _ H A) as (x & Hx & E1). rewrite (nth_error_nth' _ 0), seq_nth in Hx by (rewrite ?seq_length; auto). cbn in Hx. injection Hx as <-. apply bind_inv in E1 as (u & Eu & E1). injection E1 as <-. apply at_nth in Eu. unfold plant_factor. now rewrite Eu.
Qed.
Lemma lifts_nth J K ep p q : pump_factors J K = Ok ep -> at_ ep p = Ok q -> p < Power.n_pump (q_power K) /\ q = pump_factor J p.
Proof.
  unfold pump_factors. intros H A. apply at_nth in A. assert (L : p < Power.n_pump (q_power K)). { apply mapM_Ok, Forall2_length in H. rewrite seq_length in H. rewrite H. apply nth_error_Some. congruence. }
  split; auto. apply mapM_Ok in H. destruct (HydroNet.F2_nth_r _ _ _ _ _ H A) as (x & Hx & E1). rewrite (nth_error_nth' _ 0), seq_nth in Hx by (rewrite ?seq_length; auto). cbn in Hx. injection Hx as <-. apply bind_inv in E1 as (u & Eu & E1). injection E1 as <-. apply at_nth in Eu. unfold pump_factor. now rewrite Eu.
Qed.

Lemma divide_inv e q r s : divide e q = Ok r -> ~ (q == 0)%Q /\ (eval s r == eval s e / q)%Q.
Proof.
  unfold divide. destruct (Qeq_bool q 0) eqn:B; [discriminate|]. intros H. injection H as <-. apply Qeq_bool_neq in B. split; auto. cbn [eval]. unfold Qdiv. ring.
Qed.

(** What the pump at variable [i] moves, as often as the entry of the table says. *)
Definition moved (J : settings) (K : joint) (s : var -> Q) (i t : nat) (p : nat * nat) : Q :=
  match fst p with O => 0%Q | S _ => (inject_Z (Z.of_nat (fst p)) * (base K * s (JNet (Power.NPump i t)) / pump_factor J (snd p)))%Q end.
Lemma pumped_inv J K s ep i t p e : pump_factors J K = Ok ep -> pumped K ep i t p = Ok e -> (eval s e == moved J K s i t p)%Q.
Proof.
  intros EP H. unfold pumped in H. apply bind_inv in H as (l & El & H). injection H as <-. rewrite esum_eval. apply mapM_Ok in El.
  assert (X : forall k, Forall2 (fun _ e => (do v <- pump_var K i t; do q <- at_ ep (snd p); divide (EMul (base K) v) q) = Ok e) (seq k (fst p)) l -> (qsum (map (eval s) l) == inject_Z (Z.of_nat (fst p)) * (base K * s (JNet (Power.NPump i t)) / pump_factor J (snd p)))%Q).
  { clear El. generalize (fst p). intros n. revert l. induction n as [|n IH]; intros l k F; inversion F as [|? ? ? l' Ha F']; subst; cbn [map]; [change (qsum []) with 0%Q; ring|]. change (qsum (eval s y :: map (eval s) l')) with (eval s y + qsum (map (eval s) l'))%Q. rewrite (IH _ _ F'). apply bind_inv in Ha as (v & Ev & Ha). apply bind_inv in Ha as (q & Eq & Ha). apply get_inv in Ev as [-> _]. apply (lifts_nth J K) in Eq as [_ ->]; auto. apply (divide_inv _ _ _ s) in Ha as [_ ->]. cbn [eval]. replace (Z.of_nat (S n)) with (Z.of_nat n + 1)%Z by lia. rewrite inject_Z_plus. unfold Qdiv. ring. }
  rewrite (X 0 El). unfold moved. destruct (fst p); [change (inject_Z (Z.of_nat 0)) with 0%Q; ring|reflexivity].
Qed.

Lemma used_inv K s E eh h t g e : plant_factors K E = Ok eh -> used K eh h t g = Ok e -> g < Power.n_hyd (q_power K) /\ ~ (plant_factor E g == 0)%Q /\ (eval s e == plant_power K s h g t / plant_factor E g)%Q.
Proof.
  intros EH H. unfold used in H. apply bind_inv in H as (q & Eq & H). apply bind_inv in H as (v & Ev & H). apply (factors_nth K E) in Eq as [L ->]; auto. apply hydro_gen_inv in Ev as [_ ->]. apply (divide_inv _ _ _ s) in H as [N ->]. sp; auto. cbn [eval]. unfold plant_power, gen_power. rewrite !Nat.add_assoc. reflexivity.
Qed.

Lemma inflow_holds J K E Y eh ep s h i : plant_factors K E = Ok eh -> pump_factors J K = Ok ep -> holds s (inflow K Y eh ep h i) -> exists p, nth_error (q_hin K) i = Some p /\
  (s (JOut (q_first K + h) i) == plant_factor E i * over_time K (fun t => s (JWater (Hydro.HIn (List.length (Hydro.y_in Y) * h + i) t)) - moved J K s (snd p + h * (Power.n_pump (q_power K) + 1)) t p))%Q.
Proof.
  intros EH EP (o & H & S). unfold inflow in H. apply bind_inv in H as (p & Ep & H). apply bind_inv in H as (g & Eg & H). apply bind_inv in H as (l & El & H). apply bind_inv in H as (q & Eq & H). injection H as <-. specialize (S _ eq_refl). cbn [sat] in S. apply get_inv in Eg as [-> _]. cbn [eval] in S. exists p. apply at_nth in Ep. split; auto.
  rewrite S, esum_eval. apply (factors_nth K E) in Eq as [_ ->]; auto. apply Qmult_comp; [reflexivity|]. unfold over_time. apply (times_sum K s _ (eval s) _ l El). intros t a Ea. apply bind_inv in Ea as (v & Ev & Ea). apply bind_inv in Ea as (d & Ed & Ea). apply bind_inv in Ea as (w & Ew & Ea). injection Ea as <-. apply get_inv in Ev as [-> _]. apply weight_inv in Ew. subst w. cbn [eval]. rewrite (pumped_inv J K s ep _ _ _ _ EP Ed). reflexivity.
Qed.

Lemma pump_inflow_holds J K Y ep s h i t : pump_factors J K = Ok ep -> holds s (pump_inflow K Y ep h i t) -> exists p, nth_error (q_hin K) i = Some p /\
  (s (JWater (Hydro.HIn (List.length (Hydro.y_in Y) * h + i) t)) == moved J K s (snd p + h * (Power.n_pump (q_power K) + 1) + 1) t p)%Q.
Proof.
  intros EP (o & H & S). unfold pump_inflow in H. apply bind_inv in H as (v & Ev & H). apply bind_inv in H as (p & Ep & H). apply bind_inv in H as (d & Ed & H). injection H as <-. specialize (S _ eq_refl). cbn [sat] in S. apply get_inv in Ev as [-> _]. cbn [eval] in S. exists p. apply at_nth in Ep. split; auto. rewrite S. now apply (pumped_inv J K s ep).
Qed.

Lemma output_use_holds J K E Y eh ep s h n t : plant_factors K E = Ok eh -> pump_factors J K = Ok ep -> holds s (output_use K Y eh ep h n t) -> exists b p, nth_error (q_hout K) n = Some b /\ nth_error (q_pout K) n = Some p /\
  (forall u, (u == match fst b with O => 0 | S _ => inject_Z (Z.of_nat (fst b)) * (plant_power K s h (snd b) t / plant_factor E (snd b)) end -> u + moved J K s (1 + snd p + h * (1 + Power.n_pump (q_power K))) t p <= s (JWater (Hydro.HOut (n + h * List.length (Hydro.y_out Y)) t)))%Q).
Proof.
  intros EH EP (o & H & S). unfold output_use in H. apply bind_inv in H as (b & Eb & H). apply bind_inv in H as (p & Ep & H). apply bind_inv in H as (v & Ev & H). apply bind_inv in H as (l & El & H). apply bind_inv in H as (d & Ed & H). injection H as <-. specialize (S _ eq_refl). cbn [sat eval] in S. apply get_inv in Ev as [-> _]. cbn [eval] in S. exists b, p. apply at_nth in Eb, Ep. sp; auto. intros u Hu.
  rewrite esum_eval, (pumped_inv J K s ep _ _ _ _ EP Ed) in S. assert (X : (qsum (map (eval s) l) == u)%Q); [|rewrite <- X; exact S]. rewrite Hu. apply mapM_Ok in El. clear Hu S.
  assert (X : forall k, Forall2 (fun _ e => used K eh h t (snd b) = Ok e) (seq k (fst b)) l -> (qsum (map (eval s) l) == inject_Z (Z.of_nat (fst b)) * (plant_power K s h (snd b) t / plant_factor E (snd b)))%Q).
  { clear El Eb. generalize (fst b). intros m. revert l. induction m as [|m IH]; intros l k F; inversion F as [|? ? ? l' Ha F']; subst; cbn [map]; [change (qsum []) with 0%Q; ring|]. change (qsum (eval s y :: map (eval s) l')) with (eval s y + qsum (map (eval s) l'))%Q. rewrite (IH _ _ F'). apply (used_inv K s E) in Ha as (_ & _ & ->); auto. replace (Z.of_nat (S m)) with (Z.of_nat m + 1)%Z by lia. rewrite inject_Z_plus. ring. }
  rewrite (X 0 El). destruct (fst b); [change (inject_Z (Z.of_nat 0)) with 0%Q; ring|reflexivity].
Qed.

(** All constraints on water. *)
Lemma water_links J K E Y inputs v s : j_water J = Some E -> q_water K = Some Y -> answer J K inputs v s -> 0 < Power.n_hyd (q_power K) ->
  exists eh ep, plant_factors K E = Ok eh /\ pump_factors J K = Ok ep /\
  (forall h i, h < q_number K -> i < vectors K -> holds s (inflow K Y eh ep h i)) /\
  (forall h i t, h < q_number K -> vectors K <= i < List.length (Hydro.y_in Y) -> t < Power.w_time (q_power K) -> holds s (pump_inflow K Y ep h i t)) /\
  (forall h i t, h < q_number K -> i < List.length (q_down K) -> t < Power.w_time (q_power K) -> holds s (river_use K Y eh E h i t)) /\
  (forall h i t, h < q_number K -> i < List.length (Hydro.y_out Y) -> t < Power.w_time (q_power K) -> holds s (output_use K Y eh ep h i t)).
Proof.
  intros EJ EK (_ & _ & _ & _ & cs & L & F) NH. unfold links in L. rewrite EJ, EK in L. apply bind_inv in L as (eh & Eh & L). apply bind_inv in L as (ep & Ep & L). exists eh, ep. destruct (Nat.eqb_spec (Power.n_hyd (q_power K)) 0); [lia|].
  apply bind_inv in L as (a & Ea & L). apply bind_inv in L as (b & Eb & L). apply bind_inv in L as (c & Ec & L). apply bind_inv in L as (d & Ed & L). injection L as <-. apply Forall_app in F as [Fa F]. apply Forall_app in F as [Fb F]. apply Forall_app in F as [Fc Fd].
  pose proof (proj1 (family_iff s _ _) (ex_intro _ a (conj Ea Fa))) as Ha. pose proof (proj1 (family_iff s _ _) (ex_intro _ b (conj Eb Fb))) as Hb. pose proof (proj1 (family_iff s _ _) (ex_intro _ c (conj Ec Fc))) as Hc. pose proof (proj1 (family_iff s _ _) (ex_intro _ d (conj Ed Fd))) as Hd. unfold times, n_in in *. sp; auto.
  - intros h i Hh Hi. apply (Ha (h, i)). apply in_prod; apply in_seq; lia.
  - intros h i t Hh Hi Ht. apply (Hb (h, i, t)). repeat apply in_prod; apply in_seq; lia.
  - intros h i t Hh Hi Ht. apply (Hc (h, i, t)). repeat apply in_prod; apply in_seq; lia.
  - intros h i t Hh Hi Ht. apply (Hd (h, i, t)). repeat apply in_prod; apply in_seq; lia.
Qed.
End Water.
