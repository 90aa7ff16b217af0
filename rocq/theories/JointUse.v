(** The tables of plants and pumps of the joint model, and the water they use. *)
From Coq Require Import List Bool Arith ZArith QArith Lia Lqa.
From Verif Require Import Base GraphData GraphDataProofs Cases CasesProofs Network InputOutput InputOutputProofs ConverterOpen HydroTables Linear LinearProofs Devices EnergyTreeSpec EnergyTreeProofs EnergyTreeSoC Joint JointTree JointSpec JointEnergy JointWater.
From Verif Require Power Hydro HydroSpec HydroModel HydroFlow HydroNet Properties_Hydro.
Import ListNotations.
Open Scope nat_scope.
Open Scope list_scope.

Local Ltac sp := repeat match goal with |- _ /\ _ => split end.

(** ** Tables *)

Lemma slot_pos size n i : 1 <= n -> slot size n = Ok i -> i = n - 1.
Proof. intros L. destruct n as [|n]; [lia|]. cbn [slot]. destruct (n <? size); [|discriminate]. intros E. injection E as <-. lia. Qed.

Section Tables.
Variables (E : Hydro.settings) (Y : Hydro.hydro) (rs : list Hydro.river).
Hypothesis TD : HydroModel.tidy E Y rs.
Notation N := (Hydro.y_nodes Y).
Notation outs := (Hydro.y_out Y).

Lemma out_no_spec node o : 1 <= node <= N -> out_no Y node = Ok o -> (o = 0 /\ ~ In node outs) \/ (exists p, o = S p /\ nth_error outs p = Some node).
Proof.
  intros L H. destruct (HydroModel.td_out _ _ _ TD) as (ND & _ & LT & T). unfold out_no in H. apply bind_inv in H as (i & Ei & H). apply bind_inv in H as (a & Ea & H). injection H as <-. apply slot_pos in Ei; [|lia]. subst i. apply at_nth in Ea.
  destruct (T (node - 1) ltac:(lia)) as [(p & A & _ & B)|[A B]]; rewrite B in Ea; injection Ea as <-; cbn [fst snd Nat.eqb]; replace (S (node - 1)) with node in A by lia; eauto.
Qed.

Lemma plants_above_spec us n l : plants_above us n Y = Ok l -> (forall g, In g l -> g < n) /\
  forall g u, g < n -> nth_error us g = Some u -> 1 <= Hydro.u_node u <= N -> (In g l <-> HydroSpec.rivers_at Hydro.ri_from rs (Hydro.u_node u) <> []).
Proof.
  intros H. unfold plants_above in H. apply (seq_ind _ (fun m l => (forall g, In g l -> g < m) /\ forall g u, g < m -> nth_error us g = Some u -> 1 <= Hydro.u_node u <= N -> (In g l <-> HydroSpec.rivers_at Hydro.ri_from rs (Hydro.u_node u) <> [])) n _ _ H).
  - split; [intros g []|intros; lia].
  - intros m t t' Lm [B C] Es. apply bind_inv in Es as (u & Eu & Es). apply bind_inv in Es as (i & Ei & Es). apply bind_inv in Es as (a & Ea & Es). injection Es as <-. apply at_nth in Eu, Ea.
    assert (X : 1 <= Hydro.u_node u <= N -> (0 < fst a <-> HydroSpec.rivers_at Hydro.ri_from rs (Hydro.u_node u) <> [])).
    { intros Hu. apply slot_pos in Ei; [|lia]. subst i. destruct (HydroModel.td_adj _ _ _ TD (Hydro.u_node u - 1) ltac:(lia)) as (o & i & Eo & _ & R & _). rewrite Ea in Eo. injection Eo as <-. replace (S (Hydro.u_node u - 1)) with (Hydro.u_node u) in R by lia. apply mapM_Ok, Forall2_length in R. rewrite seq_length in R. rewrite R. destruct (HydroSpec.rivers_at _ _ _); cbn; split; intros; try lia; try discriminate. contradiction. }
    split.
    + intros g. destruct (0 <? fst a); [rewrite in_app_iff; cbn; intros [I|[<-|[]]]|intros I]; try lia; apply B in I; lia.
    + intros g u' Lg Eg Hu. destruct (Nat.eq_dec g m) as [->|Ng].
      * assert (u' = u) by congruence. subst u'. rewrite <- X by auto. destruct (Nat.ltb_spec 0 (fst a)); split; intros; auto; [apply in_app_iff; right; now left|apply B in H1; lia|lia].
      * rewrite <- (C g u') by (auto; lia). destruct (0 <? fst a); [|reflexivity]. rewrite in_app_iff. cbn. intuition lia.
Qed.

Lemma pumps_out_spec from n t : (forall x p, x < n -> nth_error from x = Some p -> 1 <= p <= N) -> pumps_out from n Y = Ok t ->
  List.length t = List.length outs /\ forall i node, nth_error outs i = Some node -> exists e, nth_error t i = Some e /\ last_at from n node e.
Proof.
  intros V H. destruct (HydroModel.td_out _ _ _ TD) as (ND & _ & _). unfold pumps_out in H.
  apply (seq_ind _ (fun m t => List.length t = List.length outs /\ forall i node, nth_error outs i = Some node -> exists e, nth_error t i = Some e /\ last_at from m node e) n _ _ H).
  - rewrite repeat_length. split; auto. intros i node Hi. exists (0, 0). split; [apply nth_repeat, nth_error_Some; congruence|]. right. split; auto. intros y Ly. lia.
  - intros m s s' M [L C] Es. apply bind_inv in Es as (p & Ep & Es). apply bind_inv in Es as (o & Eo & Es). apply at_nth in Ep. specialize (V m p M Ep). apply out_no_spec in Eo as [[-> Np]|(q & -> & Eq)]; auto.
    + cbn [Nat.eqb] in Es. injection Es as <-. split; auto. intros i node Hi. destruct (C i node Hi) as (e & A & B). exists e. split; auto. apply (last_at_same _ _ _ p); auto. intros ->. apply Np. eapply nth_error_In; eauto.
    + cbn [Nat.eqb] in Es. injection Es as <-. rewrite Nat.sub_0_r, set_nth_length. split; auto. intros i node Hi. rewrite nth_set_nth. destruct (Nat.eqb_spec q i) as [->|Ne].
      * destruct (C i node Hi) as (e & A & _). rewrite A. exists (1, m). split; auto. assert (p = node) by congruence. subst p. now apply last_at_new.
      * destruct (C i node Hi) as (e & A & B). exists e. split; auto. apply (last_at_same _ _ _ p); auto. intros ->. apply Ne. apply (proj1 (NoDup_nth_error outs) ND); [apply nth_error_Some; congruence|congruence].
Qed.

Lemma plants_out_spec us n above t : (forall x u, x < n -> nth_error us x = Some u -> 1 <= Hydro.u_node u <= N) -> (forall g, In g above -> g < n) -> plants_out us n above Y = Ok t ->
  forall i node, nth_error outs i = Some node -> (forall g u, In g above -> nth_error us g = Some u -> Hydro.u_node u <> node) -> (above = [] \/ S i < List.length outs) ->
  exists e, nth_error t i = Some e /\ last_at (map Hydro.u_node us) n node e.
Proof.
  intros V AB H i node Hi NA LA. destruct (HydroModel.td_out _ _ _ TD) as (ND & _ & _). unfold plants_out in H. apply bind_inv in H as ((t1, k1) & F & H). cbn [fst] in H.
  assert (P1 : List.length t1 = List.length outs /\ forall i node, nth_error outs i = Some node -> exists e, nth_error t1 i = Some e /\ last_at (map Hydro.u_node us) n node e).
  { apply (seq_ind _ (fun m st => List.length (fst st) = List.length outs /\ forall i node, nth_error outs i = Some node -> exists e, nth_error (fst st) i = Some e /\ last_at (map Hydro.u_node us) m node e) n _ _ F); cbn [fst].
    - rewrite repeat_length. split; auto. intros j nd Hj. exists (0, 0). split; [apply nth_repeat, nth_error_Some; congruence|]. right. split; auto. intros y Ly. lia.
    - intros m s s' M [L C] Es. apply bind_inv in Es as (u & Eu & Es). apply bind_inv in Es as (o & Eo & Es). apply at_nth in Eu. specialize (V m u M Eu). pose proof (map_nth_error Hydro.u_node _ _ Eu) as Em. apply out_no_spec in Eo as [[-> Np]|(q & -> & Eq)]; auto.
      + cbn [Nat.eqb] in Es. injection Es as <-. split; auto. intros j nd Hj. destruct (C j nd Hj) as (e & A & B). exists e. split; auto. apply (last_at_same _ _ _ (Hydro.u_node u)); auto. intros <-. apply Np. eapply nth_error_In; eauto.
      + cbn [Nat.eqb] in Es. destruct (snd s <? List.length outs); [|discriminate]. injection Es as <-. cbn [fst]. rewrite Nat.sub_0_r, set_nth_length. split; auto. intros j nd Hj. rewrite nth_set_nth. destruct (Nat.eqb_spec q j) as [->|Ne].
        * destruct (C j nd Hj) as (e & A & _). rewrite A. exists (1, m). split; auto. assert (Hydro.u_node u = nd) by congruence. subst nd. now apply last_at_new.
        * destruct (C j nd Hj) as (e & A & B). exists e. split; auto. apply (last_at_same _ _ _ (Hydro.u_node u)); auto. intros <-. apply Ne. apply (proj1 (NoDup_nth_error outs) ND); [apply nth_error_Some; congruence|congruence]. }
  destruct P1 as [L1 C1]. destruct (C1 i node Hi) as (e & A & B). exists e. split; auto.
  refine (proj1 (foldM_ind _ (fun _ t => nth_error t i = Some e /\ True) above 0 _ _ H (conj A I) _)). intros k x s s' Hx [As _] Es. cbv beta in Es. split; auto. apply bind_inv in Es as (u & Eu & Es). apply bind_inv in Es as (o & Eo & Es). apply bind_inv in Es as (j & Ej & Es). injection Es as <-. apply at_nth in Eu. pose proof (nth_error_In _ _ Hx) as Ix.
  rewrite nth_set_nth. destruct (Nat.eqb_spec j i) as [->|]; auto. exfalso. specialize (V x u (AB x Ix) Eu). apply out_no_spec in Eo as [[-> Np]|(q & -> & Eq)]; auto.
  - cbn [slot] in Ej. destruct LA as [->|LA]; [destruct Ix|]. destruct (List.length outs) eqn:Lo; [discriminate|]. injection Ej as ->. lia.
  - apply slot_pos in Ej; [|lia]. replace (S q - 1) with q in Ej by lia. subst q. apply (NA x u Ix Eu). congruence.
Qed.
End Tables.

(** ** What plants and pumps use *)

Section Use.
Variable cf : list Q -> nat -> res (list Q).
Variables (pow53 root pow23 : Q -> Q).
Notation initialise := (initialise cf pow53 root pow23).
Variables (J : settings) (K : joint) (E : Hydro.settings) (Y : Hydro.hydro) (inputs : list (list Q)) (v : nat -> EnergyTree.soc) (s : var -> Q).
Hypothesis IN : initialise J = Ok K.
Hypothesis EJ : j_water J = Some E.
Hypothesis EK : q_water K = Some Y.
Hypothesis WS : HydroSpec.well_set E.
Hypothesis AN : answer J K inputs v s.
Hypothesis NH : 0 < Power.n_hyd (q_power K).
Notation W := (q_power K).
Notation water := (fun x => s (JWater x)).

Lemma water_model : exists E' rs ramp, water_of E W (q_model K) (q_number K) = Ok E' /\ Hydro.initialise pow53 root pow23 E' = Ok Y /\ HydroSpec.well_set E' /\ HydroModel.tidy E' Y rs /\
  Hydro.build_parts (Hydro.e_parts E) (Hydro.e_ramps E) (Hydro.e_rivers E) = Ok (rs, Hydro.y_nodes Y, ramp) /\
  pump_inputs (vectors_of J) (Hydro.y_in Y) (Hydro.e_pump_to E) (Power.n_pump W) = Ok (q_hin K) /\
  plants_above (Hydro.e_units E) (Power.n_hyd W) Y = Ok (q_down K) /\
  plants_out (Hydro.e_units E) (Power.n_hyd W) (q_down K) Y = Ok (q_hout K) /\
  pumps_out (Hydro.e_pump_from E) (Power.n_pump W) Y = Ok (q_pout K).
Proof.
  destruct (joint_water _ _ _ _ J K E IN EJ) as (E' & Y' & EY & Ew & Ey & T1 & T2 & T3 & T4). assert (Y' = Y) by congruence. subst Y'. pose proof (well_set_joint pow53 root pow23 E W _ _ E' WS (time_pos _ _ _ _ J K IN) Ew) as WS'.
  destruct (HydroModel.initialise_made _ _ _ E' Y Ey) as (rs & n & ramp & M). destruct (HydroModel.made_tidy _ _ _ _ _ _ _ _ WS' M) as (TD & _). exists E', rs, ramp. sp; auto.
  pose proof (HydroModel.md_parts _ _ _ _ _ _ _ _ M) as P. rewrite (HydroModel.md_nodes _ _ _ _ _ _ _ _ M). apply water_of_fields in Ew as (w & _ & ->). exact P.
Qed.

(** Water of an input without pumps. *)
Lemma input_water h i node : h < q_number K -> i < vectors K -> nth_error (Hydro.y_in Y) i = Some node -> (forall p, p < Power.n_pump W -> nth_error (Hydro.e_pump_to E) p <> Some node) ->
  (s (JOut (q_first K + h) i) == plant_factor E i * over_time K (fun t => HydroSpec.water_in Y water h t i))%Q.
Proof.
  intros Lh Li Ni NP. destruct (water_links J K E Y inputs v s EJ EK AN NH) as (eh & ep & EH & EP & A & _). destruct (inflow_holds J K E Y eh ep s h i EH EP (A h i Lh Li)) as (p & Hp & ->). apply Qmult_comp; [reflexivity|]. unfold over_time. apply sumf_ext. intros t _. apply Qmult_comp; [reflexivity|].
  destruct water_model as (E' & rs & ramp & _ & _ & _ & TD & _ & T1 & _). destruct (HydroModel.td_in _ _ _ TD) as (ND & F & _). assert (N0 : ~ In 0 (Hydro.y_in Y)) by (intros I0; rewrite Forall_forall in F; apply F in I0; lia). destruct (pump_inputs_spec _ _ _ _ _ ND N0 T1) as (_ & T). destruct (T i node Ni) as (e & Ee & [(x & Lx & Hx & _)|[_ ->]]); [exfalso; apply (NP x Lx Hx)|]. assert (p = (0, 0)) by congruence. subst p. cbn [moved fst]. unfold HydroSpec.water_in. rewrite (Nat.mul_comm h). ring.
Qed.
(** Water of an input that only the pump [p] serves. *)
Lemma input_pumped h i t node p : h < q_number K -> vectors K <= i -> nth_error (Hydro.y_in Y) i = Some node -> t < Power.w_time W ->
  p < Power.n_pump W -> nth_error (Hydro.e_pump_to E) p = Some node -> (forall q, p < q < Power.n_pump W -> nth_error (Hydro.e_pump_to E) q <> Some node) ->
  (HydroSpec.water_in Y water h t i == pump_power K s h p t / pump_factor J p)%Q.
Proof.
  intros Lh Li Ni Lt Lp Hp HL. destruct (water_links J K E Y inputs v s EJ EK AN NH) as (eh & ep & EH & EP & _ & A & _). assert (Li' : i < List.length (Hydro.y_in Y)) by (apply nth_error_Some; congruence).
  destruct (pump_inflow_holds J K Y ep s h i t EP (A h i t Lh (conj Li Li') Lt)) as (e & He & X). unfold HydroSpec.water_in. rewrite (Nat.mul_comm h). rewrite X.
  destruct water_model as (E' & rs & ramp & _ & _ & _ & TD & _ & T1 & _). destruct (HydroModel.td_in _ _ _ TD) as (ND & F & _). assert (N0 : ~ In 0 (Hydro.y_in Y)) by (intros I0; rewrite Forall_forall in F; apply F in I0; lia). destruct (pump_inputs_spec _ _ _ _ _ ND N0 T1) as (_ & T). destruct (T i node Ni) as (e' & Ee & H). assert (e' = e) by congruence. subst e'.
  destruct H as [(x & Lx & Hx & HX & ->)|[H _]]; [|exfalso; apply (H p Lp Hp)]. assert (x = p). { destruct (Nat.lt_trichotomy x p) as [L|[L|L]]; auto; exfalso; [apply (HX p)|apply (HL x)]; auto. } subst x. unfold moved. cbn [fst snd]. change (inject_Z (Z.of_nat 1)) with 1%Q. unfold pump_power. replace (p + h * (Power.n_pump W + 1) + 1) with (h * (Power.n_pump W + 1) + p + 1) by lia. ring.
Qed.
(** An input of an energy vector to which the pump [p] delivers: the variable of the pump before is taken. *)
Lemma input_shifted h i node p : h < q_number K -> i < vectors K -> nth_error (Hydro.y_in Y) i = Some node ->
  p < Power.n_pump W -> nth_error (Hydro.e_pump_to E) p = Some node -> (forall q, p < q < Power.n_pump W -> nth_error (Hydro.e_pump_to E) q <> Some node) ->
  (s (JOut (q_first K + h) i) == plant_factor E i * over_time K (fun t => HydroSpec.water_in Y water h t i - base K * s (JNet (Power.NPump (h * (Power.n_pump W + 1) + p) t)) / pump_factor J p))%Q.
Proof.
  intros Lh Li Ni Lp Hp HL. destruct (water_links J K E Y inputs v s EJ EK AN NH) as (eh & ep & EH & EP & A & _). destruct (inflow_holds J K E Y eh ep s h i EH EP (A h i Lh Li)) as (e & He & ->). apply Qmult_comp; [reflexivity|]. unfold over_time. apply sumf_ext. intros t _. apply Qmult_comp; [reflexivity|].
  destruct water_model as (E' & rs & ramp & _ & _ & _ & TD & _ & T1 & _). destruct (HydroModel.td_in _ _ _ TD) as (ND & F & _). assert (N0 : ~ In 0 (Hydro.y_in Y)) by (intros I0; rewrite Forall_forall in F; apply F in I0; lia). destruct (pump_inputs_spec _ _ _ _ _ ND N0 T1) as (_ & T). destruct (T i node Ni) as (e' & Ee & H). assert (e' = e) by congruence. subst e'.
  destruct H as [(x & Lx & Hx & HX & ->)|[H _]]; [|exfalso; apply (H p Lp Hp)]. assert (x = p). { destruct (Nat.lt_trichotomy x p) as [L|[L|L]]; auto; exfalso; [apply (HX p)|apply (HL x)]; auto. } subst x. unfold moved. cbn [fst snd]. change (inject_Z (Z.of_nat 1)) with 1%Q. unfold HydroSpec.water_in. rewrite (Nat.mul_comm h (List.length _)), (Nat.add_comm p). ring.
Qed.

(** A plant on a node that rivers leave. *)
Lemma river_water h g u t : h < q_number K -> g < Power.n_hyd W -> nth_error (Hydro.e_units E) g = Some u -> 1 <= Hydro.u_node u <= Hydro.y_nodes Y -> t < Power.w_time W ->
  forall rs ramp, Hydro.build_parts (Hydro.e_parts E) (Hydro.e_ramps E) (Hydro.e_rivers E) = Ok (rs, Hydro.y_nodes Y, ramp) -> HydroSpec.rivers_at Hydro.ri_from rs (Hydro.u_node u) <> [] ->
  (plant_power K s h g t / plant_factor E g <= qsum (map (HydroSpec.up Y water h t) (HydroSpec.rivers_at Hydro.ri_from rs (Hydro.u_node u))))%Q.
Proof.
  intros Lh Lg Eu Hu Lt rs ramp P NE. destruct (water_links J K E Y inputs v s EJ EK AN NH) as (eh & ep & EH & EP & _ & _ & A & _).
  destruct water_model as (E' & rs' & ramp' & _ & _ & _ & TD & P' & _ & T2 & _). assert (rs' = rs) by congruence. subst rs'. destruct (plants_above_spec E' Y rs TD _ _ _ T2) as (_ & C). apply (proj2 (C g u Lg Eu Hu)) in NE. apply In_nth_error in NE as (k & Hk). assert (Lk : k < List.length (q_down K)) by (apply nth_error_Some; congruence).
  destruct (A h k t Lh Lk Lt) as (o & H & Sx). unfold river_use in H. rewrite (proj2 (at_nth _ _ _) Hk), bind_ok, (proj2 (at_nth _ _ _) Eu), bind_ok in H. apply bind_inv in H as (e & Ee & H). apply bind_inv in H as (n & En & H). apply bind_inv in H as (a & Ea & H). apply bind_inv in H as (l & El & H). injection H as <-. specialize (Sx _ eq_refl). cbn [sat] in Sx.
  destruct (used_inv K s E eh h t g e EH Ee) as (_ & _ & X). rewrite X, esum_eval in Sx. apply slot_pos in En; [|lia]. subst n. apply at_nth in Ea. destruct (HydroModel.td_adj _ _ _ TD (Hydro.u_node u - 1) ltac:(lia)) as (o & i & Eo & _ & R & _). rewrite Ea in Eo. injection Eo as <-. replace (S (Hydro.u_node u - 1)) with (Hydro.u_node u) in R by lia.
  assert (Z : forall ds rv, mapM (Hydro.nth_river (Hydro.a_list (Hydro.y_adj Y)) a) ds = Ok rv -> forall l, mapM (fun d => do r <- Hydro.nth_river (Hydro.a_list (Hydro.y_adj Y)) a d; get K (JWater (Hydro.HUp (Hydro.con_river Y h + r) t))) ds = Ok l -> map (eval s) l = map (HydroSpec.up Y water h t) rv).
  { clear. induction ds as [|d ds IH]; intros rv R l El; cbn [mapM] in *.
    - injection R as <-. injection El as <-. reflexivity.
    - apply bind_inv in R as (r & Er & R). apply bind_inv in R as (rv' & Er' & R). injection R as <-. rewrite Er, bind_ok in El. apply bind_inv in El as (x & Ex & El). apply bind_inv in El as (l' & El' & El). injection El as <-. apply get_inv in Ex as [-> _]. cbn [map eval]. f_equal; [|now apply IH]. unfold HydroSpec.up, Hydro.con_river. now rewrite (Nat.mul_comm h). }
  rewrite (Z _ _ R _ El) in Sx. exact Sx.
Qed.

(** A plant and pumps at an output that no rivers leave. *)
Lemma output_water h n node t rs ramp : h < q_number K -> t < Power.w_time W -> nth_error (Hydro.y_out Y) n = Some node ->
  Hydro.build_parts (Hydro.e_parts E) (Hydro.e_ramps E) (Hydro.e_rivers E) = Ok (rs, Hydro.y_nodes Y, ramp) -> HydroSpec.rivers_at Hydro.ri_from rs node = [] -> (q_down K = [] \/ S n < List.length (Hydro.y_out Y)) ->
  (forall g u, g < Power.n_hyd W -> nth_error (Hydro.e_units E) g = Some u -> 1 <= Hydro.u_node u <= Hydro.y_nodes Y) ->
  (forall p x, p < Power.n_pump W -> nth_error (Hydro.e_pump_from E) p = Some x -> 1 <= x <= Hydro.y_nodes Y) ->
  exists b p, last_at (map Hydro.u_node (Hydro.e_units E)) (Power.n_hyd W) node b /\ last_at (Hydro.e_pump_from E) (Power.n_pump W) node p /\
  ((match fst b with O => 0 | S _ => plant_power K s h (snd b) t / plant_factor E (snd b) end) + (match fst p with O => 0 | S _ => pump_power K s h (snd p) t / pump_factor J (snd p) end) <= HydroSpec.water_out Y water h t n)%Q.
Proof.
  intros Lh Lt Ho P NR LA VU VP. destruct (water_links J K E Y inputs v s EJ EK AN NH) as (eh & ep & EH & EP & _ & _ & _ & A). assert (Ln : n < List.length (Hydro.y_out Y)) by (apply nth_error_Some; congruence).
  destruct water_model as (E' & rs' & ramp' & _ & _ & _ & TD & P' & _ & T2 & T3 & T4). assert (rs' = rs) by congruence. subst rs'. destruct (plants_above_spec E' Y rs TD _ _ _ T2) as (B & C).
  destruct (plants_out_spec E' Y rs TD _ _ _ _ VU B T3 n node Ho) as (b & Hb & Lb); auto. { intros g u Ig Eu Z. specialize (B g Ig). apply (C g u B Eu (VU g u B Eu)) in Ig. rewrite Z in Ig. contradiction. }
  destruct (pumps_out_spec E' Y rs TD _ _ _ VP T4) as (_ & D). destruct (D n node Ho) as (p & Hp & Lp). exists b, p. sp; auto.
  destruct (output_use_holds J K E Y eh ep s h n t EH EP (A h n t Lh Ln Lt)) as (b' & p' & Hb' & Hp' & X). assert (b' = b) by congruence. assert (p' = p) by congruence. subst b' p'. unfold HydroSpec.water_out. rewrite (Nat.add_comm _ n).
  assert (M : (moved J K s (1 + snd p + h * (1 + Power.n_pump W)) t p == match fst p with O => 0 | S _ => pump_power K s h (snd p) t / pump_factor J (snd p) end)%Q).
  { unfold moved. destruct Lp as [(x & _ & _ & _ & ->)|[_ ->]]; cbn [fst snd]; [|reflexivity]. change (inject_Z (Z.of_nat 1)) with 1%Q. unfold pump_power. replace (1 + x + h * (1 + Power.n_pump W)) with (h * (Power.n_pump W + 1) + x + 1) by lia. ring. }
  rewrite <- M. apply X. destruct Lb as [(x & _ & _ & _ & ->)|[_ ->]]; cbn [fst snd]; [|reflexivity]. change (inject_Z (Z.of_nat 1)) with 1%Q. ring.
Qed.

(** Water enters and leaves a scenario in the same amount. *)
Lemma water_cycle h : h < q_number K -> ~ (Hydro.e_seconds E == 0)%Q -> ~ (Hydro.e_m E == 0)%Q -> ~ (step_weight K 0 == 0)%Q ->
  (HydroSpec.below (Power.w_time W) (fun t => HydroSpec.below (List.length (Hydro.y_in Y)) (HydroSpec.water_in Y water h t)) ==
   HydroSpec.below (Power.w_time W) (fun t => HydroSpec.below (List.length (Hydro.y_out Y)) (HydroSpec.water_out Y water h t)))%Q.
Proof.
  intros Lh N1 N2 N3. destruct water_model as (E' & rs & ramp & Ew & Ey & WS' & _). apply water_of_fields in Ew as (w & Hw & Ew). assert (TE : Hydro.e_time E' = Power.w_time W) by (rewrite Ew; reflexivity). rewrite <- TE.
  apply (Properties_Hydro.C150_cycle pow53 root pow23 E' Y water h h); auto.
  - destruct AN as (_ & _ & _ & AW & _). rewrite EK in AW. exact AW.
  - rewrite Ew. cbn. auto.
  - rewrite Ew. cbn [Hydro.e_seconds Hydro.e_m]. unfold step_weight in N3. rewrite (nth_error_nth _ _ _ Hw) in N3. intros Z. apply N1. assert (~ (/ Hydro.e_m E == 0)%Q). { intros Z'. apply N2. rewrite <- (Qinv_involutive (Hydro.e_m E)), Z'. reflexivity. }
    apply (Qmult_integral (Hydro.e_seconds E) w) in Z || idtac. unfold Qdiv in Z. apply Qmult_integral in Z as [Z|Z]; [|contradiction]. apply Qmult_integral in Z as [Z|Z]; [exact Z|contradiction].
  - rewrite Ew. cbn [Hydro.e_links_from]. rewrite (map_nth_error (fun h => (h, 0)) h (seq 0 (q_number K)) (d := h)); auto. rewrite (nth_error_nth' _ 0), seq_nth by (rewrite ?seq_length; auto). reflexivity.
  - rewrite Ew. cbn [Hydro.e_links_to]. rewrite (map_nth_error (fun h => (h, 1)) h (seq 0 (q_number K)) (d := h)); auto. rewrite (nth_error_nth' _ 0), seq_nth by (rewrite ?seq_length; auto). reflexivity.
Qed.
(** The rivers hold as much at last as at first. *)
Lemma river_cycle h r : h < q_number K -> r < Hydro.y_rivers Y -> (HydroSpec.content Y water h 0 r == HydroSpec.content Y water h (Power.w_time W) r)%Q.
Proof.
  clear NH.
  intros Lh Lr. destruct water_model as (E' & rs & ramp & Ew & Ey & WS' & _). destruct AN as (_ & _ & _ & AW & _). rewrite EK in AW. apply water_of_fields in Ew as (w & Hw & Ew). destruct (HydroModel.initialise_made _ _ _ E' Y Ey) as (rs' & n & ramp' & M). pose proof (HydroModel.md_soc _ _ _ _ _ _ _ _ M) as SO. pose proof (HydroModel.md_rivers _ _ _ _ _ _ _ _ M) as MR.
  assert (TE : Hydro.e_time E' = Power.w_time W) by (rewrite Ew; reflexivity). rewrite <- TE.
  assert (L1 : nth_error (Hydro.e_links_from E') h = Some (h, 0)). { rewrite Ew. cbn [Hydro.e_links_from]. rewrite (map_nth_error (fun h => (h, 0)) h (seq 0 (q_number K)) (d := h)); auto. rewrite (nth_error_nth' _ 0), seq_nth by (rewrite ?seq_length; auto). reflexivity. }
  assert (L2 : nth_error (Hydro.e_links_to E') h = Some (h, 1)). { rewrite Ew. cbn [Hydro.e_links_to]. rewrite (map_nth_error (fun h => (h, 1)) h (seq 0 (q_number K)) (d := h)); auto. rewrite (nth_error_nth' _ 0), seq_nth by (rewrite ?seq_length; auto). reflexivity. }
  assert (Lh' : h < Hydro.e_scen E') by (rewrite Ew; exact Lh).
  assert (I : In (Hydro.y_rivers Y * h, 0, (Hydro.y_rivers Y * h, Hydro.e_time E')) (Hydro.y_soc Y)).
  { unfold Hydro.soc_links in SO. destruct (Hydro.e_links_from E') as [|f lf] eqn:EF; [destruct h; discriminate|]. rewrite <- EF in *. assert (Li : h < List.length (Hydro.e_links_from E')) by (apply nth_error_Some; congruence). destruct (HydroModel.mapM_in _ _ _ h SO) as (x & Ex & Ix); [apply in_seq; lia|]. cbv beta in Ex. rewrite (proj2 (at_nth _ _ _) L1), bind_ok, (proj2 (at_nth _ _ _) L2), bind_ok in Ex. cbn [fst snd] in Ex. rewrite (proj2 (Nat.ltb_lt _ _) Lh') in Ex. cbn [rbind at_ nth_error] in Ex. injection Ex as <-. rewrite MR. exact Ix. }
  pose proof (HydroFlow.soc_equal Y water _ r (HydroModel.answer_rules Y water AW) I Lr) as Q1. cbn [fst snd] in Q1. unfold HydroSpec.content. rewrite (Nat.mul_comm h). exact Q1.
Qed.
End Use.
