(** Energy taken from the tree by the network and the rivers. *)
From Coq Require Import List Bool Arith ZArith QArith Lia Lqa.
From Verif Require Import Base GraphData GraphDataProofs Cases CasesProofs ConverterOpen HydroTables Linear LinearProofs EnergyTree EnergyTreeSpec EnergyTreeProofs EnergyTreeLinks EnergyTreeSoC EnergyTreeData Joint JointTree JointSpec Properties_EnergyTree.
From Verif Require Power Hydro.
Import ListNotations.
Open Scope nat_scope.
Open Scope list_scope.

Local Ltac sp := repeat match goal with |- _ /\ _ => split end.

Lemma first_certain V d data e : Forall level_named (d :: data) -> energy_of V (d :: data) = Ok e -> lv_unc d = false.
Proof.
  intros F E. destruct (lv_unc d) eqn:U; auto. exfalso. set (lens := map lv_names (d :: data)) in *. assert (pos : Forall (fun n => 0 < n) lens) by (exact (joint_pos d data F)). assert (D0 : 0 < depth lens) by (unfold depth, lens; cbn; lia). assert (UL : List.length (map lv_unc (d :: data)) = depth lens) by (unfold depth, lens; now rewrite !map_length).
  unfold energy_of in E. rewrite measure_spec in E. rewrite bind_ok in E. cbn [sz_periods sz_len sz_sum sz_scenarios sz_nodes sz_of] in E. apply bind_inv in E as (p & _ & E). apply bind_inv in E as (t & Et & E). apply bind_inv in E as (f & _ & E). apply bind_inv in E as (lk & El & _).
  destruct (connect_spec lens pos V (EnergyTreeSpec.base lens (List.length (d :: data))) (map lv_unc (d :: data)) UL D0) as (t' & Et' & T). unfold sz_of in Et'. fold lens in Et. 
  assert (t' = t) by (rewrite Et in Et'; congruence). subst t'. pose proof (link_fails lens pos (map lv_unc (d :: data)) UL D0 V (EnergyTreeSpec.base lens (List.length (d :: data))) t T U) as LF. unfold sz_of in LF. fold lens in El. rewrite El in LF. discriminate.
Qed.

Lemma weight_chance V d data t : Forall level_named (d :: data) -> is_tree (map lv_names (d :: data)) (map lv_unc (d :: data)) t ->
  forall k j, k <= depth (map lv_names (d :: data)) -> j < width (map lv_names (d :: data)) k ->
  (path_weight (map lv_names (d :: data)) (jw V d data t) k j == chance (d :: data) k j)%Q.
Proof.
  intros F T. set (lens := map lv_names (d :: data)) in *. assert (pos : Forall (fun n => 0 < n) lens) by (exact (joint_pos d data F)). assert (D : depth lens = List.length (d :: data)) by apply map_length.
  induction k as [|k IH]; intros j K J; [reflexivity|]. cbn [path_weight chance]. assert (KL : k < List.length (d :: data)) by lia. destruct (nth_error (d :: data) k) as [l|] eqn:E; [|apply nth_error_None in E; lia]. pose proof (nth_error_nth _ _ no_level E) as El. rewrite El.
  assert (Ln : len lens k = lv_names l) by (unfold len, lens; apply nth_error_nth; now rewrite nth_error_map, E). replace (S k) with (k + 1) in J by lia. destruct (child_of lens pos k j ltac:(lia) J) as (i & c & Hi & Hc & Ej & Dv & Md). rewrite IH by (try lia; rewrite Dv; auto). rewrite Ln. apply Qmult_comp; [reflexivity|].
  assert (OK : Forall (level_ok V) (map (cleared V) (d :: data))) by (exact (clear_ok V d data F)). 
  pose proof (node_data (map (cleared V) (d :: data)) V OK (map lv_unc (d :: data)) t) as ND. rewrite clear_names in ND. fold lens in ND. specialize (ND T k j (cleared V l) (j mod lv_names l)). rewrite nth_error_map, E in ND. specialize (ND eq_refl J eq_refl). destruct ND as (_ & _ & W). unfold jw. rewrite Nat.add_1_r in W. rewrite W. reflexivity.
Qed.

Lemma sumf_list l : (sumf (fun i => nth i l 0) (List.length l) == fold_right Qplus 0 l)%Q.
Proof. unfold sumf. induction l as [|x l IH]; [reflexivity|]. cbn [List.length seq map fold_right nth]. rewrite <- seq_shift, map_map. cbn [nth]. rewrite IH. reflexivity. Qed.

Lemma volume_app l r : (volume (l ++ r) == volume l * volume r)%Q.
Proof. induction l as [|x l IH]; cbn [List.app volume]; [ring|]. rewrite IH. ring. Qed.

Lemma chance_total data : Forall level_named data -> forall k, k <= List.length data -> (sumf (chance data k) (width (map lv_names data) k) == volume (firstn k data))%Q.
Proof.
  intros F. induction k as [|k IH]; intros K; [unfold sumf; cbn; ring|]. destruct (nth_error data k) as [l|] eqn:E; [|apply nth_error_None in E; lia]. pose proof (nth_error_nth _ _ no_level E) as El. assert (Ln : len (map lv_names data) k = lv_names l) by (unfold len; apply nth_error_nth; now rewrite nth_error_map, E).
  cbn [width]. rewrite Ln, sumf_block. assert (OK : level_named l) by (rewrite Forall_forall in F; apply F; eapply nth_error_In; eauto). destruct OK as [LW LP].
  assert (FS : firstn (S k) data = firstn k data ++ [l]). { clear -E. revert k E. induction data as [|x d IH]; intros [|k] E; cbn in *; try discriminate; [injection E as ->; reflexivity|]. now rewrite IH. }
  rewrite FS, volume_app. cbn [volume]. rewrite Qmult_1_r, <- IH by lia. rewrite <- sumf_list, LW.
  transitivity (sumf (fun j => chance data k j * sumf (fun i => nth i (lv_weights l) 0) (lv_names l))%Q (width (map lv_names data) k)).
  - apply sumf_ext. intros j J. rewrite <- sumf_scale. apply sumf_ext. intros c C. cbn [chance]. rewrite El. assert (Dv : (j * lv_names l + c) / lv_names l = j /\ (j * lv_names l + c) mod lv_names l = c) by (split; symmetry; [apply Nat.div_unique with (r := c)|apply Nat.mod_unique with (q := j)]; nia). destruct Dv as [-> ->]. reflexivity.
  - set (q := sumf (fun i => nth i (lv_weights l) 0%Q) (lv_names l)). generalize (width (map lv_names data) k). intros n. induction n as [|n IHn]; [unfold sumf; cbn; ring|]. rewrite !sumf_S, IHn. ring.
Qed.

Lemma sumf_nonneg f n : (forall i, i < n -> (0 <= f i)%Q) -> (0 <= sumf f n)%Q.
Proof. induction n as [|n IH]; intros H; [unfold sumf; cbn; lra|]. rewrite sumf_S. specialize (IH ltac:(auto)). specialize (H n ltac:(lia)). lra. Qed.
Lemma sumf_le f g n : (forall i, i < n -> (f i <= g i)%Q) -> (sumf f n <= sumf g n)%Q.
Proof. induction n as [|n IH]; intros H; [unfold sumf; cbn; lra|]. rewrite !sumf_S. specialize (IH ltac:(auto)). specialize (H n ltac:(lia)). lra. Qed.
Lemma sumf_sub f g n : (sumf (fun i => f i - g i) n == sumf f n - sumf g n)%Q.
Proof. induction n as [|n IH]; [unfold sumf; cbn; ring|]. rewrite !sumf_S, IH. ring. Qed.

Lemma chance_nonneg data : Forall (fun l => Forall (fun w => (0 <= w)%Q) (lv_weights l)) data -> forall k j, (0 <= chance data k j)%Q.
Proof.
  intros F. induction k as [|k IH]; intros j; cbn [chance]; [lra|]. apply Qmult_le_0_compat; [apply IH|]. destruct (nth_in_or_default k data no_level) as [I| ->]; [|destruct (j mod lv_names no_level); cbn; lra].
  rewrite Forall_forall in F. specialize (F _ I). destruct (nth_in_or_default (j mod lv_names (nth k data no_level)) (lv_weights (nth k data no_level)) 0%Q) as [I2| ->]; [|lra]. rewrite Forall_forall in F. now apply F.
Qed.

(** ** What initialise leaves *)

Section Init.
Variable cf : list Q -> nat -> res (list Q).
Variables (pow53 root pow23 : Q -> Q).
Notation initialise := (initialise cf pow53 root pow23).

Lemma initialise_energy J K : initialise J = Ok K -> energy_of (vectors_of J) (j_data J) = Ok (q_energy K) /\ last_level (q_energy K) = Ok (q_first K, q_number K) /\
  network_of (j_power J) (sz_scenarios (en_sizes (q_energy K))) (q_number K) = Ok (q_power K) /\ Power.initialise cf (q_power K) = Ok (q_model K) /\
  (q_water K = None <-> j_water J = None).
Proof.
  unfold Joint.initialise. intros E. apply bind_inv in E as (e & Ee & E). apply bind_inv in E as ((l1, l2) & El & E). apply bind_inv in E as (W & Ew & E). apply bind_inv in E as (M & Em & E). cbn [fst snd] in *. destruct (j_water J) as [S|].
  - apply bind_inv in E as (S' & _ & E). apply bind_inv in E as (Y & _ & E). apply bind_inv in E as (h & _ & E). apply bind_inv in E as (u & _ & E). apply bind_inv in E as (o & _ & E). apply bind_inv in E as (p & _ & E). injection E as <-. cbn. sp; auto. split; discriminate.
  - injection E as <-. cbn. sp; auto. tauto.
Qed.

Lemma joint_tree J K d data : j_data J = d :: data -> Forall level_named (j_data J) -> initialise J = Ok K ->
  let lens := map lv_names (j_data J) in
  lv_unc d = false /\ q_first K = off lens (depth lens) /\ q_number K = width lens (depth lens) /\ nodes K = EnergyTreeProofs.nodes lens /\ vectors K = vectors_of J /\
  exists t, is_tree lens (map lv_unc (j_data J)) t /\ en_links (q_energy K) = links_spec lens t (List.length (marked lens t) - 1) /\
    (forall n, n < nodes K -> weight_of K n = jw (vectors_of J) d data t n) /\
    q_energy K = mkEnergy (jsz (vectors_of J) d data) t (links_spec lens t (List.length (marked lens t) - 1))
      (map (in_at (map (cleared (vectors_of J)) (d :: data)) (vectors_of J) t) (seq 0 (EnergyTreeProofs.nodes lens)))
      (map (out_at (map (cleared (vectors_of J)) (d :: data)) (vectors_of J) t) (seq 0 (EnergyTreeProofs.nodes lens)))
      (map (weight_at (map (cleared (vectors_of J)) (d :: data)) t) (seq 0 (EnergyTreeProofs.nodes lens))).
Proof.
  intros Ej F E. rewrite Ej in *. destruct (initialise_energy J K E) as (Ee & El & _). rewrite Ej in Ee. set (lens := map lv_names (d :: data)). cbn zeta.
  assert (U : lv_unc d = false) by (eapply first_certain; eauto). destruct (energy_of_spec (vectors_of J) d data F U) as (t & T & Es). fold lens in T, Es. rewrite Es in Ee. injection Ee as Eq. unfold last_level in El. rewrite <- Eq in El. cbn [en_tree en_sizes] in El. assert (Pd : sz_periods (jsz (vectors_of J) d data) = depth lens) by reflexivity. rewrite Pd in El.
  assert (Tm : nth_error (tr_time t) (depth lens) = Some (off lens (depth lens), off lens (depth lens + 1) - 1)) by (apply (it_time _ _ _ T); lia). rewrite (proj2 (at_nth _ _ _) Tm), bind_ok in El. cbn [fst snd] in El. assert (E1 : off lens (depth lens) = q_first K) by congruence. assert (E2 : 1 + (off lens (depth lens + 1) - 1) - off lens (depth lens) = q_number K) by congruence. rewrite off_S in E2. assert (WP : 0 < width lens (depth lens)) by (apply width_pos; [apply (joint_pos d data F)|lia]).
  sp; auto; try lia.
  - unfold nodes. rewrite <- Eq. reflexivity.
  - unfold vectors. rewrite <- Eq. reflexivity.
  - exists t. sp; auto; [now rewrite <- Eq|]. intros n. unfold nodes. rewrite <- Eq. cbn [en_sizes jsz sz_nodes sz_of]. intros Hn. unfold weight_of. cbn [en_weight]. rewrite <- Eq. cbn [en_weight]. rewrite (nth_indep _ 0%Q (weight_at (map (cleared (vectors_of J)) (d :: data)) t 0)) by (now rewrite map_length, seq_length). rewrite map_nth, seq_nth by auto. reflexivity.
Qed.

(** What leaves the last level is at most the supply. *)
Lemma tree_bound J K inputs v s d data : j_data J = d :: data -> Forall level_named (j_data J) -> Forall (fun l => Forall (fun w => (0 <= w)%Q) (lv_weights l)) (j_data J) ->
  uncertain_nodes (j_data J) <> 1 -> initialise J = Ok K -> answer J K inputs v s -> forall x, x < vectors K ->
  (sumf (fun h => chance (j_data J) (List.length (j_data J)) h * s (JOut (q_first K + h) x))%Q (q_number K) <= supply (j_data J) inputs x)%Q.
Proof.
  intros Ej F Fw U E A x X. destruct (joint_tree J K d data Ej F E) as (C & E1 & E2 & En & _ & t & T & Lk & Wt & _). pose proof (chance_nonneg (j_data J) Fw) as CN. rewrite Ej in *. set (lens := map lv_names (d :: data)) in *. assert (pos : Forall (fun n => 0 < n) lens) by (exact (joint_pos d data F)). assert (D0 : 0 < depth lens) by (unfold depth, lens; cbn; lia). assert (UL : List.length (map lv_unc (d :: data)) = depth lens) by (unfold depth, lens; now rewrite !map_length).
  destruct A as (Fe & Out & _). specialize (Fe x X). rewrite Lk in Fe.
  assert (M : List.length (marked lens t) <> 1). { unfold lens. rewrite (uncertain_nodes_marked d data t); auto. eapply Forall_impl; [|exact F]. intros l [_ H]. exact H. }
  pose proof (final_sum lens pos (map lv_unc (d :: data)) UL D0 C t T (weight_of K) (input_of inputs x) (fun n => s (JOut n x)) (v x) M Fe) as Sx.
  assert (V0 : (0 <= v x (node lens 1 (len lens 0) - 1)%nat 1%nat)%Q).
  { destruct Fe as (_ & _ & _ & _ & P). apply P; [|lia]. cbn [lk_bal links_spec]. assert (L0 : 0 < len lens 0) by (apply len_pos; auto). pose proof (node_nodes lens 1 (len lens 0 - 1) ltac:(lia) ltac:(change (width lens 1) with (1 * len lens 0); lia)) as NN. unfold node in *. lia. }
  rewrite Sx in V0. assert (D : depth lens = S (List.length data)) by (apply joint_depth).
  assert (PW : forall k j, k <= depth lens -> j < width lens k -> (path_weight lens (weight_of K) k j == chance (d :: data) k j)%Q).
  { intros k j Kk Jj. rewrite <- (weight_chance (vectors_of J) d data t F T k j Kk Jj). fold lens. revert j Jj. induction k as [|k IH]; intros j Jj; [reflexivity|]. cbn [path_weight]. replace (S k) with (k + 1) in * by lia. destruct (child_of lens pos k j ltac:(lia) Jj) as (i & c & Hi & _ & _ & Dv & _). rewrite IH by (try lia; rewrite Dv; auto). rewrite Wt; [reflexivity|]. rewrite En. now apply node_nodes. }
  assert (Sp : (sumf (fun i => sumf (fun j => path_weight lens (weight_of K) (1 + i) j * (input_of inputs x (node lens (1 + i) j) - s (JOut (node lens (1 + i) j) x)))%Q (width lens (1 + i))) (depth lens) ==
    supply (d :: data) inputs x - sumf (fun i => sumf (fun j => chance (d :: data) (1 + i) j * s (JOut (node lens (1 + i) j) x))%Q (width lens (1 + i))) (depth lens))%Q).
  { unfold supply. fold lens. replace (List.length (d :: data)) with (depth lens) by (rewrite D; reflexivity). rewrite <- sumf_sub. apply sumf_ext. intros i Hi. rewrite <- sumf_sub. apply sumf_ext. intros j Hj. rewrite PW by (auto; lia). ring. }
  rewrite Sp in V0. assert (Le : (sumf (fun h => chance (d :: data) (List.length (d :: data)) h * s (JOut (q_first K + h) x))%Q (q_number K) <= sumf (fun i => sumf (fun j => chance (d :: data) (1 + i) j * s (JOut (node lens (1 + i) j) x))%Q (width lens (1 + i))) (depth lens))%Q).
  { rewrite D, sumf_S. assert (NN : (0 <= sumf (fun i => sumf (fun j => chance (d :: data) (1 + i) j * s (JOut (node lens (1 + i) j) x))%Q (width lens (1 + i))) (List.length data))%Q).
    { apply sumf_nonneg. intros i Hi. apply sumf_nonneg. intros j Hj. apply Qmult_le_0_compat; [apply CN|]. apply Out; auto. rewrite En. apply node_nodes; auto. lia. }
    rewrite E1, E2, D. match goal with |- (?a <= _ + ?b)%Q => assert (AB : (a == b)%Q) by (apply sumf_ext; intros; reflexivity) end. lra. }
  lra.
Qed.

(** ** The constraint between the tree and the network *)

Lemma get_inv K v e : get K v = Ok e -> e = EV v /\ declared K v = true.
Proof. unfold get. destruct (declared K v); [intros H; injection H as <-; auto|discriminate]. Qed.

Lemma hydro_gen_inv K h g t e : hydro_gen K h g t = Ok e -> g < Power.n_hyd (q_power K) /\ e = EV (JNet (Power.NGen (h * Power.n_gen (q_power K) + (Power.n_conv (q_power K) + g)) t)).
Proof. unfold hydro_gen, hydro_no. destruct (Nat.ltb_spec g (Power.n_hyd (q_power K))); [|discriminate]. rewrite bind_ok. intros E. apply get_inv in E as [E _]. auto. Qed.

(** The value of a sum over the time steps. *)
Lemma times_sum {A} (K : joint) (s : var -> Q) (f : nat -> res A) (w : A -> Q) (g : nat -> Q) l : mapM f (times K) = Ok l -> (forall t a, f t = Ok a -> (w a == g t)%Q) ->
  (qsum (map w l) == sumf g (Power.w_time (q_power K)))%Q.
Proof.
  unfold times, sumf. generalize (seq 0 (Power.w_time (q_power K))). intros ts E H. apply mapM_Ok in E. induction E as [|t a ts l Ha E IH]; [reflexivity|]. cbn [map]. change (qsum (w a :: map w l)) with (w a + qsum (map w l))%Q. cbn [fold_right]. rewrite (H _ _ Ha), IH. reflexivity.
Qed.

Lemma weight_inv K t w : at_ (Power.m_weights (q_model K)) t = Ok w -> w = step_weight K t.
Proof. intros E. apply at_nth in E. unfold step_weight. symmetry. now apply nth_error_nth. Qed.

Lemma energy_link_holds K s h x : holds s (energy_link K h x) -> (s (JOut (q_first K + h) x) == over_time K (plant_power K s h x))%Q.
Proof.
  unfold energy_link. intros (o & E & H). apply bind_inv in E as (g & Eg & E). apply bind_inv in E as (l & El & E). injection E as <-. specialize (H _ eq_refl). cbn [sat] in H. apply get_inv in Eg as [-> _]. cbn [eval] in H. rewrite H, esum_eval.
  rewrite (times_sum K s _ (eval s) (fun t => step_weight K t * s (JNet (Power.NGen (h * Power.n_gen (q_power K) + (Power.n_conv (q_power K) + x)) t)))%Q l El).
  - unfold over_time. rewrite <- sumf_scale. apply sumf_ext. intros t _. unfold plant_power, gen_power. ring.
  - intros t a Ea. apply bind_inv in Ea as (w & Ew & Ea). apply bind_inv in Ea as (e & Ee & Ea). injection Ea as <-. apply hydro_gen_inv in Ee as [_ ->]. apply weight_inv in Ew. subst w. cbn [eval]. reflexivity.
Qed.

(** Without rivers, what leaves the last level is what the plants generate. *)
Lemma dry_links J K inputs v s : initialise J = Ok K -> j_water J = None -> answer J K inputs v s -> forall h x, h < q_number K -> x < Power.n_hyd (q_power K) ->
  vectors K = Power.n_hyd (q_power K) -> (s (JOut (q_first K + h) x) == over_time K (plant_power K s h x))%Q.
Proof.
  intros E Wt (_ & _ & _ & _ & L) h x Hh Hx Ev. unfold links in L. rewrite Wt in L. destruct (Nat.eqb_spec (Power.n_hyd (q_power K)) 0); [lia|]. rewrite family_iff in L. specialize (L (h, x)). cbn [fst snd] in L. apply energy_link_holds. apply L. apply in_prod; apply in_seq; lia.
Qed.

Lemma network_power J K : initialise J = Ok K -> Power.w_plants (q_power K) = Power.w_plants (j_power J) /\ Power.w_pumps (q_power K) = Power.w_pumps (j_power J) /\ Power.w_time (q_power K) = Power.w_time (j_power J).
Proof.
  intros E. destruct (initialise_energy J K E) as (_ & _ & N & _). unfold network_of in N. apply bind_inv in N as (dm & _ & N). injection N as N. rewrite <- N. auto.
Qed.
End Init.
