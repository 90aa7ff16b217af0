(** Conversion to pypsa and collection of its results (PI:30-292, pyeneP.py). *)
From Coq Require Import List String Bool Arith ZArith QArith Lqa Lia.
From Verif Require Import Base GraphData Pypsa PypsaSpec PypsaProofs.
Import ListNotations.
Open Scope string_scope.
Open Scope nat_scope.
Open Scope list_scope.

Local Ltac sp := repeat match goal with |- _ /\ _ => split end.

Local Lemma bus_at N scen C i b : convert N scen = Ok C -> nth_error (n_bus N) i = Some b -> exists pv c, pv_bus N = Ok pv /\ nth_error (c_bus C) i = Some c /\ bus_of pv (i, b) = Ok c.
Proof.
  intros E B. apply convert_inv in E as (pv & bs & gc & gr & ls & li & EP & EB & _ & _ & _ & _ & ->). exists pv. apply buses_fold in EB as (new & -> & M).
  apply mapM_nth in M as (_ & K). destruct (K i (i, b)) as (c & A & D); [now rewrite numbered_nth, B|]. exists c. auto.
Qed.
Local Lemma bus_count N scen C : convert N scen = Ok C -> List.length (c_bus C) = List.length (n_bus N).
Proof.
  intros E. apply convert_inv in E as (pv & bs & gc & gr & ls & li & _ & EB & _ & _ & _ & _ & ->). apply buses_names in EB. cbn [c_bus]. rewrite <- (map_length cb_name), EB. apply map_length.
Qed.
Local Lemma sound_ok N scen : sound N scen -> exists C, convert N scen = Ok C.
Proof.
  intros (D & P & K & R & LP & LQ & PB & PR). destruct (before_lines N scen D P K LP LQ PB PR) as (pv & bs & gc & gr & ls & EP & EB & EC & ER & EL).
  unfold convert. rewrite EP. cbn [rbind]. rewrite EB. cbn [rbind]. rewrite EC, ER, EL. cbn [rbind].
  assert (LI : exists li, lines N bs = Ok li).
  { rewrite lines_eq. apply mapM_total. intros x I. apply filter_In in I as (I & _). apply numbered_in, nth_error_In in I. apply R in I. unfold line_of.
    assert (X : In (bus_name (r_from (snd x))) (map cb_name bs)). { rewrite (buses_names _ _ _ EB), <- (map_map b_number bus_name). now apply in_map. }
    apply in_map_iff in X as (b & <- & Ib). destruct (v_nom (cb_name b) bs) eqn:V; cbn; [eauto|]. exfalso.
    assert (W : exists q, v_nom (cb_name b) bs = Ok q). { clear - Ib. induction bs as [|c bs IH]; [destruct Ib|]. cbn. destruct (String.eqb_spec (cb_name c) (cb_name b)); [eauto|]. destruct Ib as [->|Ib]; [congruence|auto]. }
    destruct W. congruence. }
  destruct LI as (li & ->). cbn [rbind]. eauto.
Qed.

(** ** C286 *)
(** The conversion of a network whose parts belong together succeeds and gives a bus for each bus, in order. *)
Theorem C286_buses : forall N scen, sound N scen -> exists C, convert N scen = Ok C /\ c_time C = n_time N /\ List.length (c_bus C) = List.length (n_bus N) /\
  forall i b, nth_error (n_bus N) i = Some b -> exists c, nth_error (c_bus C) i = Some c /\ cb_name c = ("Bus" ++ str_Z (b_number b))%string /\
    (b_kv b == 0 -> cb_nom c = 1)%Q /\ (~ b_kv b == 0 -> cb_nom c = b_kv b)%Q /\ cb_min c = b_vmin b /\ cb_max c = b_vmax b /\ cb_xy c = b_xy b.
Proof.
  intros N scen So. destruct (sound_ok _ _ So) as (C & E). exists C. sp; auto.
  - now apply convert_inv in E as (pv & bs & gc & gr & ls & li & _ & _ & _ & _ & _ & _ & ->).
  - exact (bus_count _ _ _ E).
  - intros i b B. destruct (bus_at _ _ _ _ _ E B) as (pv & c & _ & A & D). exists c. split; [exact A|]. unfold bus_of in D. destruct (set_of pv (i, b)); [|discriminate]. injection D as <-. cbn [cb_name cb_nom cb_min cb_max cb_xy snd].
    sp; try reflexivity; unfold kv_of; intros Z0; destruct (Qeq_bool (b_kv b) 0) eqn:QB; try reflexivity.
    + apply Qeq_bool_neq in QB. contradiction.
    + apply Qeq_bool_iff in QB. contradiction.
Qed.
Print Assumptions C286_buses.

Local Definition tiny (nums : list Z) (pd qd : list Q) (hyd res : list gen) (T : nat) : net :=
  Net 100 T [Bus (nth 0 nums 0%Z) 3 132 1 (9#10) (11#10) None; Bus (nth 1 nums 0%Z) 2 0 (101#100) (9#10) (11#10) (Some (1, 2)%Q); Bus (nth 2 nums 0%Z) 1 33 1 (9#10) (11#10) None]
    [Gen (nth 0 nums 0%Z) 0 1 2 50 10 [(20, 0); (30, -100)]%Q; Gen (nth 1 nums 0%Z) 1 (105#100) 1 30 5 [(10, 3)]%Q] hyd res
    [Branch (nth 0 nums 0%Z) (nth 1 nums 0%Z) 0 (1#10) (1#100) 0 2; Branch (nth 1 nums 0%Z) (nth 2 nums 0%Z) (98#100) (2#10) 0 (1#1000) 1]
    pd qd [1; 1#2; 2]%Q [1#2; 1#3; 1#4]%Q [[0]; [0]; [1]] [[0]; [1]].
Local Definition farm (z : Z) : gen := Gen z 2 1 3 0 0 [(0, 0)]%Q.
Local Ltac tiny_sound := unfold sound; cbn; sp;
  [repeat constructor; cbn; intuition discriminate
  |intros g [<-|[<-|[]]]; cbn; lia
  |intros g G; repeat (destruct G as [<-|G]; [discriminate|]); destruct G
  |intros r [<-|[<-|[]]]; cbn; auto
  |reflexivity|reflexivity
  |intros n Ln; destruct n as [|[|[|n]]]; [exists 0|exists 0|exists 1|lia]; eexists; repeat split; cbn; try reflexivity; lia
  |intros n Ln; destruct n as [|[|n]]; try (exfalso; cbn in Ln; lia); first [exists 0; eexists; repeat split; cbn; try reflexivity; lia|exists 1; eexists; repeat split; cbn; try reflexivity; lia]].
Example C286_witness : sound (tiny [1; 2; 3]%Z [0; 20; 30]%Q [0; 4; 6]%Q [] [farm 3; farm 3] 2) 0.
Proof. tiny_sound. Qed.

(* ------------------------------------------------------------------ *)
(** ** C287 *)
(** What the set point of a bus is: VM for PV and slack buses, 0 for PQ buses. *)
Theorem C287_set_points : forall N scen C i b, convert N scen = Ok C -> nth_error (n_bus N) i = Some b -> exists c, nth_error (c_bus C) i = Some c /\
  (b_type b = 2%Z \/ b_type b = 3%Z -> cb_set c = b_vm b) /\ (b_type b <> 2%Z -> b_type b <> 3%Z -> cb_set c = 0%Q).
Proof.
  intros N scen C i b E B. destruct (bus_at _ _ _ _ _ E B) as (pv & c & EP & A & D). exists c. split; [exact A|]. unfold bus_of, set_of in D. cbn [fst snd] in D.
  destruct (Z.eqb_spec (b_type b) 2) as [T|T]; [cbn in D; injection D as <-; split; [reflexivity|congruence]|].
  destruct (Z.eqb_spec (b_type b) 3) as [U|U]; [cbn in D; injection D as <-; split; [reflexivity|congruence]|].
  cbn [orb] in D. rewrite (at_some _ _ 0%Q) in D by (eapply pv_facts; eauto). cbn in D. injection D as <-. split; [intros [?|?]; congruence|reflexivity].
Qed.
Print Assumptions C287_set_points.
(** A PV bus does not get the set point of its generator, and a PQ bus gets one below its limit. *)
Theorem C287_refuted : exists N C, sound N 0 /\ convert N 0 = Ok C /\
  (exists g b c, In g (n_conv N) /\ nth_error (n_bus N) (g_pos g) = Some b /\ b_number b = g_bus g /\ b_type b = 2%Z /\ nth_error (c_bus C) (g_pos g) = Some c /\ ~ (cb_set c == g_vg g)%Q) /\
  (exists i b c, nth_error (n_bus N) i = Some b /\ b_type b = 1%Z /\ nth_error (c_bus C) i = Some c /\ (cb_set c < b_vmin b)%Q).
Proof.
  exists (tiny [1; 2; 3]%Z [0; 20; 30]%Q [0; 4; 6]%Q [] [] 2). eexists. split; [tiny_sound|]. split; [vm_compute; reflexivity|]. split.
  - exists (Gen 2 1 (105#100) 1 30 5 [(10, 3)]%Q). eexists. eexists. split; [right; left; reflexivity|]. cbn [g_pos]. sp; try reflexivity. vm_compute. discriminate.
  - exists 2. eexists. eexists. sp; try reflexivity.
Qed.
Print Assumptions C287_refuted.
Example C287_witness : exists C b, convert (tiny [1; 2; 3]%Z [0; 20; 30]%Q [0; 4; 6]%Q [] [] 2) 0 = Ok C /\ nth_error (n_bus (tiny [1; 2; 3]%Z [0; 20; 30]%Q [0; 4; 6]%Q [] [] 2)) 2 = Some b /\ b_type b <> 2%Z /\ b_type b <> 3%Z.
Proof. eexists. eexists. split; [vm_compute; reflexivity|]. split; [reflexivity|]. cbn. lia. Qed.

(* ------------------------------------------------------------------ *)
(** ** C288 *)
(** Each conventional generator is converted, with the control that the type of its bus asks for. *)
Theorem C288_conventional : forall N scen C i g, convert N scen = Ok C -> nth_error (n_conv N) i = Some g -> exists c b m2 l, nth_error (c_gen C) i = Some c /\ nth_error (n_bus N) (g_pos g) = Some b /\
  cg_name c = ("Gen" ++ str_nat (i + 1))%string /\ cg_bus c = ("Bus" ++ str_Z (g_bus g))%string /\
  (b_type b = 1%Z -> cg_control c = "PQ") /\ (b_type b = 2%Z -> cg_control c = "PV") /\ (b_type b <> 1%Z -> b_type b <> 2%Z -> cg_control c = "Slack") /\
  cg_max c = inl (g_max g * n_base N)%Q /\ cg_nom c = None /\ cg_p c = g_p g /\ cg_q c = g_q g /\ g_cost g = (cg_cost c, m2) :: l.
Proof.
  intros N scen C i g E G. apply convert_inv in E as (pv & bs & gc & gr & ls & li & _ & _ & EC & _ & _ & _ & ->). apply mapM_nth in EC as (_ & K).
  destruct (K i (i, g)) as (c & A & D); [now rewrite numbered_nth, G|]. exists c. unfold conv_gen in D. cbn [fst snd] in D. destruct (at_ (n_bus N) (g_pos g)) as [b|] eqn:B; [|discriminate]. apply at_ok in B. cbn [rbind] in D.
  destruct (g_cost g) as [|[m1 m2] l] eqn:Co; [discriminate|]. cbn in D. injection D as <-. exists b, m2, l. cbn [c_gen]. split; [rewrite nth_error_app1; [exact A|]; apply nth_error_Some; congruence|].
  cbn [cg_name cg_bus cg_control cg_max cg_nom cg_p cg_q cg_cost]. sp; try reflexivity; auto.
  - now intros ->.
  - now intros ->.
  - intros T U. destruct (Z.eqb_spec (b_type b) 1); [contradiction|]. destruct (Z.eqb_spec (b_type b) 2); [contradiction|]. reflexivity.
Qed.
Print Assumptions C288_conventional.
Example C288_witness : exists C g, convert (tiny [1; 2; 3]%Z [0; 20; 30]%Q [0; 4; 6]%Q [] [farm 3] 2) 0 = Ok C /\ nth_error (n_conv (tiny [1; 2; 3]%Z [0; 20; 30]%Q [0; 4; 6]%Q [] [farm 3] 2)) 1 = Some g.
Proof. eexists. eexists. split; [vm_compute; reflexivity|reflexivity]. Qed.

(* ------------------------------------------------------------------ *)
(** ** C289 *)
(** The generators are named Gen1, Gen2, ... without a gap exactly when all of them are conventional: RES generators skip a
    number and hydropower generators are not converted. *)
Theorem C289_names : forall N scen C, convert N scen = Ok C -> List.length (c_gen C) = List.length (n_conv N) + List.length (n_res N) /\
  ((forall k, 1 <= k <= List.length (n_conv N) + List.length (n_hydro N) + List.length (n_res N) -> In ("Gen" ++ str_nat k)%string (map cg_name (c_gen C))) <-> n_hydro N = [] /\ n_res N = []).
Proof.
  intros N scen C E. pose proof (gens_names _ _ _ E) as G. split.
  - rewrite <- (map_length cg_name), G, app_length, !map_length, !seq_length. reflexivity.
  - split.
    + intros H. destruct (Nat.eq_dec (List.length (n_hydro N) + List.length (n_res N)) 0) as [Z0|NZ].
      * destruct (n_hydro N), (n_res N); try discriminate Z0. auto.
      * exfalso. specialize (H (List.length (n_conv N) + 1) ltac:(lia)). rewrite G in H. change ("Gen" ++ str_nat (List.length (n_conv N) + 1))%string with (gen_name (List.length (n_conv N) + 1)) in H.
        apply in_app_or in H as [H|H]; apply in_map_iff in H as (j & J & I); apply gen_name_inj in J; apply in_seq in I; lia.
    + intros (H & R) k K. rewrite G, R. cbn [List.length seq map]. rewrite app_nil_r. rewrite H, R in K. cbn in K. apply in_map_iff. exists (k - 1). split; [unfold gen_name; do 2 f_equal; lia|apply in_seq; lia].
Qed.
Print Assumptions C289_names.
(** Data of the RES generators. *)
Theorem C289_res : forall N scen C i g, convert N scen = Ok C -> nth_error (n_res N) i = Some g -> exists c m2 l y, nth_error (c_gen C) (List.length (n_conv N) + i) = Some c /\
  cg_name c = ("Gen" ++ str_nat (List.length (n_conv N) + i + 2))%string /\ cg_bus c = ("Bus" ++ str_Z (g_bus g))%string /\ cg_control c = "PQ" /\ cg_nom c = Some (g_max g * n_base N)%Q /\
  cg_p c = 0%Q /\ cg_q c = 0%Q /\ g_cost g = (cg_cost c, m2) :: l /\ cg_max c = inr y /\ List.length y = n_time N /\
  forall t, t < n_time N -> exists links o v, nth_error (n_res_scen N) i = Some links /\ nth_error links scen = Some o /\ nth_error (n_wind N) (o + t) = Some v /\ nth_error y t = Some v.
Proof.
  intros N scen C i g E G. apply convert_inv in E as (pv & bs & gc & gr & ls & li & _ & _ & EC & ER & _ & _ & ->). apply mapM_nth in EC as (LC & _). rewrite numbered_length in LC. apply mapM_nth in ER as (_ & K).
  destruct (K i (i, g)) as (c & A & D); [now rewrite numbered_nth, G|]. exists c. unfold res_gen in D. cbn [fst snd] in D. cbv zeta in D.
  match type of D with context [mapM ?f ?l] => destruct (mapM f l) as [y|] eqn:Y; [|discriminate] end. cbn [rbind] in D.
  destruct (g_cost g) as [|[m1 m2] l] eqn:Co; [discriminate|]. cbn in D. injection D as <-. exists m2, l, y. cbn [c_gen]. split; [rewrite nth_error_app2 by lia; rewrite LC; replace (List.length (n_conv N) + i - List.length (n_conv N)) with i by lia; exact A|].
  cbn [cg_name cg_bus cg_control cg_max cg_nom cg_p cg_q cg_cost]. apply mapM_nth in Y as (LY & Y). rewrite seq_length in LY. sp; try reflexivity; auto.
  - unfold gen_name. do 2 f_equal. lia.
  - intros t T. destruct (Y t t) as (v & V & F); [now rewrite (nth_error_nth' _ 0), seq_nth by now rewrite ?seq_length|].
    destruct (at_ (n_res_scen N) i) as [links|] eqn:A0; [|discriminate]. cbn in F. destruct (at_ links scen) as [o|] eqn:A1; [|discriminate]. cbn in F. apply at_ok in A0, A1, F. exists links, o, v. auto.
Qed.
Print Assumptions C289_res.
(** With a hydropower or a RES generator some generator is missing. *)
Theorem C289_refuted : exists N C, sound N 0 /\ convert N 0 = Ok C /\ List.length (n_conv N) = 2 /\ List.length (n_res N) = 1 /\ n_hydro N = [] /\ map cg_name (c_gen C) = ["Gen1"; "Gen2"; "Gen4"].
Proof. exists (tiny [1; 2; 3]%Z [0; 20; 30]%Q [0; 4; 6]%Q [] [farm 3] 2). eexists. split; [tiny_sound|]. split; [vm_compute; reflexivity|]. repeat split. Qed.
Print Assumptions C289_refuted.
Example C289_witness : exists C g, convert (tiny [1; 2; 3]%Z [0; 20; 30]%Q [0; 4; 6]%Q [farm 2] [farm 3; farm 3] 2) 0 = Ok C /\ nth_error (n_res (tiny [1; 2; 3]%Z [0; 20; 30]%Q [0; 4; 6]%Q [farm 2] [farm 3; farm 3] 2)) 1 = Some g.
Proof. eexists. eexists. split; [vm_compute; reflexivity|reflexivity]. Qed.

(* ------------------------------------------------------------------ *)
(** ** C290 *)
(** Each branch gives one component: a line in ohm when it has no tap, a transformer in per unit otherwise. *)
Theorem C290_branches : forall N scen C, NoDup (map b_number (n_bus N)) -> convert N scen = Ok C ->
  List.length (c_line C) + List.length (c_trs C) = List.length (n_branch N) /\
  forall i r, nth_error (n_branch N) i = Some r ->
  ((r_tap r == 0)%Q -> exists c b, In c (c_line C) /\ In b (n_bus N) /\ b_number b = r_from r /\ ci_name c = ("Line" ++ str_nat (i + 1))%string /\
     ci_bus0 c = ("Bus" ++ str_Z (r_from r))%string /\ ci_bus1 c = ("Bus" ++ str_Z (r_to r))%string /\
     (ci_x c == r_x r * (kv_of b * kv_of b / n_base N))%Q /\ (ci_r c == r_r r * (kv_of b * kv_of b / n_base N))%Q /\ ci_nom c = (r_rate r * n_base N)%Q) /\
  (~ (r_tap r == 0)%Q -> exists c, In c (c_trs C) /\ ct_name c = ("Trs" ++ str_nat (i + 1))%string /\ ct_bus0 c = ("Bus" ++ str_Z (r_from r))%string /\ ct_bus1 c = ("Bus" ++ str_Z (r_to r))%string /\
     ct_x c = r_x r /\ ct_r c = r_r r /\ ct_b c = r_b r /\ ct_nom c = (r_rate r * n_base N)%Q /\ ct_tap c = r_tap r).
Proof.
  intros N scen C D E. pose proof E as E'. apply convert_inv in E as (pv & bs & gc & gr & ls & li & EP & EB & _ & _ & _ & EL & ->). cbn [c_line c_trs]. split.
  - apply lines_names, (f_equal (@List.length string)) in EL. rewrite !map_length in EL. rewrite EL. unfold trs. rewrite map_length, <- (numbered_length (n_branch N)).
    clear. unfold no_tap. induction (numbered (n_branch N)) as [|x l IH]; cbn [filter List.length]; [reflexivity|]. destruct (Qeq_bool (r_tap (snd x)) 0); cbn [filter List.length negb]; lia.
  - intros i r R. split; intros T.
    + apply Qeq_bool_iff in T. rewrite lines_eq in EL. apply mapM_nth in EL as (_ & K).
      assert (I : In (i, r) (filter no_tap (numbered (n_branch N)))) by (apply filter_In; split; [now apply in_numbered|exact T]).
      apply In_nth_error in I as (j & J). destruct (K _ _ J) as (c & A & F). apply nth_error_In in A. unfold line_of in F. cbn [fst snd] in F.
      destruct (v_nom (bus_name (r_from r)) bs) as [v|] eqn:V; [|discriminate]. cbn in F. injection F as <-.
      assert (X : In (bus_name (r_from r)) (map cb_name bs)). { destruct (in_dec string_dec (bus_name (r_from r)) (map cb_name bs)) as [Y|Y]; [exact Y|]. rewrite v_nom_missing in V by exact Y. discriminate. }
      rewrite (buses_names _ _ _ EB) in X. apply in_map_iff in X as (b & Bn & Ib). apply bus_name_inj in Bn. exists (CLine (line_name (i + 1)) (bus_name (r_from r)) (bus_name (r_to r)) (r_x r * (v * v / n_base N))%Q (r_r r * (v * v / n_base N))%Q (r_rate r * n_base N)%Q), b.
      assert (W : v = kv_of b).
      { apply In_nth_error in Ib as (k & Ib). destruct (bus_at _ _ _ _ _ E' Ib) as (pv' & c & _ & Ac & Dc). cbn [c_bus] in Ac. apply nth_error_In in Ac. unfold bus_of in Dc. destruct (set_of pv' (k, b)); [|discriminate]. cbn [rbind] in Dc. injection Dc as Dc.
        assert (ND : NoDup (map cb_name bs)).
        { rewrite (buses_names _ _ _ EB), <- (map_map b_number bus_name). clear - D. induction D as [|z l NI D IH]; cbn; constructor; [|exact IH]. intros I. apply in_map_iff in I as (y & E & I). apply bus_name_inj in E. now subst. }
        pose proof (v_nom_in bs c ND Ac) as VN. rewrite <- Dc in VN. cbn [cb_name cb_nom snd] in VN. rewrite Bn, V in VN. now injection VN. }
      subst v. sp; auto; cbn [ci_x ci_r]; reflexivity.
    + eexists. split; [unfold trs; apply in_map, filter_In; split; [exact (in_numbered _ _ _ R)|]|cbn [fst snd]; repeat split].
      cbn [snd]. apply negb_true_iff, not_true_is_false. intros X. apply T, Qeq_bool_iff, X.
Qed.
Print Assumptions C290_branches.
Example C290_witness : let N := tiny [1; 2; 3]%Z [0; 20; 30]%Q [0; 4; 6]%Q [] [farm 3] 2 in
  NoDup (map b_number (n_bus N)) /\ (exists C, convert N 0 = Ok C) /\ (exists r, nth_error (n_branch N) 0 = Some r /\ (r_tap r == 0)%Q) /\ (exists r, nth_error (n_branch N) 1 = Some r /\ ~ (r_tap r == 0)%Q).
Proof.
  cbv zeta. sp; [repeat constructor; cbn; intuition discriminate|eexists; vm_compute; reflexivity|eexists; split; [reflexivity|reflexivity]|eexists; split; [reflexivity|intros X; discriminate X]].
Qed.

(* ------------------------------------------------------------------ *)
(** ** C291 *)
(** A line from a bus that does not exist stops the conversion with a KeyError. *)
Theorem C291_unknown_bus : forall N scen r, sound (Net (n_base N) (n_time N) (n_bus N) (n_conv N) (n_hydro N) (n_res N) [] (n_pd N) (n_qd N) (n_demand N) (n_wind N) (n_bus_scen N) (n_res_scen N)) scen ->
  In r (n_branch N) -> (r_tap r == 0)%Q -> ~ In (r_from r) (map b_number (n_bus N)) -> convert N scen = Err KeyError.
Proof.
  intros N scen r (D & P & K & _ & LP & LQ & PB & PR) I T NI. cbn in D, P, K, LP, LQ, PB, PR. destruct (before_lines N scen D P K LP LQ PB PR) as (pv & bs & gc & gr & ls & EP & EB & EC & ER & EL).
  unfold convert. rewrite EP. cbn [rbind]. rewrite EB. cbn [rbind]. rewrite EC, ER, EL. cbn [rbind].
  assert (M : lines N bs = Err KeyError); [|now rewrite M].
  rewrite lines_eq. apply In_nth_error in I as (i & I). apply in_numbered in I. assert (J : In (i, r) (filter no_tap (numbered (n_branch N)))) by (apply filter_In; split; [exact I|now apply Qeq_bool_iff]).
  assert (V : v_nom (bus_name (r_from r)) bs = Err KeyError).
  { apply v_nom_missing. rewrite (buses_names _ _ _ EB), <- (map_map b_number bus_name). intros X. apply in_map_iff in X as (z & Z0 & X). apply bus_name_inj in Z0. now subst. }
  assert (F : line_of N bs (i, r) = Err KeyError) by (unfold line_of; cbn [fst snd]; now rewrite V).
  assert (O : forall x, (exists c, line_of N bs x = Ok c) \/ line_of N bs x = Err KeyError).
  { intros x. unfold line_of. destruct (v_nom (bus_name (r_from (snd x))) bs) eqn:W; cbn; [left; eauto|right]. clear - W. induction bs as [|b bs IH]; cbn in W; [injection W as <-; reflexivity|]. destruct (String.eqb _ _); [discriminate|auto]. }
  clear - J F O. induction (filter no_tap (numbered (n_branch N))) as [|x l IH]; [destruct J|]. cbn. destruct J as [->|J]; [now rewrite F|]. destruct (O x) as [(c & ->)| ->]; [|reflexivity]. cbn. now rewrite IH.
Qed.
Print Assumptions C291_unknown_bus.
Example C291_witness : exists N r, sound (Net (n_base N) (n_time N) (n_bus N) (n_conv N) (n_hydro N) (n_res N) [] (n_pd N) (n_qd N) (n_demand N) (n_wind N) (n_bus_scen N) (n_res_scen N)) 0 /\
  In r (n_branch N) /\ (r_tap r == 0)%Q /\ ~ In (r_from r) (map b_number (n_bus N)).
Proof.
  exists (Net 100 1 [Bus 1 3 132 1 1 1 None] [] [] [] [Branch 7 1 0 1 1 1 1] [5]%Q [5]%Q [1]%Q [] [[0]] []). eexists. sp; [|left; reflexivity|reflexivity|cbn; intuition discriminate].
  unfold sound; cbn; sp; try reflexivity.
  - repeat constructor; auto.
  - intros g [].
  - intros g [].
  - intros r [].
  - intros [|n] L; [|lia]. exists 0, [0]. repeat split; cbn; lia.
  - intros n L. lia.
Qed.

(* ------------------------------------------------------------------ *)
(** ** C292 *)
(** When buses are numbered by their positions, each bus with active demand has one load with the demand times the profile. *)
Theorem C292_loads_partial : forall N scen C n b pd qd, in_order N -> convert N scen = Ok C -> nth_error (n_bus N) n = Some b -> nth_error (n_pd N) n = Some pd -> nth_error (n_qd N) n = Some qd -> ~ (pd == 0)%Q ->
  exists c, In c (c_load C) /\ cl_bus c = ("Bus" ++ str_Z (b_number b))%string /\ (forall c', In c' (c_load C) -> cl_bus c' = cl_bus c -> c' = c) /\
    List.length (cl_p c) = n_time N /\ List.length (cl_q c) = n_time N /\
    forall t, t < n_time N -> exists l o a, nth_error (n_bus_scen N) n = Some l /\ nth_error l scen = Some o /\ nth_error (n_demand N) (o + t) = Some a /\
      nth_error (cl_p c) t = Some (pd * a)%Q /\ nth_error (cl_q c) t = Some (qd * a)%Q.
Proof.
  intros N scen C n b pd qd O E B P Qd NZ. apply convert_inv in E as (pv & bs & gc & gr & ls & li & _ & _ & _ & _ & EL & _ & ->). cbn [c_load]. apply loads_fold in EL as (new & -> & F & _). cbn [app].
  assert (I : In n (filter (has_pd N) (seq 0 (List.length (n_bus N))))).
  { apply filter_In. split; [apply in_seq; split; [lia|]; apply nth_error_Some; congruence|]. unfold has_pd. rewrite P. apply negb_true_iff, not_true_is_false. intros X. apply NZ, Qeq_bool_iff, X. }
  assert (ND : NoDup (filter (has_pd N) (seq 0 (List.length (n_bus N))))) by apply NoDup_filter, seq_NoDup.
  assert (W : exists c, In c new /\ load_at N scen n c /\ forall c', In c' new -> cl_bus c' = cl_bus c -> c' = c).
  { clear - I ND F. induction F as [|m c l new L F IH]; [destruct I|]. inversion ND as [|? ? NI ND']; subst. destruct I as [->|I].
    - exists c. split; [now left|]. split; [exact L|]. intros c' [->|I'] EQ; [reflexivity|]. exfalso. apply NI.
      assert (X : exists k, In k l /\ load_at N scen k c') by (clear - F I'; induction F as [|m d l new L F IH]; [destruct I'|]; destruct I' as [->|I']; [exists m; split; [now left|exact L]|destruct (IH I') as (k & ? & ?); exists k; split; [now right|auto]]).
      destruct X as (k & Ik & (Bk & _)). destruct L as (Bn & _). rewrite Bk, Bn in EQ. apply bus_name_inj in EQ. replace n with k by lia. exact Ik.
    - destruct (IH I ND') as (d & Id & Ld & U). exists d. split; [now right|]. split; [exact Ld|]. intros c' [->|I'] EQ; [|now apply U]. exfalso. apply NI. destruct L as (Bm & _), Ld as (Bn & _). rewrite Bm, Bn in EQ. apply bus_name_inj in EQ. now replace m with n by lia. }
  destruct W as (c & Ic & (Bc & pd' & qd' & P' & Q' & LP & LQ & S) & U). exists c. split; [exact Ic|]. split; [rewrite Bc, (O n b B); reflexivity|]. split; [exact U|]. split; [exact LP|]. split; [exact LQ|].
  intros t T. destruct (S t T) as (o & l & a & X1 & X2 & X3 & X4 & X5). exists l, o, a. rewrite P in P'. injection P' as <-. rewrite Q' in Qd by lia. injection Qd as <-. auto.
Qed.
Print Assumptions C292_loads_partial.
(** With other numbers the demand of a bus is not put at that bus. *)
Theorem C292_refuted : exists N C b, sound N 0 /\ convert N 0 = Ok C /\ nth_error (n_bus N) 1 = Some b /\ nth_error (n_pd N) 1 = Some 20%Q /\
  (forall c, In c (c_load C) -> cl_bus c <> ("Bus" ++ str_Z (b_number b))%string) /\ exists c, In c (c_load C) /\ ~ In (cl_bus c) (map cb_name (c_bus C)).
Proof.
  exists (tiny [10; 20; 30]%Z [0; 20; 30]%Q [0; 4; 6]%Q [] [farm 30] 2). eexists. eexists. split; [tiny_sound|]. split; [vm_compute; reflexivity|]. split; [reflexivity|]. split; [reflexivity|]. split.
  - intros c [<-|[<-|[]]]; discriminate.
  - eexists. split; [left; reflexivity|]. cbn. intuition discriminate.
Qed.
Print Assumptions C292_refuted.
Example C292_witness : let N := tiny [1; 2; 3]%Z [0; 20; 30]%Q [0; 4; 6]%Q [] [farm 3] 2 in in_order N /\ (exists C, convert N 0 = Ok C) /\
  (exists b, nth_error (n_bus N) 2 = Some b) /\ nth_error (n_pd N) 2 = Some 30%Q /\ nth_error (n_qd N) 2 = Some 6%Q /\ ~ (30 == 0)%Q.
Proof.
  cbv zeta. sp; [|eexists; vm_compute; reflexivity|eexists; reflexivity|reflexivity|reflexivity|intros X; discriminate X].
  intros [|[|[|i]]] b B; cbn in B; try (injection B as <-; reflexivity). destruct i; discriminate.
Qed.

(* ------------------------------------------------------------------ *)
(** ** C293 *)
(** No load is made for a position without active demand, whatever its reactive demand. *)
Theorem C293_no_load : forall N scen C n pd, convert N scen = Ok C -> nth_error (n_pd N) n = Some pd -> (pd == 0)%Q -> forall c, In c (c_load C) -> cl_bus c <> ("Bus" ++ str_Z (Z.of_nat n + 1))%string.
Proof.
  intros N scen C n pd E P Z0 c I X. apply convert_inv in E as (pv & bs & gc & gr & ls & li & _ & _ & _ & _ & EL & _ & ->). cbn [c_load] in I. apply loads_fold in EL as (new & -> & F & _). cbn [app] in I.
  assert (W : exists k, In k (filter (has_pd N) (seq 0 (List.length (n_bus N)))) /\ load_at N scen k c).
  { clear - F I. induction F as [|m d l new L F IH]; [destruct I|]. destruct I as [->|I]; [exists m; split; [now left|exact L]|]. destruct (IH I) as (k & ? & ?). exists k. split; [now right|auto]. }
  destruct W as (k & Ik & (Bk & _)). rewrite Bk in X. apply (bus_name_inj (Z.of_nat k + 1) (Z.of_nat n + 1)) in X. replace k with n in Ik by lia. apply filter_In in Ik as (_ & H). unfold has_pd in H. rewrite P in H.
  apply Qeq_bool_iff in Z0. rewrite Z0 in H. discriminate.
Qed.
Print Assumptions C293_no_load.
(** A bus that only consumes reactive power loses its load. *)
Theorem C293_refuted : exists N C, sound N 0 /\ in_order N /\ convert N 0 = Ok C /\ nth_error (n_pd N) 1 = Some 0%Q /\ nth_error (n_qd N) 1 = Some 40%Q /\ forall c, In c (c_load C) -> cl_bus c <> "Bus2".
Proof.
  exists (tiny [1; 2; 3]%Z [0; 0; 30]%Q [0; 40; 6]%Q [] [] 2). eexists. split; [tiny_sound|]. split; [intros [|[|[|i]]] b B; cbn in B; try (injection B as <-; reflexivity); destruct i; discriminate|].
  split; [vm_compute; reflexivity|]. split; [reflexivity|]. split; [reflexivity|]. intros c [<-|[]]. discriminate.
Qed.
Print Assumptions C293_refuted.
Example C293_witness : let N := tiny [1; 2; 3]%Z [0; 0; 30]%Q [0; 40; 6]%Q [] [] 2 in (exists C c, convert N 0 = Ok C /\ In c (c_load C)) /\ nth_error (n_pd N) 1 = Some 0%Q /\ (0 == 0)%Q.
Proof. cbv zeta. sp; [eexists; eexists; split; [vm_compute; reflexivity|left; reflexivity]|reflexivity|reflexivity]. Qed.

(* ------------------------------------------------------------------ *)
(** ** results *)
Local Lemma column_in names f n : In n names -> column names f n = Ok (f n).
Proof. intros I. unfold column. replace (existsb (String.eqb n) names) with true; [reflexivity|]. symmetry. apply existsb_exists. exists n. split; [exact I|apply String.eqb_refl]. Qed.
Local Lemma column_out names f n : ~ In n names -> column names f n = Err AttributeError.
Proof.
  intros I. unfold column. replace (existsb (String.eqb n) names) with false; [reflexivity|]. symmetry. apply not_true_is_false. intros X. apply existsb_exists in X as (m & Im & Em). apply String.eqb_eq in Em. now subst.
Qed.
Local Lemma mapM_column_err {A} names f (k : A -> string) l : (exists a, In a l /\ ~ In (k a) names) -> mapM (fun a => column names f (k a)) l = Err AttributeError.
Proof.
  induction l as [|x l IH]; intros (a & I & NI); [destruct I|]. cbn. destruct (in_dec string_dec (k x) names) as [Y|Y]; [|now rewrite column_out]. rewrite column_in by exact Y. cbn.
  rewrite IH; [reflexivity|]. destruct I as [->|I]; [contradiction|eauto].
Qed.
Local Lemma nth_seq k n : k < n -> nth_error (seq 0 n) k = Some k.
Proof. intros L. now rewrite (nth_error_nth' _ 0), seq_nth by now rewrite ?seq_length. Qed.

Local Lemma gen_rows_ok N scen C f : n_hydro N = [] -> n_res N = [] -> convert N scen = Ok C -> gen_rows N C f = Ok (map (fun g => f (gen_name (g + 1))) (seq 0 (List.length (n_conv N)))).
Proof.
  intros H R E. unfold gen_rows, all_gens. rewrite H, R. cbn [app]. rewrite app_nil_r. rewrite (gens_names _ _ _ E), R. cbn [List.length seq map]. rewrite app_nil_r. apply mapM_map. intros g I. apply column_in. apply in_map_iff. eauto.
Qed.
Local Lemma bus_rows_ok N scen C f : in_order N -> convert N scen = Ok C -> bus_rows N C f = Ok (map (fun n => f ("Bus" ++ str_nat (n + 1))%string) (seq 0 (List.length (n_bus N)))).
Proof.
  intros O E. unfold bus_rows. apply mapM_map. intros n I. apply column_in. apply convert_inv in E as (pv & bs & gc & gr & ls & li & _ & EB & _ & _ & _ & _ & ->). cbn [c_bus]. rewrite (buses_names _ _ _ EB).
  apply in_seq in I. destruct (at_lt (n_bus N) n) as (b & _ & B); [lia|]. apply in_map_iff. exists b. split; [rewrite (O n b B); apply bus_name_nat|now apply nth_error_In in B].
Qed.
Local Lemma branch_rows_ok N scen C fl ft : convert N scen = Ok C ->
  branch_rows N C fl ft = Ok (map (fun x => if Qeq_bool (r_tap (snd x)) 0 then fl (line_name (fst x + 1)) else ft (trs_name (fst x + 1))) (numbered (n_branch N))).
Proof.
  intros E. unfold branch_rows. apply mapM_map. intros x I. apply convert_inv in E as (pv & bs & gc & gr & ls & li & _ & _ & _ & _ & _ & EL & ->). cbn [c_line c_trs]. destruct (Qeq_bool (r_tap (snd x)) 0) eqn:T.
  - apply column_in. rewrite (lines_names _ _ _ EL). apply in_map_iff. exists x. split; [reflexivity|]. apply filter_In. auto.
  - apply column_in. unfold trs. rewrite map_map. apply in_map_iff. exists x. split; [reflexivity|]. apply filter_In. split; [exact I|]. now rewrite T.
Qed.

(** ** C294 *)
(** With conventional generators only and buses numbered by their positions, the tables hold the results of pypsa, and the
    losses of a branch are the sum of the powers that enter it at both ends. *)
Theorem C294_tables_partial : forall N scen C F w, n_hydro N = [] -> n_res N = [] -> in_order N -> convert N scen = Ok C -> exists P, read_part N w (C, F) = Ok P /\
  (forall g, g < List.length (n_conv N) -> nth_error (p_gp P) g = Some (f_gp F ("Gen" ++ str_nat (g + 1))%string) /\ nth_error (p_gq P) g = Some (f_gq F ("Gen" ++ str_nat (g + 1))%string)) /\
  (forall i b, nth_error (n_bus N) i = Some b -> nth_error (p_vm P) i = Some (f_vm F ("Bus" ++ str_Z (b_number b))%string) /\ nth_error (p_va P) i = Some (f_va F ("Bus" ++ str_Z (b_number b))%string)) /\
  (forall i r, nth_error (n_branch N) i = Some r -> exists p0 p1 q0 q1 lp lq, nth_error (p_p0 P) i = Some p0 /\ nth_error (p_p1 P) i = Some p1 /\ nth_error (p_q0 P) i = Some q0 /\ nth_error (p_q1 P) i = Some q1 /\
     nth_error (p_lp P) i = Some lp /\ nth_error (p_lq P) i = Some lq /\ (forall t, lp t = p0 t + p1 t /\ lq t = q0 t + q1 t)%Q /\
     ((r_tap r == 0)%Q -> let n := ("Line" ++ str_nat (i + 1))%string in p0 = f_lp0 F n /\ p1 = f_lp1 F n /\ q0 = f_lq0 F n /\ q1 = f_lq1 F n) /\
     (~ (r_tap r == 0)%Q -> let n := ("Trs" ++ str_nat (i + 1))%string in p0 = f_tp0 F n /\ p1 = f_tp1 F n /\ q0 = f_tq0 F n /\ q1 = f_tq1 F n)).
Proof.
  intros N scen C F w H R O E. unfold read_part. rewrite !(gen_rows_ok N scen C _ H R E). cbn [rbind]. rewrite !(bus_rows_ok N scen C _ O E). cbn [rbind]. rewrite !(branch_rows_ok N scen C _ _ E). cbn [rbind].
  eexists. split; [reflexivity|]. cbn [p_gp p_gq p_vm p_va p_p0 p_p1 p_q0 p_q1 p_lp p_lq]. sp.
  - intros g L. rewrite !nth_error_map, nth_seq by exact L. auto.
  - intros i b B. rewrite !nth_error_map, nth_seq by (apply nth_error_Some; congruence). cbn [option_map]. rewrite (O i b B), <- bus_name_nat. auto.
  - intros i r Rr. unfold sums.
    assert (K : forall f : nat * branch -> nat -> Q, nth_error (map f (numbered (n_branch N))) i = Some (f (i, r))) by (intros f; now rewrite nth_error_map, numbered_nth, Rr).
    assert (KC : forall f g : nat * branch -> nat -> Q, nth_error (map (fun (x : (nat -> Q) * (nat -> Q)) t => (fst x t + snd x t)%Q) (combine (map f (numbered (n_branch N))) (map g (numbered (n_branch N))))) i = Some (fun t => f (i, r) t + g (i, r) t)%Q).
    { intros f g. rewrite nth_error_map. generalize (K f) (K g). generalize (map f (numbered (n_branch N))) (map g (numbered (n_branch N))) (f (i, r)) (g (i, r)). clear. intros l l' u v. revert l l'. induction i as [|i IH]; intros [|a l] [|b l'] A B; try discriminate; cbn in *; [injection A as ->; injection B as ->; reflexivity|now apply IH]. }
    rewrite !K, !KC. do 6 eexists. sp; try reflexivity.
    + intros t. cbn [fst snd]. split; reflexivity.
    + intros T. apply Qeq_bool_iff in T. cbn [fst snd]. rewrite T. repeat split; reflexivity.
    + intros T. cbn [fst snd]. destruct (Qeq_bool (r_tap r) 0) eqn:QB; [apply Qeq_bool_iff in QB; contradiction|]. repeat split; reflexivity.
Qed.
Print Assumptions C294_tables_partial.
Example C294_witness : let N := tiny [1; 2; 3]%Z [0; 20; 30]%Q [0; 4; 6]%Q [] [] 2 in n_hydro N = [] /\ n_res N = [] /\ in_order N /\ exists C, convert N 0 = Ok C.
Proof.
  cbv zeta. sp; [reflexivity|reflexivity| |eexists; vm_compute; reflexivity]. intros [|[|[|i]]] b B; cbn in B; try (injection B as <-; reflexivity). destruct i; discriminate.
Qed.

(* ------------------------------------------------------------------ *)
(** ** C295 *)
(** With a hydropower or RES generator the results cannot be collected, whatever pypsa gives. *)
Theorem C295_refuted : forall N scen C F w ofaux ms, convert N scen = Ok C -> n_hydro N <> [] \/ n_res N <> [] -> report N w ofaux ((C, F) :: ms) = Err AttributeError.
Proof.
  intros N scen C F w ofaux ms E H. unfold report. cbn [mapM]. unfold read_part at 1. unfold gen_rows at 1. rewrite (mapM_column_err _ _ (fun g => gen_name (g + 1))); [reflexivity|].
  exists (List.length (n_conv N)). split.
  - apply in_seq. unfold all_gens. rewrite !app_length. destruct H as [H|H]; [destruct (n_hydro N)|destruct (n_res N)]; try congruence; cbn; lia.
  - rewrite (gens_names _ _ _ E). intros I. apply in_app_or in I as [I|I]; apply in_map_iff in I as (j & J & I); apply gen_name_inj in J; apply in_seq in I; lia.
Qed.
Print Assumptions C295_refuted.
(** Nor can they when no bus has the number k, for some k up to the number of buses. *)
Theorem C295_numbers : forall N scen C F w ofaux ms k, convert N scen = Ok C -> n_hydro N = [] -> n_res N = [] -> 1 <= k <= List.length (n_bus N) -> ~ In (Z.of_nat k) (map b_number (n_bus N)) ->
  report N w ofaux ((C, F) :: ms) = Err AttributeError.
Proof.
  intros N scen C F w ofaux ms k E H R K NI. unfold report. cbn [mapM]. unfold read_part at 1. rewrite !(gen_rows_ok N scen C _ H R E). cbn [rbind]. unfold bus_rows at 1. rewrite (mapM_column_err _ _ (fun n => ("Bus" ++ str_nat (n + 1))%string)); [reflexivity|].
  exists (k - 1). split; [apply in_seq; lia|]. apply convert_inv in E as (pv & bs & gc & gr & ls & li & _ & EB & _ & _ & _ & _ & ->). cbn [c_bus]. rewrite (buses_names _ _ _ EB), <- bus_name_nat. intros I. apply in_map_iff in I as (b & B & I). apply bus_name_inj in B.
  apply NI. replace (Z.of_nat k) with (b_number b) by lia. now apply in_map.
Qed.
Print Assumptions C295_numbers.
Example C295_witness : (exists C, convert (tiny [1; 2; 3]%Z [0; 20; 30]%Q [0; 4; 6]%Q [] [farm 3] 2) 0 = Ok C) /\ (exists C, convert (tiny [10; 20; 30]%Z [0; 20; 30]%Q [0; 4; 6]%Q [] [] 2) 0 = Ok C) /\
  ~ In (Z.of_nat 2) (map b_number (n_bus (tiny [10; 20; 30]%Z [0; 20; 30]%Q [0; 4; 6]%Q [] [] 2))).
Proof. sp; [eexists; vm_compute; reflexivity|eexists; vm_compute; reflexivity|cbn; intuition discriminate]. Qed.

(* ------------------------------------------------------------------ *)
(** ** C296 *)
Local Lemma pieces_ge N g : In g (all_gens N) -> List.length (g_cost g) <= pieces N.
Proof.
  unfold pieces. intros I. assert (K : forall l k, (forall g, In g l -> List.length (g_cost g) <= fold_left (fun k g => Nat.max k (List.length (g_cost g))) l k) /\ k <= fold_left (fun k g => Nat.max k (List.length (g_cost g))) l k).
  { induction l as [|x l IH]; intros k; cbn; [split; [intros ? []|lia]|]. destruct (IH (Nat.max k (List.length (g_cost x)))) as (A & B). split; [|lia]. intros h [->|J]; [lia|now apply A]. }
  now apply K.
Qed.
Local Lemma py_max_ge a b : (a <= py_max a b /\ b <= py_max a b)%Q /\ (py_max a b = a \/ py_max a b = b).
Proof. unfold py_max. destruct (Qle_bool b a) eqn:L; [apply Qle_bool_iff in L; repeat split; auto; lra|]. assert (~ (b <= a)%Q) by (intros X; apply Qle_bool_iff in X; congruence). repeat split; auto; lra. Qed.
Local Lemma cost_is N w g q t : In g (all_gens N) -> is_cost (g_cost g) (q t) (w t) (cost_row N w (g, q) t).
Proof.
  intros I. unfold cost_row. cbn [fst snd]. pose proof (pieces_ge _ _ I) as L.
  assert (K : forall n, let c := fold_left (cost_step w q g) (seq 0 n) (fun _ => 0%Q) t in (0 <= c)%Q /\ (forall i m1 m2, i < n -> nth_error (g_cost g) i = Some (m1, m2) -> (q t * m1 * w t + m2 <= c)%Q) /\
    (c = 0%Q \/ exists m1 m2, In (m1, m2) (g_cost g) /\ c = (q t * m1 * w t + m2)%Q)).
  { induction n as [|n IH]; cbv zeta; [cbn; sp; [lra|intros; lia|auto]|]. cbv zeta in IH. rewrite seq_S, fold_left_app. cbn [fold_left Nat.add]. set (f := fold_left _ (seq 0 n) _) in *. unfold cost_step. destruct IH as (A & B & D).
    destruct (nth_error (g_cost g) n) as [[m1 m2]|] eqn:Nn.
    - destruct (py_max_ge (f t) (q t * m1 * w t + m2)) as ((X & Y) & Z0). sp; [lra| |].
      + intros i a b Li Ni. destruct (Nat.eq_dec i n) as [->|D']; [rewrite Nn in Ni; injection Ni as <- <-; exact Y|]. specialize (B i a b ltac:(lia) Ni). lra.
      + destruct Z0 as [->| ->]; [exact D|]. right. exists m1, m2. split; [now apply nth_error_In in Nn|reflexivity].
    - sp; auto. intros i a b Li Ni. destruct (Nat.eq_dec i n) as [->|D']; [congruence|]. apply (B i); [lia|exact Ni]. }
  specialize (K (pieces N)). cbv zeta in K. destruct K as (A & B & D). unfold is_cost. sp; auto. intros m1 m2 J. apply In_nth_error in J as (i & J). apply (B i); [|exact J]. assert (i < List.length (g_cost g)) by (apply nth_error_Some; congruence). lia.
Qed.
Local Lemma part_inv N w C F P : read_part N w (C, F) = Ok P -> p_cost P = map (cost_row N w) (combine (all_gens N) (p_gq P)) /\ gen_rows N C (f_gq F) = Ok (p_gq P).
Proof.
  unfold read_part. intros E. destruct (gen_rows N C (f_gp F)); [|discriminate]. cbn [rbind] in E. destruct (gen_rows N C (f_gq F)) as [gq|] eqn:G; [|discriminate]. cbn [rbind] in E.
  destruct (bus_rows N C (f_vm F)); [|discriminate]. cbn [rbind] in E. destruct (bus_rows N C (f_va F)); [|discriminate]. cbn [rbind] in E.
  destruct (branch_rows N C (f_lp0 F) (f_tp0 F)); [|discriminate]. cbn [rbind] in E. destruct (branch_rows N C (f_lp1 F) (f_tp1 F)); [|discriminate]. cbn [rbind] in E.
  destruct (branch_rows N C (f_lq0 F) (f_tq0 F)); [|discriminate]. cbn [rbind] in E. destruct (branch_rows N C (f_lq1 F) (f_tq1 F)); [|discriminate]. cbn [rbind] in E. injection E as <-. auto.
Qed.
(** The cost that is reported for a generator is the cost of its reactive power. *)
Theorem C296_cost : forall N w C F P i g, read_part N w (C, F) = Ok P -> nth_error (n_conv N ++ n_hydro N ++ n_res N) i = Some g ->
  exists c q, nth_error (p_cost P) i = Some c /\ nth_error (p_gq P) i = Some q /\ q = f_gq F ("Gen" ++ str_nat (i + 1))%string /\ forall t, is_cost (g_cost g) (q t) (w t) (c t).
Proof.
  intros N w C F P i g E G. apply part_inv in E as (Ec & Eq). unfold gen_rows in Eq. apply mapM_nth in Eq as (L & K). assert (Li : i < List.length (all_gens N)) by (apply nth_error_Some; unfold all_gens; congruence).
  destruct (K i i (nth_seq _ _ Li)) as (q & Q0 & Q1). exists (cost_row N w (g, q)), q. rewrite Ec. sp.
  - rewrite nth_error_map. assert (X : nth_error (combine (all_gens N) (p_gq P)) i = Some (g, q)); [|now rewrite X].
    change (nth_error (all_gens N) i = Some g) in G. clear - G Q0. revert i G Q0. generalize (all_gens N) (p_gq P). intros l l'. revert l'. induction l as [|x l IH]; intros [|y l'] [|i] G Q0; try discriminate; cbn in *; [injection G as ->; injection Q0 as ->; reflexivity|now apply IH].
  - exact Q0.
  - unfold column in Q1. destruct (existsb _ _); [injection Q1 as <-; reflexivity|discriminate].
  - intros t. apply cost_is. exact (nth_error_In _ _ G).
Qed.
Print Assumptions C296_cost.
(** The active power has no effect on the costs, nor on the objective. *)
Theorem C296_not_of_p : forall N w ofaux C F F' ps o ps' o', same_but_p F F' -> report N w ofaux [(C, F)] = Ok (ps, o) -> report N w ofaux [(C, F')] = Ok (ps', o') -> map p_cost ps = map p_cost ps' /\ o = o'.
Proof.
  intros N w ofaux C F F' ps o ps' o' (Sq & _) E E'. unfold report in E, E'. cbn [mapM] in E, E'. destruct (read_part N w (C, F)) as [P|] eqn:R; [|discriminate]. destruct (read_part N w (C, F')) as [P'|] eqn:R'; [|discriminate]. cbn [rbind] in E, E'.
  apply part_inv in R as (A & B), R' as (A' & B'). rewrite <- Sq, B in B'. injection B' as B'. assert (X : p_cost P = p_cost P') by now rewrite A, A', B'.
  unfold last_t, objective in E, E'. cbn [numbered List.length seq combine foldM fst snd] in E, E'. rewrite X in E. match type of E with context [foldM ?f ?l ?a] => destruct (foldM f l a) as [z|] end; [|discriminate]. cbn in E, E'. injection E as <- <-. injection E' as <- <-. cbn. now rewrite X.
Qed.
Print Assumptions C296_not_of_p.
(** A generator that produces active power only, at a positive cost, costs nothing. *)
Theorem C296_refuted : exists N C F P c, convert N 0 = Ok C /\ read_part N (fun _ => 1%Q) (C, F) = Ok P /\ nth_error (p_cost P) 0 = Some c /\ (exists g, nth_error (n_conv N) 0 = Some g /\ exists p, nth_error (p_gp P) 0 = Some p /\ (p 0%nat == 50)%Q /\ ~ is_cost (g_cost g) (p 0) 1 (c 0)).
Proof.
  exists (tiny [1; 2; 3]%Z [0; 20; 30]%Q [0; 4; 6]%Q [] [] 1). eexists. exists (Frames (fun _ _ => 50%Q) (fun _ _ => 0%Q) (fun _ _ => 1%Q) (fun _ _ => 0%Q) (fun _ _ => 0%Q) (fun _ _ => 0%Q) (fun _ _ => 0%Q) (fun _ _ => 0%Q) (fun _ _ => 0%Q) (fun _ _ => 0%Q) (fun _ _ => 0%Q) (fun _ _ => 0%Q)).
  eexists. eexists. split; [vm_compute; reflexivity|]. split; [reflexivity|]. split; [reflexivity|]. eexists. split; [reflexivity|]. eexists. split; [reflexivity|]. split; [reflexivity|].
  intros (_ & B & _). specialize (B 20%Q 0%Q (or_introl eq_refl)). revert B. vm_compute. intros B. now apply B.
Qed.
Print Assumptions C296_refuted.
Local Definition flat : frames := Frames (fun _ _ => 50%Q) (fun _ _ => 7%Q) (fun _ _ => 1%Q) (fun _ _ => 0%Q) (fun _ _ => 0%Q) (fun _ _ => 0%Q) (fun _ _ => 0%Q) (fun _ _ => 0%Q) (fun _ _ => 0%Q) (fun _ _ => 0%Q) (fun _ _ => 0%Q) (fun _ _ => 0%Q).
Local Definition flat' : frames := Frames (fun _ _ => 70%Q) (f_gq flat) (f_vm flat) (f_va flat) (f_lp0 flat) (f_lp1 flat) (f_lq0 flat) (f_lq1 flat) (f_tp0 flat) (f_tp1 flat) (f_tq0 flat) (f_tq1 flat).
Example C296_witness : same_but_p flat flat' /\ exists C r r', convert (tiny [1; 2; 3]%Z [0; 20; 30]%Q [0; 4; 6]%Q [] [] 1) 0 = Ok C /\
  report (tiny [1; 2; 3]%Z [0; 20; 30]%Q [0; 4; 6]%Q [] [] 1) (fun _ => 1%Q) [1]%Q [(C, flat)] = Ok r /\ report (tiny [1; 2; 3]%Z [0; 20; 30]%Q [0; 4; 6]%Q [] [] 1) (fun _ => 1%Q) [1]%Q [(C, flat')] = Ok r'.
Proof. split; [repeat split|]. do 3 eexists. split; [vm_compute; reflexivity|]. split; reflexivity. Qed.

(* ------------------------------------------------------------------ *)
(** ** C297 *)
Local Lemma obj_fold t : forall (cs : list (nat -> Q)) o acc out, foldM (fun acc c => do o <- o; Ok (acc + (c : nat -> Q) t * o)%Q) cs acc = Ok out ->
  exists z, (cs = [] \/ o = Ok z) /\ (out == acc + qsum (map (fun c => c t) cs) * z)%Q.
Proof.
  induction cs as [|c cs IH]; intros o acc out E; cbn in E; [injection E as <-; exists 0%Q; split; [auto|cbn; ring]|].
  destruct o as [z|]; [|discriminate]. cbn in E. apply (IH (Ok z)) in E as (z' & D & E). exists z. split; [auto|]. rewrite E. cbn [map qsum fold_right]. destruct D as [->|D]; [cbn; ring|]. injection D as <-. unfold qsum. ring.
Qed.
(** The objective counts the costs in the last time step only. *)
Theorem C297_last_step : forall N w ofaux ms ps o, report N w ofaux ms = Ok (ps, o) ->
  (o == qsum (map (fun x => qsum (map (fun c => c (n_time N - 1)%nat) (p_cost (snd x))) * nth (fst x) ofaux 0) (combine (seq 0 (List.length ps)) ps)))%Q.
Proof.
  intros N w ofaux ms ps o E. unfold report in E. destruct (mapM (read_part N w) ms) as [ps'|]; [|discriminate]. cbn [rbind] in E. destruct (objective N (last_t N ms) ofaux ps') as [o'|] eqn:O; [|discriminate]. injection E as -> ->.
  unfold objective in O. change (combine (seq 0 (List.length ps)) ps) with (numbered ps). 
  assert (K : forall l acc out, foldM (fun acc x => foldM (fun acc c => match last_t N ms with None => Err UnboundLocalError | Some t => do o <- at_ ofaux (fst x); Ok (acc + (c : nat -> Q) t * o)%Q end) (p_cost (snd x)) acc) l acc = Ok out ->
    (out == acc + qsum (map (fun x => qsum (map (fun c => c (n_time N - 1)%nat) (p_cost (snd x))) * nth (fst x) ofaux 0) l))%Q).
  { induction l as [|x l IH]; intros acc out F; cbn [foldM] in F; [injection F as <-; cbn; ring|].
    match type of F with context [foldM ?f (p_cost (snd x)) acc] => destruct (foldM f (p_cost (snd x)) acc) as [a|] eqn:A end; [|discriminate]. cbn [rbind] in F. apply IH in F. rewrite F. cbn [map qsum fold_right].
    destruct (last_t N ms) as [t|] eqn:T.
    - assert (t = n_time N - 1) as -> by (unfold last_t in T; destruct (_ && _)%bool; [congruence|discriminate]).
      apply obj_fold in A as (z & D & A). rewrite A. destruct D as [D|D]; [rewrite D; cbn; unfold qsum; ring|]. apply at_ok in D. rewrite (nth_error_nth _ _ _ D). unfold qsum. ring.
    - destruct (p_cost (snd x)) as [|c cs]; [|discriminate]. injection A as <-. cbn. unfold qsum. ring. }
  apply K in O. rewrite O. ring.
Qed.
Print Assumptions C297_last_step.
(** Without time steps, or when no generator has a cost curve, the tables are read but the objective is not found. *)
Theorem C297_unbound : forall N w ofaux m ms ps, mapM (read_part N w) (m :: ms) = Ok ps -> n_conv N ++ n_hydro N ++ n_res N <> [] -> n_time N = 0 \/ pieces N = 0 -> report N w ofaux (m :: ms) = Err UnboundLocalError.
Proof.
  intros N w ofaux m ms ps E G H. unfold report. rewrite E. cbn [rbind]. assert (T : last_t N (m :: ms) = None). { unfold last_t. destruct H as [-> | ->]; cbn; [now rewrite andb_false_r|reflexivity]. } rewrite T.
  cbn [mapM] in E. destruct (read_part N w m) as [P|] eqn:R; [|discriminate]. cbn [rbind] in E. destruct (mapM (read_part N w) ms); [|discriminate]. injection E as <-. unfold objective. cbn [numbered List.length seq combine foldM fst snd].
  destruct m as (C, F). apply part_inv in R as (A & B). unfold gen_rows in B. apply mapM_nth in B as (L & _). rewrite seq_length in L. change (all_gens N <> []) in G. rewrite A. destruct (all_gens N) as [|g gs]; [congruence|]. destruct (p_gq P); [discriminate|]. reflexivity.
Qed.
Print Assumptions C297_unbound.
(** With two time steps the objective is less than the sum of the costs. *)
Theorem C297_refuted : exists N C ps o, convert N 0 = Ok C /\ n_time N = 2 /\ report N (fun _ => 1%Q) [1]%Q [(C, flat)] = Ok (ps, o) /\
  (o < qsum (map (fun P => qsum (map (fun c => c 0%nat + c 1%nat) (p_cost P))) ps))%Q.
Proof. exists (tiny [1; 2; 3]%Z [0; 20; 30]%Q [0; 4; 6]%Q [] [] 2). do 3 eexists. split; [vm_compute; reflexivity|]. split; [reflexivity|]. split; [reflexivity|]. vm_compute. reflexivity. Qed.
Print Assumptions C297_refuted.
Example C297_witness : let N := tiny [1; 2; 3]%Z [0; 20; 30]%Q [0; 4; 6]%Q [] [] 0 in exists C ps, convert N 0 = Ok C /\ mapM (read_part N (fun _ => 1%Q)) [(C, flat)] = Ok ps /\ n_conv N ++ n_hydro N ++ n_res N <> [] /\ n_time N = 0.
Proof. cbv zeta. do 2 eexists. split; [vm_compute; reflexivity|]. split; [reflexivity|]. split; [discriminate|reflexivity]. Qed.
