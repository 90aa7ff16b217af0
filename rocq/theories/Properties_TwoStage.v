(** C23, C25 - C28 on two-stage trees: a root and two or more leaves, interventions in service
    as soon as they are selected, OPF answers that depend only on the node and on what is in
    service.  There the search is exact. *)
From Coq Require Import List String Bool ZArith QArith Arith Lia Lqa Permutation.
From Verif Require Import Base Container ContainerSpec ContainerProofs Planner PlannerSpec PlannerRows PlannerProofs PlannerInv PlannerMain PlannerLeaf PlannerFacts PlannerTwoStage PlannerSolution PlannerSolutionProofs Properties_Planner Properties_PlannerFindings.
Import ListNotations.
Open Scope nat_scope.
Open Scope string_scope.
Open Scope list_scope.

Local Ltac sp := repeat match goal with |- _ /\ _ => split end.

(** The tree is a root with leaves [ls], at least two of them. *)
Definition two_stage (P : problem) (root : node) (ls : list node) : Prop :=
  successors P root ls /\ (forall m, In m ls -> is_leaf P m) /\ 2 <= List.length ls /\ NoDup ls /\
  NoDup (p_nodes P) /\ (forall n, In n (p_nodes P) <-> n = root \/ In n ls).

(** The OPF does not look at earlier runs. *)
Definition history_free (P : problem) : Prop := forall h h' n a, p_opf P h n a = p_opf P h' n a.

(** [assign] selects, at every node, interventions in the order of the pool, and every path is
    feasible. *)
Definition plan_choice (P : problem) (root : node) (ls : list node) (assign : node -> @items BV) : Prop :=
  (forall n, subseq (assign n) (p_pool P)) /\ Forall (fun m => feasible_on P assign [root; m]) ls.

Definition choice_total (P : problem) (root : node) (ls : list node) (assign : node -> @items BV) : Q :=
  sumQ (map (fun m => path_cost P assign [root; m]) ls).

Lemma subseq_filter_all {A} (f : A -> bool) a b : subseq a b -> (forall x, In x a -> f x = true) -> subseq a (filter f b).
Proof.
  induction 1 as [|x a b S IH|x a b S IH]; intros H; cbn [filter].
  - constructor.
  - destruct (f x); [constructor|]; auto.
  - rewrite (H x) by now left. apply sub_take. apply IH. intros y I. apply H. now right.
Qed.

Lemma subseq_filter_inv {A} (f : A -> bool) (a b : list A) : subseq a (filter f b) -> subseq a b /\ forall x, In x a -> f x = true.
Proof.
  intros S. split.
  - eapply subseq_trans; [apply subseq_filter|exact S].
  - intros x I. apply (subseq_incl _ _ S) in I. now apply filter_In in I.
Qed.

Lemma unused_iff (used : @items BV) it : unused used it = true <-> ~ In (fst it) (map fst used).
Proof.
  unfold unused. rewrite negb_true_iff. split.
  - intros H I. apply str_in_spec in I. congruence.
  - intros H. destruct (str_in (fst it) (map fst used)) eqn:E; auto. apply str_in_spec in E. contradiction.
Qed.

Section Bridge.
Variable P : problem.
Variable root : node.
Variable ls : list node.
Hypothesis pool_nodup : NoDup (map fst (p_pool P)).

Lemma choice_of_plan assign : ls <> [] -> plan_choice P root ls assign -> choice_ok P root ls (assign root) assign.
Proof.
  intros NE [S F]. rewrite Forall_forall in F. split; [apply S|]. split.
  - destruct ls as [|m l]; [congruence|]. destruct (F m ltac:(now left)) as (_ & _ & A). inversion A; subst. assumption.
  - intros m I. destruct (F m I) as (ND & _ & A). split.
    + apply subseq_filter_all; [apply S|]. intros x Ix. apply unused_iff. cbn [chosen map List.concat] in *. rewrite List.app_nil_r in *. rewrite map_app in ND. apply NoDup_app_parts in ND as (_ & _ & D). intros J. apply (D _ J). now apply in_map.
    + inversion A as [|? ? ? A']; subst. inversion A'; subst. assumption.
Qed.

Definition glue (c0 : @items BV) (g : node -> @items BV) : node -> @items BV :=
  fun n => if Nat.eqb n root then c0 else if existsb (Nat.eqb n) ls then g n else [].

Lemma glue_root c0 g : glue c0 g root = c0.
Proof. unfold glue. now rewrite Nat.eqb_refl. Qed.

Lemma glue_leaf c0 g m : ~ In root ls -> In m ls -> glue c0 g m = g m.
Proof.
  intros NR I. unfold glue. destruct (Nat.eqb_spec m root) as [->|_]; [contradiction|]. replace (existsb (Nat.eqb m) ls) with true; auto. symmetry. apply existsb_exists. exists m. split; auto. apply Nat.eqb_refl.
Qed.

Lemma plan_of_choice c0 g : ~ In root ls -> choice_ok P root ls c0 g -> plan_choice P root ls (glue c0 g).
Proof.
  intros NR (S0 & F0 & G). split.
  - intros n. unfold glue. destruct (Nat.eqb n root); auto. destruct (existsb (Nat.eqb n) ls) eqn:E; [|apply subseq_nil]. apply existsb_exists in E as (x & I & X). apply Nat.eqb_eq in X. subst x. destruct (G n I) as (S & _). now apply subseq_filter_inv in S.
  - apply Forall_forall. intros m I. destruct (G m I) as (S & Fm). apply subseq_filter_inv in S as (S & U). unfold feasible_on, answers, chosen. cbn [map List.length seq nth firstn]. rewrite glue_root, (glue_leaf c0 g m NR I). sp.
    + cbn [List.concat]. rewrite List.app_nil_r, map_app. apply NoDup_app_join.
      * eapply subseq_NoDup; [apply subseq_map; exact S0|exact pool_nodup].
      * eapply subseq_NoDup; [apply subseq_map; exact S|exact pool_nodup].
      * intros k J K. apply in_map_iff in K as (x & <- & K). apply U, unused_iff in K. apply K. cbn. now rewrite List.app_nil_r.
    + cbn [List.concat]. rewrite List.app_nil_r. intros x J. apply in_app_or in J as [J|J]; [now apply (subseq_incl _ _ S0)|now apply (subseq_incl _ _ S)].
    + constructor; [exact F0|]. constructor; [exact Fm|]. constructor.
Qed.

Lemma choice_cost_plan assign : choice_total P root ls assign = choice_cost P root ls (assign root) assign.
Proof. reflexivity. Qed.

Lemma choice_cost_glue c0 g : ~ In root ls -> choice_total P root ls (glue c0 g) = choice_cost P root ls c0 g.
Proof.
  intros NR. unfold choice_total, choice_cost. f_equal. apply map_ext_in. intros m I. unfold path_cost, answers, chosen. cbn [map List.length seq nth firstn]. rewrite glue_root, (glue_leaf c0 g m NR I). reflexivity.
Qed.
End Bridge.

Lemma path_of_inj {V} (a b : list V) : path_of a = path_of b -> a = b.
Proof. intros H. rewrite <- (path_of_map_snd a), <- (path_of_map_snd b). now rewrite H. Qed.

(** What the search leaves behind on such a tree. *)
Lemma two_stage_run P f root ls b s : well_formed P f root -> immediate P -> history_free P -> two_stage P root ls ->
  solve P f (start root) = Ok (b, s) ->
  (forall assign, plan_choice P root ls assign -> pl_paths (complete s) <> [] /\ (total_cost (complete s) <= choice_total P root ls assign)%Q) /\
  (pl_paths (complete s) <> [] -> exists assign C, complete s = plan_of (path_of C) /\ plan_choice P root ls assign /\
     (total_cost (complete s) == choice_total P root ls assign)%Q /\
     Forall2 (fun m r => r_path r = path_of [root; m] /\ r_int r = path_of [assign root; assign m] /\
        (r_inv r == discounted P (map stage_cost [assign root; assign m]))%Q /\
        (r_op r == discounted P (map (fun a => snd a * 365) (answers P assign [root; m])))%Q) ls C) /\
  (b = true <-> exists assign, assign root <> [] /\ plan_choice P root ls assign).
Proof.
  intros W IM HF (T1 & T2 & T3 & T4 & T5 & T6) E. pose proof W as (_ & _ & RT & ND & NA).
  assert (NR : ~ In root ls) by (eapply root_not_leaf; eauto). assert (NL : ls <> []) by (intros ->; cbn in T3; lia).
  destruct (two_stage_search P root ls ND RT NA IM HF T1 T2 T3 T4 T5 T6 f (start root)) as (b' & s' & E' & (_ & _ & C & EC & OC) & B & FB).
  { now apply pre_start. } { reflexivity. } { split; [reflexivity|split; [reflexivity|]]. exists []. split; [reflexivity|now left]. }
  rewrite E in E'. injection E' as <- <-. sp.
  - intros assign PC. rewrite choice_cost_plan. apply (B (assign root) assign). now apply choice_of_plan.
  - intros NE. destruct OC as [->|(c0 & q0 & S0 & O0 & F)]; [rewrite EC in NE; cbn in NE; congruence|].
    destruct (rows_choice P root ls T4 c0 q0 C S0 O0 F) as (g & G & TC & RW). exists (glue root ls c0 g), C. sp; auto.
    + now apply plan_of_choice.
    + rewrite (choice_cost_glue P root ls c0 g NR), <- TC, EC, total_cost_rows, path_of_map_snd. reflexivity.
    + rewrite glue_root. assert (X : forall ms C', incl ms ls -> Forall2 (fun m r => row_of_sel P root c0 q0 m (g m) (snd (opf P m [c0; g m])) r) ms C' ->
        Forall2 (fun m r => r_path r = path_of [root; m] /\ r_int r = path_of [c0; glue root ls c0 g m] /\ (r_inv r == discounted P (map stage_cost [c0; glue root ls c0 g m]))%Q /\
          (r_op r == discounted P (map (fun a => snd a * 365) (answers P (glue root ls c0 g) [root; m])))%Q) ms C').
      { intros ms C' SUB RW'. induction RW' as [|m r ms C' (R1 & R2 & R3 & R4) RW' IH]; constructor; [|apply IH; intros x I; apply SUB; now right].
        pose proof (glue_leaf root ls c0 g m NR (SUB m (or_introl eq_refl))) as GL. rewrite GL. sp; auto. rewrite R4. unfold answers, chosen. cbn [map List.length seq nth firstn]. rewrite glue_root, GL.
        change (p_opf P [] root (map snd (List.concat [c0]))) with (opf P root [c0]). rewrite O0. reflexivity. }
      apply X; auto. apply incl_refl.
  - rewrite FB. split.
    + intros (c & g & N & G). exists (glue root ls c g). rewrite glue_root. split; auto. now apply plan_of_choice.
    + intros (assign & N & PC). exists (assign root), assign. split; auto. now apply choice_of_plan.
Qed.

(** The search of [small]: two leaves, lines "0" and "1" at 1 and 100, each saving 1 per day. *)
Lemma small_two_stage : two_stage small 0 [1; 2].
Proof.
  unfold two_stage. sp.
  - reflexivity.
  - intros m [<-|[<-|[]]]; reflexivity.
  - cbn. lia.
  - repeat constructor; cbn; intuition discriminate.
  - repeat constructor; cbn; intuition discriminate.
  - intros n. cbn. intuition auto.
Qed.

Lemma small_history_free : history_free small.
Proof. intros h h' n a. reflexivity. Qed.

Definition both_at_root : node -> @items BV := fun n => match n with 0 => two_lines | _ => [] end.

Lemma both_choice : plan_choice small 0 [1; 2] both_at_root.
Proof.
  split.
  - intros [|n]; [apply subseq_refl|apply subseq_nil].
  - repeat apply Forall_cons; try apply Forall_nil; (split; [repeat constructor; cbn; intuition discriminate|split; [|repeat constructor]]); intros x I; cbn in I; cbn; tauto.
Qed.

(** C23, partial.  On a two-stage tree with immediate interventions and a history-free OPF,
    two reported plans that share a node have the same interventions up to it.  Missing: it is
    false of deeper trees (C23_reported_plans_anticipate_refuted). *)
Theorem C23_two_stage_not_anticipating_partial : forall P f root ls b s,
  well_formed P f root -> immediate P -> history_free P -> two_stage P root ls -> solve P f (start root) = Ok (b, s) ->
  forall k k' ns ns' sel sel' j n,
    In (k, path_of ns) (pl_paths (complete s)) -> In (k, path_of sel) (pl_int (complete s)) ->
    In (k', path_of ns') (pl_paths (complete s)) -> In (k', path_of sel') (pl_int (complete s)) ->
    nth_error ns j = Some n -> nth_error ns' j = Some n -> firstn (S j) sel = firstn (S j) sel'.
Proof.
  intros P f root ls b s W IM HF TS E k k' ns ns' sel sel' j n I1 I2 I3 I4 N1 N2.
  destruct (two_stage_run P f root ls b s W IM HF TS E) as (_ & H & _).
  destruct H as (assign & C & EC & _ & _ & F); [intros Z; rewrite Z in I1; destruct I1|].
  assert (X : forall k ns sel, In (k, path_of ns) (pl_paths (complete s)) -> In (k, path_of sel) (pl_int (complete s)) -> exists m, ns = [root; m] /\ sel = [assign root; assign m]).
  { clear - EC F. intros k ns sel I1 I2. rewrite EC in I1, I2. cbn [plan_of pl_paths pl_int] in I1, I2.
    apply in_map_iff in I1 as ([k1 r1] & E1 & J1). apply in_map_iff in I2 as ([k2 r2] & E2 & J2). cbn [fst snd] in *. injection E1 as -> P1. injection E2 as -> P2.
    assert (r1 = r2) as ->. { apply path_of_In in J1 as (i1 & K1 & M1). apply path_of_In in J2 as (i2 & K2 & M2). assert (i1 = i2) as -> by (apply str_nat_inj; congruence). congruence. }
    apply path_of_In in J2 as (i & _ & M). clear J1.
    assert (Y : exists m, In m ls /\ r_path r2 = path_of [root; m] /\ r_int r2 = path_of [assign root; assign m]).
    { clear - F M. revert i M. induction F as [|m r ms C' (R1 & R2 & _) F IH]; intros [|i] M; cbn in M; try discriminate; [injection M as <-; exists m; sp; auto; now left|]. destruct (IH i M) as (m' & J & Y). exists m'. split; auto. now right. }
    destruct Y as (m & _ & Y1 & Y2). exists m. split; apply (path_of_inj); congruence. }
  destruct (X _ _ _ I1 I2) as (m & -> & ->). destruct (X _ _ _ I3 I4) as (m' & -> & ->).
  destruct j as [|[|j]]; cbn in N1, N2; try reflexivity; [|destruct j; discriminate]. cbn. congruence.
Qed.
Print Assumptions C23_two_stage_not_anticipating_partial.

Example C23_two_stage_witness : well_formed small 2 0 /\ immediate small /\ history_free small /\ two_stage small 0 [1; 2] /\
  match solve small 2 (start 0) with
  | Ok (_, s) => pl_paths (complete s) = [("0", path_of [0; 1]); ("1", path_of [0; 2])] /\ pl_int (complete s) = [("0", path_of [two_lines; []]); ("1", path_of [two_lines; []])]
  | Err _ => False end.
Proof. split; [exact small_well_formed|]. split; [exact small_immediate|]. split; [exact small_history_free|]. split; [exact small_two_stage|]. vm_compute. auto. Qed.

(** C25, partial.  On such a tree, whenever some choice of interventions is feasible the
    reported tree is a feasible choice and none is cheaper.  Missing: it is false of deeper
    trees (C25_reported_tree_not_optimal_refuted). *)
Theorem C25_two_stage_optimal_partial : forall P f root ls b s,
  well_formed P f root -> immediate P -> history_free P -> two_stage P root ls -> solve P f (start root) = Ok (b, s) ->
  (forall assign, plan_choice P root ls assign -> (total_cost (complete s) <= choice_total P root ls assign)%Q) /\
  ((exists assign, plan_choice P root ls assign) -> exists best, plan_choice P root ls best /\
     (total_cost (complete s) == choice_total P root ls best)%Q /\
     map snd (pl_paths (complete s)) = map (fun m => path_of [root; m]) ls /\
     map snd (pl_int (complete s)) = map (fun m => path_of [best root; best m]) ls).
Proof.
  intros P f root ls b s W IM HF TS E. destruct (two_stage_run P f root ls b s W IM HF TS E) as (B & H & _). split; [intros a PC; now apply B|].
  intros (a & PC). destruct (B a PC) as (NE & _). destruct (H NE) as (best & C & EC & PB & TB & F). exists best. sp; auto.
  - rewrite EC. cbn [plan_of pl_paths]. rewrite map_map. cbn [snd]. rewrite <- (map_map snd r_path), path_of_map_snd. clear - F. induction F as [|m r ms C' (R1 & _) F IH]; cbn [map]; [reflexivity|now rewrite R1, IH].
  - rewrite EC. cbn [plan_of pl_int]. rewrite map_map. cbn [snd]. rewrite <- (map_map snd r_int), path_of_map_snd. clear - F. induction F as [|m r ms C' (_ & R1 & _) F IH]; cbn [map]; [reflexivity|now rewrite R1, IH].
Qed.
Print Assumptions C25_two_stage_optimal_partial.

Example C25_two_stage_witness : two_stage small 0 [1; 2] /\ plan_choice small 0 [1; 2] both_at_root /\
  match solve small 2 (start 0) with
  | Ok (_, s) => Qeq (total_cost (complete s)) (choice_total small 0 [1; 2] both_at_root) /\ Qlt (choice_total small 0 [1; 2] both_at_root) (choice_total small 0 [1; 2] (fun _ => []))
  | Err _ => False end.
Proof. split; [exact small_two_stage|]. split; [exact both_choice|]. vm_compute. auto. Qed.

(** C26, partial.  On such a tree a complete tree is reported exactly when some choice is
    feasible; in particular when every node can be operated without interventions.  Missing:
    it is false of deeper trees (C26_feasible_but_no_plan_refuted). *)
Theorem C26_two_stage_feasible_yields_plan_partial : forall P f root ls b s,
  well_formed P f root -> immediate P -> history_free P -> two_stage P root ls -> solve P f (start root) = Ok (b, s) ->
  (pl_paths (complete s) <> [] <-> exists assign, plan_choice P root ls assign) /\
  ((forall n, n = root \/ In n ls -> fst (p_opf P [] n []) = true) -> pl_paths (complete s) <> []).
Proof.
  intros P f root ls b s W IM HF TS E. destruct (two_stage_run P f root ls b s W IM HF TS E) as (B & H & _). sp.
  - split.
    + intros NE. destruct (H NE) as (a & C & _ & PC & _). now exists a.
    + intros (a & PC). now apply (B a).
  - intros FE. apply (B (fun _ => [])). split; [intros n; apply subseq_nil|]. apply Forall_forall. intros m I. split; [constructor|]. split; [intros x []|]. cbn. repeat constructor; cbn; auto.
Qed.
Print Assumptions C26_two_stage_feasible_yields_plan_partial.

(** Leaf 2 can only be operated with a line in service: choices exist, all of them building. *)
Definition needs_line : list opf_call -> node -> list BV -> bool * Q := fun _ n act => (negb (Nat.eqb n 2 && Nat.eqb (List.length act) 0), 5%Q).
Definition tight := problem_on fork [2020; 2030]%Z two_lines needs_line.
Lemma tight_well_formed : well_formed tight 2 0.
Proof. wf. Qed.
Lemma tight_immediate : immediate tight.
Proof. exact small_immediate. Qed.
Lemma tight_two_stage : two_stage tight 0 [1; 2].
Proof. exact small_two_stage. Qed.
Lemma tight_choice : plan_choice tight 0 [1; 2] both_at_root /\ ~ plan_choice tight 0 [1; 2] (fun _ => []).
Proof.
  split.
  - split; [intros [|n]; [apply subseq_refl|apply subseq_nil]|]. repeat apply Forall_cons; try apply Forall_nil; (split; [repeat constructor; cbn; intuition discriminate|split; [|repeat constructor]]); intros x I; cbn in I; cbn; tauto.
  - intros [_ F]. inversion F as [|? ? _ F2]; subst. inversion F2 as [|? ? (_ & _ & A) _]; subst. cbn in A. inversion A as [|? ? _ A2]; subst. inversion A2 as [|? ? X _]; subst. discriminate X.
Qed.

Example C26_two_stage_witness : well_formed tight 2 0 /\ immediate tight /\ history_free tight /\ two_stage tight 0 [1; 2] /\
  plan_choice tight 0 [1; 2] both_at_root /\
  match solve tight 2 (start 0) with
  | Ok (_, s) => pl_int (complete s) = [("0", path_of [[]; []]); ("1", path_of [[]; [("0", line 1 0)]])]
  | Err _ => False end.
Proof. split; [exact tight_well_formed|]. split; [exact tight_immediate|]. split; [intros h h' n a; reflexivity|]. split; [exact tight_two_stage|]. split; [apply tight_choice|]. vm_compute. reflexivity. Qed.

(** C27, partial.  On such a tree the root's answer is True exactly when some feasible choice
    builds something at the root.  Missing: a feasible choice that builds nothing there is not
    enough (C27_false_although_feasible_refuted). *)
Theorem C27_two_stage_answer_partial : forall P f root ls b s,
  well_formed P f root -> immediate P -> history_free P -> two_stage P root ls -> solve P f (start root) = Ok (b, s) ->
  (b = true <-> exists assign, assign root <> [] /\ plan_choice P root ls assign).
Proof. intros P f root ls b s W IM HF TS E. now destruct (two_stage_run P f root ls b s W IM HF TS E) as (_ & _ & H). Qed.
Print Assumptions C27_two_stage_answer_partial.

Example C27_two_stage_witness : two_stage tight 0 [1; 2] /\ both_at_root 0 <> [] /\ plan_choice tight 0 [1; 2] both_at_root /\
  match solve tight 2 (start 0) with Ok (b, _) => b = true | Err _ => False end.
Proof. split; [exact tight_two_stage|]. split; [discriminate|]. split; [apply tight_choice|]. vm_compute. reflexivity. Qed.

(** Scenarios of a node, none when unknown. *)
Definition scenarios_at (scen : node -> option (list nat)) (n : node) : list nat := match scen n with Some l => l | None => [] end.

(** C28, partial.  The program's tables for such a tree: a cheapest feasible choice, with one
    investment and one operation cost per scenario, those of the way to the scenario's leaf,
    and the lines it builds in the scenarios and years of the nodes that build them.  Missing:
    deeper trees, where distinct plan numbers are not proved. *)
Theorem C28_two_stage_tables_partial : forall P f ls scen yr,
  well_formed P f 0 -> immediate P -> history_free P -> two_stage P 0 ls ->
  (forall n, n = 0 \/ In n ls -> scen n <> None /\ yr n <> None) -> NoDup (flat_map (scenarios_at scen) ls) ->
  (exists assign, plan_choice P 0 ls assign) ->
  exists best L I O, main_access P scen yr f = Ok (Some (L, I, O)) /\ plan_choice P 0 ls best /\
  (forall assign, plan_choice P 0 ls assign -> Qle (choice_total P 0 ls best) (choice_total P 0 ls assign)) /\
  NoDup (map fst I) /\ NoDup (map fst O) /\
  (forall s, In s (map fst I) <-> exists m, In m ls /\ In s (scenarios_at scen m)) /\
  (forall s, In s (map fst O) <-> exists m, In m ls /\ In s (scenarios_at scen m)) /\
  (forall m s, In m ls -> In s (scenarios_at scen m) -> exists i o, In (s, Some i) I /\ In (s, Some o) O /\
     Qeq (i) (discounted P (map stage_cost (chosen best [0; m]))) /\
     Qeq (o) (discounted P (map (fun a => snd a * 365)%Q (answers P best [0; m])))) /\
  (forall s y pos, In (mkLine s y pos) L <-> exists n kb b, (n = 0 \/ In n ls) /\ In (kb, b) (best n) /\
     bv_type b = "line" /\ bv_pos b = pos /\ In s (scenarios_at scen n) /\ yr n = Some y).
Proof.
  intros P f ls scen yr W IM HF TS KN ND (a0 & PC0). pose proof W as (_ & _ & _ & _ & NA).
  destruct (run_ok P f 0 W) as (b & s & E & _).
  destruct (two_stage_run P f 0 ls b s W IM HF TS E) as (B & H & _). destruct (B a0 PC0) as (NE & _). destruct (H NE) as (best & C & EC & PB & TB & F).
  assert (ROW : forall r, In r C -> exists m, In m ls /\ r_path r = path_of [0; m] /\ r_int r = path_of [best 0; best m] /\
     Qeq (r_inv r) (discounted P (map stage_cost (chosen best [0; m]))) /\ Qeq (r_op r) (discounted P (map (fun a => snd a * 365)%Q (answers P best [0; m])))).
  { clear - F. induction F as [|m r ms C' R F IH]; intros x []; [subst x; exists m; split; [now left|exact R]|]. destruct (IH x H) as (m' & I & X). exists m'. split; auto. now right. }
  assert (LEAF : forall m, In m ls -> exists r, In r C /\ r_path r = path_of [0; m] /\ r_int r = path_of [best 0; best m] /\
     Qeq (r_inv r) (discounted P (map stage_cost (chosen best [0; m]))) /\ Qeq (r_op r) (discounted P (map (fun a => snd a * 365)%Q (answers P best [0; m])))).
  { clear - F. induction F as [|m r ms C' R F IH]; intros x []; [subst x; exists r; split; [now left|exact R]|]. destruct (IH x H) as (m' & I & X). exists m'. split; auto. now right. }
  assert (LS : forall r m, r_path r = path_of [0; m] -> leaf_scenarios scen r = scenarios_at scen m). { intros r m Er. unfold leaf_scenarios. rewrite Er. reflexivity. }
  assert (RP : reportable scen yr (path_of C)).
  { split; [apply path_of_keys_NoDup|]. intros k r J. apply (in_map snd) in J. rewrite path_of_map_snd in J. cbn [snd] in J. destruct (ROW r J) as (m & Im & Ep & Ei & _). rewrite Ep, Ei. split.
    - exists m. split; [reflexivity|]. apply KN. now right.
    - intros lev n K. cbn in K. destruct K as [K|[K|[]]]; injection K as <- <-; (split; [discriminate|apply KN; auto]). }
  assert (NDS : NoDup (flat_map (fun x => leaf_scenarios scen (snd x)) (path_of C))).
  { replace (flat_map (fun x => leaf_scenarios scen (snd x)) (path_of C)) with (flat_map (leaf_scenarios scen) (map snd (path_of C))) by (clear; induction (path_of C); cbn; congruence). rewrite path_of_map_snd.
    replace (flat_map (leaf_scenarios scen) C) with (flat_map (scenarios_at scen) ls); auto. clear - F LS. induction F as [|m r ms C' (R & _) F IH]; cbn [flat_map]; auto. rewrite IH. f_equal. symmetry. now apply LS. }
  destruct (C28_one_cost_per_scenario_partial scen yr (path_of C) RP NDS) as (L & I & O & EG & N1 & N2 & T1 & T2 & _ & _ & TL).
  exists best, L, I, O.
  assert (INC : forall k r, In (k, r) (path_of C) -> In r C). { intros k r J. apply (in_map snd) in J. rewrite path_of_map_snd in J. exact J. }
  assert (CIN : forall r, In r C -> exists k, In (k, r) (path_of C)). { intros r J. rewrite <- (path_of_map_snd C) in J. apply in_map_iff in J as ([k x] & <- & J). now exists k. }
  assert (KEYS : forall (T : list cost_row) (g : row -> Q), (forall s c, In (s, c) T <-> exists k r, In (k, r) (path_of C) /\ In s (leaf_scenarios scen r) /\ c = Some (g r)) ->
     forall s, In s (map fst T) <-> exists m, In m ls /\ In s (scenarios_at scen m)).
  { intros T g HT s'. split.
    - intros J. apply in_map_iff in J as ([s1 c] & <- & J). apply HT in J as (k & r & J & K & _). destruct (ROW r (INC _ _ J)) as (m & Im & Ep & _). exists m. split; auto. rewrite <- (LS r m Ep). exact K.
    - intros (m & Im & K). destruct (LEAF m Im) as (r & Ir & Ep & _). destruct (CIN r Ir) as (k & J). apply in_map_iff. exists (s', Some (g r)). split; auto. apply HT. exists k, r. rewrite (LS r m Ep). auto. }
  sp; auto.
  - unfold main_access. rewrite NA. change initial_info with (start 0). rewrite E, EC, EG. reflexivity.
  - intros a PC. rewrite <- TB. now apply B.
  - eapply KEYS. exact T1.
  - eapply KEYS. exact T2.
  - intros m s' Im K. destruct (LEAF m Im) as (r & Ir & Ep & _ & Vi & Vo). destruct (CIN r Ir) as (k & J). exists (r_inv r), (r_op r). sp; auto.
    + apply T1. exists k, r. rewrite (LS r m Ep). auto.
    + apply T2. exists k, r. rewrite (LS r m Ep). auto.
  - intros s' y pos. rewrite TL. split.
    + intros (k & r & lev & n & st & kb & v & sc & J & K & G & IV & TY & PO & SC & IS & YR). destruct (ROW r (INC _ _ J)) as (m & Im & Ep & Ei & _). rewrite Ep in K. rewrite Ei in G. cbn in K.
      exists n, kb, v. destruct K as [K|[K|[]]]; injection K as <- <-; cbn in G; injection G as <-; sp; auto; unfold scenarios_at; now rewrite SC.
    + intros (n & kb & v & Nn & IV & TY & PO & IS & YR). assert (Im : exists m, In m ls /\ (n = 0 \/ n = m)).
      { destruct Nn as [->|Nn]; [|now exists n; auto]. destruct TS as (_ & _ & T3 & _). destruct ls as [|m l]; [cbn in T3; lia|]. exists m. split; [now left|auto]. }
      destruct Im as (m & Im & Nm). destruct (LEAF m Im) as (r & Ir & Ep & Ei & _). destruct (CIN r Ir) as (k & J). unfold scenarios_at in IS. destruct (scen n) as [sc|] eqn:SC; [|destruct IS].
      exists k, r. destruct Nm as [->|Nm]; [exists "0", 0, (best 0)|exists "1", n, (best n)]; exists kb, v, sc; rewrite Ep, Ei; sp; auto; subst; cbn; auto.
Qed.
Print Assumptions C28_two_stage_tables_partial.

Example C28_two_stage_witness :
  let scen n := match n with 0 => Some [0; 1; 2] | 1 => Some [2; 0] | 2 => Some [1] | _ => None end in
  let yr n := match n with 0 => Some 2020%Z | _ => Some 2030%Z end in
  (forall n, n = 0 \/ In n [1; 2] -> scen n <> None /\ yr n <> None) /\ NoDup (flat_map (scenarios_at scen) [1; 2]) /\
  plan_choice tight 0 [1; 2] both_at_root /\
  match main_access tight scen yr 2 with
  | Ok (Some (ln, inv, op)) => ln = [mkLine 1 2030 (One 1)] /\ map fst inv = [0; 1; 2] /\ map fst op = [0; 1; 2]
  | _ => False end.
Proof.
  cbn zeta. split; [intros n [->|[<-|[<-|[]]]]; split; discriminate|]. split; [cbn; repeat constructor; cbn; intuition discriminate|]. split; [apply tight_choice|]. vm_compute. auto.
Qed.
