(** Leaves: the plan stored for a leaf is the cheapest of the selections tried there. *)
From Coq Require Import List String Bool ZArith QArith Qminmax Arith Lia Permutation.
From Verif Require Import Base Container ContainerSpec ContainerProofs Planner PlannerSpec PlannerRows PlannerProofs PlannerInv PlannerMain.
Import ListNotations.
Open Scope nat_scope.
Open Scope list_scope.

Local Ltac sp := repeat match goal with |- _ /\ _ => split end.

Lemma ok_both {A} (m : M A) s (Q1 Q2 : A -> info -> Prop) : ok m s Q1 -> ok m s Q2 -> ok m s (fun a s' => Q1 a s' /\ Q2 a s').
Proof.
  intros (a & s' & E & H) (a2 & s2 & E2 & H2). rewrite E in E2. injection E2 as <- <-. exists a, s'. auto.
Qed.

Section Leaf.
Variable P : problem.
Variable root : node.
Hypothesis pool_nodup : NoDup (map fst (p_pool P)).
Hypothesis rate_ok : ~ (1 - p_rate P / 100 == 0)%Q.
Hypothesis nonant : p_nonant P = true.
Hypothesis imm : immediate P.

(** Total discounted cost of a list of stages. *)
Definition plan_cost (sl : list (@items BV)) (cs : list Q) : Q :=
  (discounted P (map stage_cost sl) + discounted P cs)%Q.

Definition row_total (r : row) : Q := (r_inv r + r_op r)%Q.

(** The incumbent is empty, or holds one plan, for path [ns], costing at most [q]. *)
Definition single (i : plan) (ns : list node) (bound : option Q) : Prop :=
  match bound with
  | None => i = empty_plan
  | Some q => exists r, i = plan_of [("0"%string, r)] /\ r_path r = path_of ns /\ (row_total r <= q)%Q
  end.

Lemma path_in_self ns : path_in (path_of ns) (path_of ns) = true.
Proof.
  unfold path_in. apply path_contains_prefix; [apply Nat.eqb_eq|]. exists []. now rewrite List.app_nil_r.
Qed.

Lemma candidate_costs s L : cand_ready P root s L -> exists iv o,
  already_built (cand_of L) = Ok (path_of (sels L)) /\
  investment_cost P (path_of (sels L)) = Ok iv /\ operation_cost P (path_of (costs L)) = Ok o /\
  (iv + o == plan_cost (sels L) (costs L))%Q.
Proof.
  intros [E G Lf T Ly].
  destruct (investment_cost_ok P rate_ok (sels L)) as (iv & Ei & Vi). { unfold sels. now rewrite map_length. }
  destruct (operation_cost_ok P rate_ok (costs L)) as (o & Eo & Vo). { now rewrite costs_len. }
  exists iv, o. sp; auto.
  - rewrite already_built_spec by apply (gc_nodup _ _ _ _ G). rewrite (built_now P L); auto. apply (gc_pool _ _ _ _ G).
  - rewrite Vi, Vo. reflexivity.
Qed.

Lemma append_single s L : cand_ready P root s L -> inc s = empty_plan ->
  ok (append_candidate P "0") s (fun _ s' => single (inc s') (nodes L) (Some (plan_cost (sels L) (costs L)))).
Proof.
  intros CR E0. destruct (candidate_costs _ _ CR) as (iv & o & Eb & Ei & Eo & V).
  unfold append_candidate. apply ok_get_bind. rewrite (cr_cnd _ _ _ _ CR).
  eapply ok_lift_bind; [exact Eb|]. eapply ok_lift_bind; [exact Ei|]. eapply ok_lift_bind; [exact Eo|].
  apply ok_modify. simpl. rewrite E0. simpl.
  exists (mkRow (path_of (nodes L)) (path_of (sels L)) iv o). sp; auto. unfold row_total. simpl. rewrite V. apply Qle_refl.
Qed.

Lemma optimality_single s l st b : cand_ready P root s (l ++ [st]) -> Inv P root s -> level s = Z.of_nat (List.length l) ->
  single (inc s) (nodes (l ++ [st])) b ->
  ok (optimality_check P) s (fun _ s' => single (inc s') (nodes (l ++ [st]))
     (Some (match b with None => plan_cost (sels (l ++ [st])) (costs (l ++ [st]))
            | Some q => Qmin q (plan_cost (sels (l ++ [st])) (costs (l ++ [st]))) end))).
Proof.
  set (L := l ++ [st]). intros CR IV Lv SG.
  unfold optimality_check. apply ok_get_bind. apply ok_bind.
  pose proof (cr_cnd _ _ _ _ CR) as EC0. fold L in EC0.
  assert (RET : forall s1 Q0, single (inc s1) (nodes L) (Some Q0) -> cnd s1 = cand_of L -> level s1 = level s ->
     ok (return_to_previous_state P) s1 (fun _ s' => single (inc s') (nodes L) (Some Q0))).
  { intros s1 Q0 S1 C1 L1. do 2 eexists. split.
    - apply (return_spec P nonant s1 l st); [exact C1|congruence].
    - exact S1. }
  destruct b as [q|].
  - destruct SG as (r & Er & Ep & Le). rewrite Er. simpl Nat.eqb. cbv iota.
    apply (ok_conseq _ _ (fun _ s' => single (inc s') (nodes L) (Some (Qmin q (plan_cost (sels L) (costs L)))) /\
       cnd s' = cand_of L /\ level s' = level s /\ True)).
    2:{ intros _ s1 (A & B & C & _). apply RET; auto. }
    unfold optimality_check_nonempty. apply ok_get_bind. rewrite EC0.
    assert (FS : find_stored_path (pl_paths (inc s)) (c_path (cand_of L)) = Some "0"%string).
    { rewrite Er. unfold find_stored_path. simpl. rewrite Ep, path_in_self. reflexivity. }
    rewrite FS. apply ok_bind.
    destruct (candidate_costs _ _ CR) as (iv & o & Eb & Ei & Eo & V).
    apply (ok_conseq _ _ (fun _ s' => single (inc s') (nodes L) (Some (Qmin q (plan_cost (sels L) (costs L)))) /\
       cnd s' = cand_of L /\ level s' = level s /\ complete s' = complete s)).
    { unfold replace_if_better. apply ok_get_bind. rewrite EC0.
      eapply ok_lift_bind; [exact Eb|]. eapply ok_lift_bind; [exact Ei|]. eapply ok_lift_bind; [exact Eo|].
      eapply ok_lift_bind; [rewrite Er; reflexivity|]. eapply ok_lift_bind; [rewrite Er; reflexivity|].
      match goal with |- ok (if ?b then _ else _) _ _ => destruct b eqn:B end; simpl in B.
      - unfold replace_solution. apply ok_get_bind. rewrite EC0. 
        eapply ok_lift_bind; [exact Eb|]. eapply ok_lift_bind; [exact Ei|]. eapply ok_lift_bind; [exact Eo|].
        apply ok_modify. simpl. rewrite Er. simpl. sp; auto.
        exists (mkRow (path_of (nodes L)) (path_of (sels L)) iv o). sp; auto. unfold row_total. simpl.
        apply Qgt_bool_le in B. apply Q.min_glb; rewrite ?V.
        + eapply Qle_trans; [|exact Le]. unfold row_total. now rewrite V in B.
        + apply Qle_refl.
      - apply ok_ret. sp; auto. exists r. sp; auto.
        unfold Qgt_bool in B. apply negb_false_iff in B. apply Qle_bool_iff in B.
        apply Q.min_glb; auto. unfold row_total. now rewrite V in B. }
    intros _ s1 (S1 & C1 & L1 & CE). apply ok_get_bind.
    destruct (Nat.eqb _ _); [|apply ok_ret; auto].
    + apply ok_modify_bind. unfold replacement_for_whole_tree. apply ok_get_bind.
      destruct IV as (R & C & Pt & ER & EC & _).
      eapply ok_lift_bind; [simpl; rewrite CE, EC; apply plan_is_empty_plan_of|].
      repeat match goal with |- ok (if ?b then _ else _) _ _ => destruct b end;
        (apply ok_modify || apply ok_ret); simpl; auto.
  - simpl in SG. rewrite SG. simpl. eapply ok_conseq.
    + apply ok_both; [apply (append_single s L CR SG)|apply (append_ok P root rate_ok "0" s L CR IV)].
    + intros _ s1 (S1 & (_ & (K1 & _ & _ & K4) & _) & _). apply RET; auto. congruence.
Qed.

(** Facts about the OPF runs made at a leaf since state [s0]. *)
Definition leaf_state (s0 : info) (l : list stage) (tried : list (@items BV)) (s : info) : Prop :=
  exists calls b, log s = log s0 ++ calls /\ map oc_selected calls = map (fun c => sels l ++ [c]) tried /\
  Forall (fun c => oc_node c = cur s0) calls /\
  single (inc s) (nodes l ++ [cur s0]) b /\
  (forall pre c post q, calls = pre ++ c :: post -> p_opf P (log s0 ++ pre) (cur s0) (oc_active c) = (true, q) ->
     exists bq, b = Some bq /\ (bq <= plan_cost (oc_selected c) (costs l ++ [q * 365]))%Q) /\
  (b <> None -> exists pre c post, calls = pre ++ c :: post /\ fst (p_opf P (log s0 ++ pre) (cur s0) (oc_active c)) = true).

Lemma leaf_step s0 s l tried c : is_leaf P (cur s) -> pre P root 1 (List.length l) s l -> new s = new_of c -> addable P l c ->
  cur s = cur s0 -> leaf_state s0 l tried s ->
  ok (let! feasible := check_feasibility P in
      (if feasible then construction_of_solution ;; optimality_check P else ret tt) ;; ret feasible) s
     (fun _ s' => leaf_state s0 l (tried ++ [c]) s').
Proof.
  intros LF PR N AD CU (calls & b & EL & ES & EN & SG & BD & EX).
  pose proof PR as [PD PY PC PL PP PG PT PCu PI].
  pose proof (deep_node _ _ _ PD) as Dn.
  assert (log_ok P (mkCall (cur s) (active_of l c) (sels l ++ [c]))) as LO.
  { eapply log_ok_call; eauto. lia. }
  pose proof (Inv_log P root s _ (p_opf P (log s) (cur s) (active_of l c)) PI LO) as IV1.
  set (call := mkCall (cur s) (active_of l c) (sels l ++ [c])) in *.
  assert (SPLIT : forall (Q : list opf_call -> opf_call -> Prop),
     (forall pre c0 post, calls = pre ++ c0 :: post -> Q pre c0) -> Q calls call ->
     forall pre c0 post, calls ++ [call] = pre ++ c0 :: post -> Q pre c0).
  { intros Q H1 H2 pre c0 post E. destruct post as [|x post] using rev_ind.
    - apply app_inj_tail in E as [-> ->]. exact H2.
    - clear IHpost. rewrite app_comm_cons, app_assoc in E. apply app_inj_tail in E as [-> _]. eapply H1. reflexivity. }
  assert (CS : map oc_selected (calls ++ [call]) = map (fun c => sels l ++ [c]) (tried ++ [c])).
  { rewrite !map_app, ES. reflexivity. }
  assert (CN : Forall (fun c => oc_node c = cur s0) (calls ++ [call])).
  { apply Forall_app. split; auto. }
  assert (LG : log (after_check P s l c) = log s0 ++ (calls ++ [call])).
  { simpl. rewrite EL, <- app_assoc. reflexivity. }
  apply ok_bind. do 2 eexists. split; [apply (check_feasibility_spec P s l c); auto; apply (gc_nodup _ _ _ _ PG)|].
  destruct (p_opf P (log s) (cur s) (active_of l c)) as [fb q] eqn:OP. simpl fst. destruct fb.
  - apply ok_bind. apply ok_bind. do 2 eexists. split.
    { apply (construction_spec _ l c q); auto. }
    set (st := mkStage (cur (after_check P s l c)) (vmap with_time c) q).
    set (s1 := set_cnd (cand_of (l ++ [st])) (after_check P s l c)).
    assert (Est : l ++ [st] = extend P s l c). { unfold extend. rewrite OP. reflexivity. }
    assert (CR : cand_ready P root s1 (l ++ [st])).
    { split; auto.
      + rewrite Est. apply extend_good; auto. now rewrite OP.
      + exists (cur s). split; auto. unfold nodes. rewrite map_app, rev_app_distr. reflexivity.
      + rewrite app_length. simpl. replace (List.length l + 1 - 1) with (List.length l) by lia. rewrite Est. now apply extend_times.
      + rewrite app_length. simpl. lia. }
    assert (IV2 : Inv P root s1).
    { eapply Inv_ext; [..|exact IV1]; reflexivity. }
    assert (En : nodes (l ++ [st]) = nodes l ++ [cur s0]). { unfold nodes. rewrite map_app. simpl. now rewrite CU. }
    assert (Es : sels (l ++ [st]) = sels l ++ [c]).
    { unfold sels. rewrite map_app. simpl. unfold st_ints at 2. simpl. now rewrite vmap_fst_with_time. }
    assert (Ec : costs (l ++ [st]) = costs l ++ [(q * 365)%Q]). { unfold costs. rewrite map_app. reflexivity. }
    eapply ok_conseq.
    { apply ok_both; [apply (optimality_ok P root rate_ok nonant s1 l st CR IV2 PL)|].
      apply (optimality_single s1 l st b CR IV2 PL). rewrite En. exact SG. }
    intros _ s2 ((_ & _ & _ & _ & B5 & _) & S2). apply ok_ret.
    rewrite En, Es, Ec in S2.
    match type of S2 with single _ _ (Some ?x) => set (bb := x) in S2 end.
    exists (calls ++ [call]), (Some bb). sp; auto; [rewrite B5; exact LG| |].
    + intros pre c1 post q1 E. revert q1. refine (SPLIT (fun pre c0 => forall q0, p_opf P (log s0 ++ pre) (cur s0) (oc_active c0) = (true, q0) ->
        exists bq, Some bb = Some bq /\ (bq <= plan_cost (oc_selected c0) (costs l ++ [q0 * 365]))%Q) _ _ pre c1 post E); clear pre c1 post E.
      * intros pre c0 post E q0 O. destruct (BD pre c0 post q0 E O) as (bq & Eb & Le). exists bb. split; [reflexivity|]. unfold bb. rewrite Eb.
        eapply Qle_trans; [apply Q.le_min_l|exact Le].
      * intros q0 O. rewrite <- EL, <- CU in O. simpl oc_active in O. rewrite OP in O. injection O as <-.
        exists bb. split; [reflexivity|]. simpl oc_selected. unfold bb. destruct b; [apply Q.le_min_r|apply Qle_refl].
    + intros _. exists calls, call, []. split; auto. rewrite <- EL, <- CU. simpl oc_active. now rewrite OP.
  - apply ok_bind. apply ok_ret. apply ok_ret. exists (calls ++ [call]), b. sp; auto.
    + intros pre c1 post q1 E. revert q1. refine (SPLIT (fun pre c0 => forall q0, p_opf P (log s0 ++ pre) (cur s0) (oc_active c0) = (true, q0) ->
        exists bq, b = Some bq /\ (bq <= plan_cost (oc_selected c0) (costs l ++ [q0 * 365]))%Q) _ _ pre c1 post E); clear pre c1 post E.
      * intros pre c0 post E q0 O. eapply BD; eauto.
      * intros q0 O. rewrite <- EL, <- CU in O. simpl oc_active in O. rewrite OP in O. discriminate.
    + intros H. destruct (EX H) as (pre & c0 & post & -> & F). exists pre, c0, (post ++ [call]).
      split; auto. now rewrite <- app_assoc.
Qed.

Lemma leaf_state_ext s0 l tried s s' : inc s' = inc s -> log s' = log s -> leaf_state s0 l tried s -> leaf_state s0 l tried s'.
Proof. unfold leaf_state. now intros -> ->. Qed.

(** One iteration keeps the frame and the record of what has been tried. *)
Lemma leaf_loop s0 l av : is_leaf P (cur s0) -> subseq av (filter (unused (List.concat (sels l))) (p_pool P)) ->
  forall combs tried b s, (forall c, In c combs -> subseq c av) ->
  pre P root 1 (List.length l) s l -> cur s = cur s0 -> new s = no_new -> leaf_state s0 l tried s ->
  ok (for_acc combs b (fun found comb =>
    add_new_interventions comb ;;
    let! feasible := check_feasibility P in
    (if feasible then construction_of_solution ;; optimality_check P else ret tt) ;;
    modify (set_new no_new) ;;
    ret (if feasible then true else found))) s
    (fun _ s' => leaf_state s0 l (tried ++ combs) s').
Proof.
  intros LF SA. induction combs as [|c combs IH]; intros tried b s SC PR CU N LS; simpl.
  - apply ok_ret. now rewrite List.app_nil_r.
  - apply ok_bind. apply ok_bind. do 2 eexists. split; [apply add_new_spec|].
    set (s2 := set_new (new_of c) s).
    assert (pre P root 1 (List.length l) s2 l) as PR2. { destruct PR. split; auto. }
    assert (addable P l c) as AD.
    { eapply addable_sub; eauto; [apply (pr_good _ _ _ _ _ _ PR)|]. eapply subseq_trans; [exact SA|]. apply SC. now left. }
    assert (LF2 : is_leaf P (cur s2)). { simpl. now rewrite CU. }
    eapply ok_pair.
    { apply ok_both; [apply (leaf_try P root rate_ok nonant s2 l c LF2 PR2 eq_refl AD)|].
      apply (leaf_step s0 s2 l tried c LF2 PR2 eq_refl AD CU). eapply leaf_state_ext; [..|exact LS]; reflexivity. }
    intros f s3 ((H1 & H2 & H3 & H4 & H5 & H6 & H7 & _) & LS3). apply ok_modify_bind. apply ok_ret.
    replace (tried ++ c :: combs) with ((tried ++ [c]) ++ combs) by now rewrite <- app_assoc.
    apply IH; auto.
    + intros c' I. apply SC. now right.
    + assert (pre P root 1 (List.length l) s3 l) as PR3.
      { rewrite <- (shift_0 l) at 2. eapply (pre_exit _ _ _ _ s2); eauto; [intros; lia|now rewrite shift_0]. }
      destruct PR3. split; auto.
    + simpl. rewrite H3. exact CU.
Qed.

Lemma leaf_state_shift s0 d l tried s : leaf_state s0 (shift_all d l) tried s <-> leaf_state s0 l tried s.
Proof. unfold leaf_state. now rewrite shift_sels, shift_nodes, shift_costs. Qed.

Lemma av_all l : filter (fun it => negb (0 <? bv_time (snd it))%Z) (filter (unused (List.concat (sels l))) (p_pool P))
  = filter (unused (List.concat (sels l))) (p_pool P).
Proof.
  apply filter_all. intros it I. apply filter_In in I as [I _]. apply negb_true_iff, Z.ltb_ge. now apply imm.
Qed.

Theorem leaf_tried f s l : is_leaf P (cur s) -> pre P root (S f) (List.length l - 1) s l -> inc s = empty_plan ->
  ok (solve P (S f)) s (fun _ s' =>
    leaf_state s l ([] :: all_combinations (filter (unused (List.concat (sels l))) (p_pool P))) s').
Proof.
  intros LF PR E0. simpl. unfold solve_body. apply ok_modify_bind. apply ok_get_bind.
  set (s0 := set_new no_new s).
  assert (pre P root (S f) (List.length l - 1) s0 l) as PR0. { destruct PR. split; auto. }
  apply ok_bind. eapply ok_conseq; [apply (enter_ok P root _ _ _ PR0 eq_refl)|].
  intros adj s1 (E1 & PR1 & Z1 & AD).
  apply (ok_lift_bind _ []).
  { unfold neighbours. change (cur s0) with (cur s). unfold is_leaf, successors in LF. now rewrite LF. }
  apply ok_modify_bind. set (s2 := set_last true s1). set (l' := shift_all (- adj) l) in *.
  assert (C1 : cur s1 = cur s) by (rewrite E1; reflexivity).
  assert (pre P root 1 (List.length l') s2 l') as PR2.
  { unfold l' at 1. rewrite shift_length. apply pre_1 with (f := S f); [|simpl; now rewrite C1]. destruct PR1. split; auto. }
  assert (LF2 : is_leaf P (cur s2)). { simpl. now rewrite C1. }
  assert (AD0 : addable P l' []). { apply addable_nil. apply (gc_nodup _ _ _ _ (pr_good _ _ _ _ _ _ PR2)). }
  assert (LS0 : leaf_state s l' [] s2).
  { exists [], None. sp; auto.
    - simpl. rewrite E1. simpl. now rewrite List.app_nil_r.
    - simpl. rewrite E1. exact E0.
    - intros pre c post q E. destruct pre; discriminate.
    - congruence. }
  assert (N2 : new s2 = no_new). { simpl. rewrite E1. reflexivity. }
  eapply ok_pair.
  { apply ok_both; [apply (leaf_try P root rate_ok nonant s2 l' [] LF2 PR2 N2 AD0)|].
    apply (leaf_step s s2 l' [] [] LF2 PR2 N2 AD0 C1 LS0). }
  intros b s3 ((H1 & H2 & H3 & H4 & H5 & H6 & H7 & _) & LS3).
  assert (pre P root 1 (List.length l') s3 l') as PR3.
  { rewrite <- (shift_0 l') at 2. eapply (pre_exit _ _ _ _ s2); eauto; [intros; lia|now rewrite shift_0]. }
  apply ok_bind. unfold optimise_last_node. apply ok_get_bind.
  eapply ok_lift_bind.
  { apply (available_year_spec P pool_nodup s3 l'); [apply (pr_cnd _ _ _ _ _ _ PR3)|now rewrite H2|apply (gc_pool _ _ _ _ (pr_good _ _ _ _ _ _ PR3))]. }
  rewrite av_all. eapply ok_conseq.
  { apply (leaf_loop s l' (filter (unused (List.concat (sels l'))) (p_pool P)) LF (subseq_refl _)
      (all_combinations (filter (unused (List.concat (sels l'))) (p_pool P))) [[]] false s3); auto.
    - intros c I. apply all_combinations_spec in I. apply I.
    - rewrite H3. exact C1.
    - rewrite H2. exact N2. }
  intros f' s4 LS4. apply ok_modify_bind. apply ok_ret.
  eapply leaf_state_ext with (s := s4); try reflexivity.
  unfold l' in LS4. rewrite leaf_state_shift, shift_sels in LS4. exact LS4.
Qed.
End Leaf.
