(** The invariant of the search and its preservation by every step (total correctness). *)
From Coq Require Import List String Bool ZArith QArith Arith Lia Permutation.
From Verif Require Import Base Container ContainerSpec ContainerProofs Planner PlannerSpec PlannerRows PlannerProofs.
Import ListNotations.
Open Scope nat_scope.
Open Scope list_scope.

Local Ltac sp := repeat match goal with |- _ /\ _ => split end.

Section Inv.
Variable P : problem.
Variable root : node.

Hypothesis pool_nodup : NoDup (map fst (p_pool P)).
Hypothesis rate_ok : ~ (1 - p_rate P / 100 == 0)%Q.
Hypothesis nonant : p_nonant P = true.

(** Remaining times of stage [j] seen at stage [L]: never later than due. *)
Definition times_ok (L : nat) (l : list stage) : Prop :=
  years_sorted P ->
  forall j st k b t, nth_error l j = Some st -> In (k, (b, t)) (st_sel st) ->
    (t <= bv_time b - (year P L - year P j))%Z.

Record good_cand (h : list opf_call) (l : list stage) : Prop := {
  gc_path : l = [] \/ path_from P root (nodes l);
  gc_pool : incl (List.concat (sels l)) (p_pool P);
  gc_nodup : NoDup (map fst (List.concat (sels l)));
  gc_ran : forall j st, nth_error l j = Some st ->
     exists act, ran_feasible P h (st_node st) act (firstn (S j) (sels l)) (st_cost st) }.

Record log_ok (c : opf_call) : Prop := {
  lo_incl : incl (oc_active c) (map snd (List.concat (oc_selected c)));
  lo_due : years_sorted P -> forall j l k b,
     nth_error (oc_selected c) j = Some l -> In (k, b) l ->
     (bv_time b <= year P (List.length (oc_selected c) - 1) - year P j)%Z -> In b (oc_active c);
  lo_imm : immediate P -> oc_active c = map snd (List.concat (oc_selected c));
  lo_pool : incl (List.concat (oc_selected c)) (p_pool P);
  lo_nodup : NoDup (map fst (List.concat (oc_selected c))) }.

Definition good_row (h : list opf_call) (r : row) : Prop :=
  exists l bl, good_cand h l /\ ends_in_leaf P (nodes l) /\
    r_path r = path_of (nodes l) /\ r_int r = path_of bl /\
    Forall2 subseq bl (sels l) /\ (immediate P -> bl = sels l) /\
    operation_cost P (path_of (costs l)) = Ok (r_op r) /\
    (investment_cost P (path_of bl) = Ok (r_inv r) \/ investment_cost P (path_of (sels l)) = Ok (r_inv r)).

Definition covers (R : @items row) : Prop :=
  forall n, In n (p_nodes P) -> exists r, In r R /\ In n (map snd (r_path (snd r))).

Definition Inv (s : info) : Prop :=
  exists R C Pt, inc s = plan_of R /\ complete s = plan_of C /\ partial s = plan_of Pt /\
    Forall (good_row (log s)) (map snd R) /\ Forall (good_row (log s)) (map snd C) /\
    Forall (good_row (log s)) (map snd Pt) /\ (C <> [] -> covers C) /\ Forall log_ok (log s).

Definition advance (s s' : info) : Prop :=
  (exists l, log s' = log s ++ l) /\
  (pl_paths (complete s) <> [] ->
     pl_paths (complete s') <> [] /\ (total_cost (complete s') <= total_cost (complete s))%Q).

Definition keeps (s s' : info) : Prop :=
  cnd s' = cnd s /\ new s' = new s /\ cur s' = cur s /\ level s' = level s.

Lemma advance_refl s : advance s s.
Proof. split; [exists []; now rewrite List.app_nil_r|]. intros H. split; auto. apply Qle_refl. Qed.

Lemma advance_trans s1 s2 s3 : advance s1 s2 -> advance s2 s3 -> advance s1 s3.
Proof.
  intros [[l1 E1] H1] [[l2 E2] H2]. split.
  - exists (l1 ++ l2). now rewrite E2, E1, app_assoc.
  - intros N. destruct (H1 N) as [N2 L1]. destruct (H2 N2) as [N3 L2]. split; auto.
    eapply Qle_trans; eauto.
Qed.

Lemma advance_same s s' : log s' = log s -> complete s' = complete s -> advance s s'.
Proof.
  intros E1 E2. split; [exists []; now rewrite List.app_nil_r|]. rewrite E2. intros H. split; auto. apply Qle_refl.
Qed.

Lemma keeps_trans s1 s2 s3 : keeps s1 s2 -> keeps s2 s3 -> keeps s1 s3.
Proof. unfold keeps. intuition congruence. Qed.

Lemma keeps_refl s : keeps s s.
Proof. unfold keeps; auto. Qed.

Lemma ran_mono h h' n act sel c : ran_feasible P h n act sel c -> ran_feasible P (h ++ h') n act sel c.
Proof.
  intros (pre & post & -> & E). exists pre, (post ++ h'). split; auto. now rewrite <- app_assoc.
Qed.

Lemma good_cand_mono h h' l : good_cand h l -> good_cand (h ++ h') l.
Proof.
  intros [A B C D]. split; auto. intros j st E. destruct (D j st E) as (act & R). exists act. now apply ran_mono.
Qed.

Lemma good_row_mono h h' r : good_row h r -> good_row (h ++ h') r.
Proof. intros (l & bl & G & H). exists l, bl. split; auto. now apply good_cand_mono. Qed.

Lemma good_rows_mono h h' R : Forall (good_row h) R -> Forall (good_row (h ++ h')) R.
Proof. intros H. eapply Forall_impl; [|exact H]. intros r. apply good_row_mono. Qed.

Lemma good_cand_shift h d l : good_cand h l -> good_cand h (shift_all d l).
Proof.
  intros [A B C D]. split.
  - destruct A as [->|A]; [left; reflexivity|right]. now rewrite shift_nodes.
  - now rewrite shift_sels.
  - now rewrite shift_sels.
  - intros j st E. unfold shift_all in E. rewrite nth_error_map in E.
    destruct (nth_error l j) as [st0|] eqn:E0; [|discriminate]. simpl in E. injection E as <-. rewrite shift_sels.
    destruct (D j st0 E0) as (act & R). exists act. exact R.
Qed.

Lemma times_ok_shift L d l : (years_sorted P -> (d <= 0)%Z) -> times_ok L l -> times_ok L (shift_all d l).
Proof.
  intros Hd H YS j st k b t E I. unfold shift_all in E. rewrite nth_error_map in E.
  destruct (nth_error l j) as [st0|] eqn:E0; [|discriminate]. simpl in E. injection E as <-.
  unfold shift_stage in I. simpl in I. unfold vmap in I. apply in_map_iff in I as ([k0 [b0 t0]] & Eq & I). simpl in Eq.
  injection Eq as <- <- <-. specialize (H YS j st0 k0 b0 t0 E0 I). specialize (Hd YS). lia.
Qed.

Lemma times_ok_next L L' l : times_ok L l -> times_ok L' (shift_all (- (year P L' - year P L)) l).
Proof.
  intros H YS j st k b t E I. unfold shift_all in E. rewrite nth_error_map in E.
  destruct (nth_error l j) as [st0|] eqn:E0; [|discriminate]. simpl in E. injection E as <-.
  unfold shift_stage in I. simpl in I. unfold vmap in I. apply in_map_iff in I as ([k0 [b0 t0]] & Eq & I). simpl in Eq.
  injection Eq as <- <- <-. specialize (H YS j st0 k0 b0 t0 E0 I). lia.
Qed.

(* ------------------------------------------------------------------ *)
(** ** elimination *)

Lemma Forall_incl_snd {V} (Q : V -> Prop) (R R' : list (string * V)) :
  incl (map snd R') (map snd R) -> Forall Q (map snd R) -> Forall Q (map snd R').
Proof. intros I H. rewrite Forall_forall in *. intros x J. apply H, I, J. Qed.

Lemma delete_offsprings_ok ks : forall s R Pt,
  inc s = plan_of R -> partial s = plan_of Pt ->
  (forall k, count ks k <= count (map fst R) k) ->
  ok (delete_offsprings ks) s (fun _ s' => exists R' Pt',
     s' = set_inc (plan_of R') (set_partial (plan_of Pt') s) /\
     pops ks R = Ok R' /\ incl R' R /\ incl Pt' Pt).
Proof.
  induction ks as [|k ks IH]; intros s R Pt ER EP H.
  - apply ok_ret. exists R, Pt. split; [|split; [reflexivity|split; apply incl_refl]].
    unfold set_inc, set_partial. simpl. rewrite <- ER, <- EP. now destruct s.
  - unfold delete_offsprings. simpl. apply ok_bind. fold (delete_offsprings ks).
    apply ok_get_bind.
    destruct (l_pop_ok k R) as (v & R1 & E).
    { apply count_In. unfold keys. specialize (H k). rewrite count_cons in H. destruct (string_dec k k); [lia|congruence]. }
    pose proof (l_pop_perm _ _ _ _ E) as Pm.
    eapply ok_lift_bind. { rewrite ER, pop_row_plan_of, E. reflexivity. }
    cbv beta iota. apply ok_modify_bind. apply ok_get_bind. simpl.
    assert (H1 : forall k', count ks k' <= count (map fst R1) k').
    { intros k'. specialize (H k'). rewrite (count_perm _ _ k' (Permutation_map fst Pm)) in H. simpl in H.
      rewrite !count_cons in H. lia. }
    assert (I1 : incl R1 R). { intros x J. apply (Permutation_in _ (Permutation_sym Pm)). simpl; auto. }
    assert (PE : pops (k :: ks) R = pops ks R1). { unfold pops. simpl. now rewrite E. }
    destruct (allow s && negb (last s) && match l_get k (pl_int (partial s)) with Some _ => true | None => false end) eqn:Cnd.
    + apply andb_true_iff in Cnd as [_ Cnd].
      assert (exists w Pt1, l_pop k Pt = Ok (w, Pt1)) as (w & Pt1 & EPt).
      { apply l_pop_ok. rewrite EP in Cnd. simpl in Cnd.
        change (map (fun x => (fst x, r_int (snd x))) Pt) with (vmap r_int Pt) in Cnd. rewrite l_get_vmap in Cnd.
        destruct (l_get k Pt) eqn:G; [|discriminate]. apply l_get_Some_In in G.
        change k with (fst (k, r)). now apply in_map. }
      eapply ok_lift_bind. { rewrite EP, pop_row_plan_of, EPt. reflexivity. }
      cbv beta iota. apply ok_modify. eapply ok_conseq.
      * apply (IH _ R1 Pt1); auto.
      * intros _ s' (R' & Pt' & -> & EP' & J1 & J2). exists R', Pt'. split; [reflexivity|].
        rewrite PE. split; [exact EP'|]. split; [eapply incl_tran; eauto|].
        intros x J. apply (Permutation_in _ (Permutation_sym (l_pop_perm _ _ _ _ EPt))). simpl; auto.
    + apply ok_ret. eapply ok_conseq.
      * apply (IH _ R1 Pt); auto.
      * intros _ s' (R' & Pt' & -> & EP' & J1 & J2). exists R', Pt'. split; [reflexivity|].
        rewrite PE. split; [exact EP'|]. split; [eapply incl_tran; eauto|auto].
Qed.

Lemma incl_map {A B} (f : A -> B) l l' : incl l l' -> incl (map f l) (map f l').
Proof. intros H x I. apply in_map_iff in I as (y & <- & I). apply in_map, H, I. Qed.

Lemma eliminate_ok s : Inv s -> ok eliminate_offsprings s (fun _ s' =>
  Inv s' /\ keeps s s' /\ advance s s' /\ last s' = last s /\ log s' = log s /\ complete s' = complete s).
Proof.
  intros (R & C & Pt & ER & EC & EP & GR & GC & GP & CV & LG).
  unfold eliminate_offsprings. apply ok_get_bind. apply ok_bind.
  eapply ok_conseq.
  { apply (delete_offsprings_ok _ s R Pt); auto. intros k. rewrite ER. unfold find_keys_of_offsprings.
    rewrite plan_of_vmap. simpl. etransitivity; [apply count_filter_le|]. rewrite vmap_keys. lia. }
  intros _ s1 (R1 & Pt1 & -> & _ & I1 & I2). apply ok_get_bind. simpl.
  destruct (renumber_ok R1) as (R2 & E2 & Pm). eapply ok_lift_bind; [exact E2|].
  apply ok_modify_bind. apply ok_get_bind.
  assert (F : forall b, Inv (mkInfo (plan_of R2) (cnd s) (new s) (complete s) (plan_of Pt1) (cur s) (level s) b (last s) (log s) (opf_res s))).
  { intros b. exists R2, C, Pt1. simpl. sp; auto.
    - eapply Forall_incl_snd; [|exact GR]. intros x J. apply (Permutation_in _ Pm) in J.
      revert J. apply incl_map, I1.
    - eapply Forall_incl_snd; [|exact GP]. now apply incl_map. }
  match goal with |- ok (if ?b then _ else _) _ _ => destruct b end.
  - apply ok_modify. split; [apply F|]. split; [repeat split|]. split; [apply advance_same; reflexivity|]. auto.
  - apply ok_ret. split; [apply F|]. split; [repeat split|]. split; [apply advance_same; reflexivity|]. auto.
Qed.

Lemma store_partial_ok s : Inv s -> ok store_partial_tree s (fun _ s' =>
  Inv s' /\ keeps s s' /\ advance s s' /\ last s' = last s).
Proof.
  intros IV. pose proof IV as (R & C & Pt & ER & EC & EP & GR & GC & GP & CV & LG).
  assert (F : Inv (set_partial (inc s) s)).
  { exists R, C, R. simpl. sp; auto. }
  assert (F2 : keeps s (set_partial (inc s) s) /\ advance s (set_partial (inc s) s)).
  { split; [repeat split|apply advance_same; reflexivity]. }
  unfold store_partial_tree. apply ok_get_bind.
  eapply ok_lift_bind. { rewrite EP. apply plan_is_empty_plan_of. }
  repeat match goal with |- ok (if ?b then _ else _) _ _ => destruct b end;
    (apply ok_modify || apply ok_ret); intuition auto using keeps_refl, advance_refl.
Qed.

Lemma close_ok s l : adj_find (cur s) (p_graph P) = Some l -> Inv s -> ok (close_exploration P) s (fun _ s' =>
  Inv s' /\ keeps s s' /\ advance s s').
Proof.
  intros NB IV. unfold close_exploration. apply ok_get_bind. apply ok_bind.
  apply (ok_conseq _ _ (fun _ s' => Inv s' /\ keeps s s' /\ advance s s')).
  { destruct (last s).
    - eapply ok_conseq; [apply store_partial_ok; auto|]. intros ? ? (? & ? & ? & ?). auto.
    - apply ok_ret. auto using keeps_refl, advance_refl. }
  intros _ s1 (I1 & K1 & A1). apply ok_get_bind.
  eapply ok_lift_bind.
  { unfold neighbours. destruct K1 as (_ & _ & -> & _). rewrite NB. reflexivity. }
  destruct (1 <? List.length l)%nat; simpl; [|apply ok_ret; auto].
  destruct (last s1).
  - apply ok_bind. eapply ok_conseq; [apply eliminate_ok; auto|].
    intros _ s2 (I2 & K2 & A2 & _). apply ok_modify.
    split; [|split].
    + destruct I2 as (R & C & Pt & H). exists R, C, Pt. exact H.
    + pose proof (keeps_trans _ _ _ K1 K2) as K. exact K.
    + exact (advance_trans _ _ _ A1 A2).
  - apply ok_ret. auto.
Qed.

(* ------------------------------------------------------------------ *)
(** ** costs *)

Lemma py_index_year i : i < List.length (p_years P) -> py_index (p_years P) (Z.of_nat i) = Ok (year P i).
Proof.
  intros H. unfold py_index. destruct (Z.ltb_spec (Z.of_nat i) 0); [lia|].
  destruct (Z.ltb_spec (Z.of_nat i) 0); [lia|]. rewrite Nat2Z.id.
  rewrite (nth_error_nth' (p_years P) 0%Z H). reflexivity.
Qed.

Lemma discount_ok d : discount (p_rate P) d = Ok (1 / Qpower (1 - p_rate P / 100) d)%Q.
Proof.
  unfold discount. destruct (Qeq_bool (1 - p_rate P / 100) 0) eqn:E; auto.
  apply Qeq_bool_iff in E. contradiction.
Qed.

Lemma years_difference_ok i : i < List.length (p_years P) -> years_difference P i = Ok (year P i - year P 0)%Z.
Proof.
  intros H. unfold years_difference. rewrite py_index_year by auto. simpl.
  change 0%Z with (Z.of_nat 0). rewrite py_index_year by lia. reflexivity.
Qed.

Lemma investment_cost_from_ok l : forall i tot, i + List.length l <= List.length (p_years P) ->
  exists q, investment_cost_from P i l tot = Ok q /\
    (q == tot + discounted_from P i (map (fun it => stage_cost (snd it)) l))%Q.
Proof.
  induction l as [|[k ints] l IH]; intros i tot H; simpl in *.
  - exists tot. split; auto. ring.
  - assert (SC : forall c (x : list (string * BV)), (fold_left (fun c it => c + bv_cost (snd it)) x c == c + stage_cost x)%Q).
    { intros c x. revert c. induction x as [|it x IHx]; intros c; unfold stage_cost; simpl; [ring|].
      rewrite IHx. unfold stage_cost. ring. }
    destruct i as [|i].
    + rewrite discount_ok. simpl. destruct (IH 1 (tot + 1 / 1 * fold_left (fun c it => c + bv_cost (snd it)) ints 0)%Q) as (q & E & V); [lia|].
      exists q. split; auto. rewrite V, SC. unfold factor. rewrite Z.sub_diag. simpl. field.
    + rewrite years_difference_ok by lia. simpl. rewrite discount_ok. simpl.
      destruct (IH (S (S i)) (tot + 1 / (1 - p_rate P / 100) ^ (year P (S i) - year P 0) * fold_left (fun c it => c + bv_cost (snd it)) ints 0)%Q) as (q & E & V); [lia|].
      exists q. split; auto. rewrite V, SC. unfold factor. ring.
Qed.

Lemma operation_cost_from_ok l : forall i tot, S i + List.length l <= List.length (p_years P) ->
  exists q, operation_cost_from P (S i) l tot = Ok q /\ (q == tot + discounted_from P (S i) (map snd l))%Q.
Proof.
  induction l as [|[k c] l IH]; intros i tot H; simpl in *.
  - exists tot. split; auto. ring.
  - rewrite years_difference_ok by lia. simpl. rewrite discount_ok. simpl.
    destruct (IH (S i) (tot + 1 / (1 - p_rate P / 100) ^ (year P (S i) - year P 0) * c)%Q) as (q & E & V); [lia|].
    exists q. split; auto. rewrite V. unfold factor. ring.
Qed.

Lemma investment_cost_ok xs : List.length xs <= List.length (p_years P) ->
  exists q, investment_cost P (path_of xs) = Ok q /\ (q == discounted P (map stage_cost xs))%Q.
Proof.
  intros H. destruct (investment_cost_from_ok (path_of xs) 0 0%Q) as (q & E & V).
  { rewrite path_of_len. simpl. exact H. }
  exists q. split; [exact E|]. rewrite V. unfold discounted.
  replace (map (fun it => stage_cost (snd it)) (path_of xs)) with (map stage_cost xs); [ring|].
  rewrite <- (path_of_map_snd xs) at 1. now rewrite map_map.
Qed.

Lemma operation_cost_ok xs : List.length xs <= List.length (p_years P) ->
  exists q, operation_cost P (path_of xs) = Ok q /\ (q == discounted P xs)%Q.
Proof.
  intros H. unfold operation_cost. pose proof (path_of_map_snd xs) as PS. pose proof (path_of_len xs) as PL.
  destruct (path_of xs) as [|[k c] r].
  - exists 0%Q. split; auto. simpl in PS. subst xs. unfold discounted. simpl. reflexivity.
  - simpl in *. destruct (operation_cost_from_ok r 0 c) as (q & E & V); [lia|].
    exists q. split; [exact E|]. rewrite V. rewrite <- PS. unfold discounted. simpl.
    assert (F0 : (factor P 0 == 1)%Q) by (unfold factor; rewrite Z.sub_diag; simpl; reflexivity).
    rewrite F0. ring.
Qed.

(* ------------------------------------------------------------------ *)
(** ** small steps *)

Lemma add_new_spec comb s : add_new_interventions comb s = Ok (tt, set_new (new_of comb) s).
Proof.
  unfold add_new_interventions. unfold bind at 1. unfold modify at 1.
  assert (G : forall c2 c1 s0, new s0 = new_of c1 ->
     for_each c2 (fun '(k, v) =>
       let! s := get in
       modify (set_new (mkNew (l_append k v (n_int (new s))) (l_append k (bv_time v) (n_time (new s)))))) s0
     = Ok (tt, set_new (new_of (c1 ++ c2)) s0)).
  { induction c2 as [|[k v] c2 IH]; intros c1 s0 E; simpl.
    - unfold ret. rewrite List.app_nil_r, <- E. now destruct s0.
    - unfold bind at 1. unfold bind at 1. unfold get at 1. unfold modify at 1.
      rewrite (IH (c1 ++ [(k, v)])).
      + unfold set_new. simpl. now rewrite <- app_assoc.
      + simpl. rewrite E. unfold new_of. simpl. unfold l_append, vmap. now rewrite map_app. }
  now rewrite (G comb [] (set_new no_new s)).
Qed.

Definition active_of (l : list stage) (c : @items BV) : list BV := List.concat (map ready l) ++ ready_new c.

(** Selections [c] may be added to the candidate [l]. *)
Definition addable (l : list stage) (c : @items BV) : Prop :=
  incl c (p_pool P) /\ NoDup (map fst (List.concat (sels l ++ [c]))).

Lemma addable_shift d l c : addable l c <-> addable (shift_all d l) c.
Proof. unfold addable. now rewrite shift_sels. Qed.

Lemma addable_nil l : NoDup (map fst (List.concat (sels l))) -> addable l [].
Proof.
  intros H. split; [intros x []|]. rewrite concat_app. simpl. now rewrite !List.app_nil_r.
Qed.

Lemma nth_error_snoc {A} (l : list A) x j y : nth_error (l ++ [x]) j = Some y ->
  (j < List.length l /\ nth_error l j = Some y) \/ (j = List.length l /\ y = x).
Proof.
  intros H. destruct (Nat.lt_ge_cases j (List.length l)) as [L|L].
  - left. split; auto. now rewrite nth_error_app1 in H.
  - right. rewrite nth_error_app2 in H by auto. remember (j - List.length l) as n eqn:E. destruct n as [|n].
    + simpl in H. injection H as <-. split; auto. lia.
    + simpl in H. destruct n; discriminate.
Qed.

Lemma filter_all {A} (f : A -> bool) l : (forall x, In x l -> f x = true) -> filter f l = l.
Proof.
  induction l as [|x l IH]; intros H; simpl; auto. rewrite H by (simpl; auto). rewrite IH; auto.
  intros; apply H; simpl; auto.
Qed.

Lemma log_ok_call h n l c : good_cand h l -> addable l c -> times_ok (List.length l) l ->
  List.length l < List.length (p_years P) ->
  log_ok (mkCall n (active_of l c) (sels l ++ [c])).
Proof.
  intros G [Ac An] T Ly.
  assert (Dir : forall st k b t, In st l -> In (k, (b, t)) (st_sel st) -> (t <= 0)%Z -> In b (List.concat (map ready l))).
  { intros st k b t I J H. apply in_concat. exists (ready st). split; [now apply in_map|].
    unfold ready. apply in_map_iff. exists (k, (b, t)). split; auto. apply filter_In. split; auto. simpl. now apply Z.leb_le. }
  split; simpl.
  - intros b I. unfold active_of in I. rewrite concat_app, map_app. apply in_app_iff. apply in_app_iff in I as [I|I].
    + left. apply in_concat in I as (x & I & J). apply in_map_iff in I as (st & <- & I).
      unfold ready in J. apply in_map_iff in J as ([k [b' t]] & <- & J). apply filter_In in J as [J _].
      apply in_map_iff. exists (k, b'). split; auto. apply in_concat. exists (st_ints st). split.
      * unfold sels. now apply in_map.
      * unfold st_ints, vmap. apply in_map_iff. exists (k, (b', t)). auto.
    + right. simpl. rewrite List.app_nil_r. unfold ready_new in I. apply in_map_iff in I as (x & <- & I).
      apply filter_In in I as [I _]. now apply in_map.
  - intros YS j sl k b E I H. unfold active_of. apply in_app_iff.
    rewrite app_length in H. simpl in H. unfold sels in H at 1. rewrite map_length in H.
    replace (List.length l + 1 - 1) with (List.length l) in H by lia.
    apply nth_error_snoc in E as [[Lj E]|[Ej ->]].
    + left. unfold sels in E. rewrite nth_error_map in E. destruct (nth_error l j) as [st|] eqn:Ej; [|discriminate].
      simpl in E. injection E as <-. unfold st_ints, vmap in I. apply in_map_iff in I as ([k' [b' t]] & Eq & I).
      simpl in Eq. injection Eq as -> ->. apply (Dir st k b t); auto; [eapply nth_error_In; eauto|].
      specialize (T YS j st k b t Ej I). lia.
    + right. unfold sels in Ej. rewrite map_length in Ej. subst j. rewrite Z.sub_diag in H.
      unfold ready_new. apply in_map_iff. exists (k, b). split; auto. apply filter_In. split; auto. simpl. now apply Z.leb_le.
  - intros [YS Z0]. unfold active_of. rewrite concat_app, map_app. simpl. rewrite List.app_nil_r. f_equal.
    + unfold sels. rewrite concat_map, map_map. f_equal. apply map_ext_in. intros st I.
      unfold ready, st_ints, vmap. rewrite map_map. simpl. rewrite filter_all; auto.
      intros [k [b t]] J. simpl. apply Z.leb_le. apply In_nth_error in I as (j & Ej).
      specialize (T YS j st k b t Ej J).
      assert (In (k, b) (p_pool P)) as IP.
      { apply (gc_pool _ _ G). apply in_concat. exists (st_ints st). split.
        - unfold sels. apply in_map. eapply nth_error_In; eauto.
        - unfold st_ints, vmap. apply in_map_iff. exists (k, (b, t)). auto. }
      specialize (Z0 _ IP). simpl in Z0.
      assert (j < List.length l) as Lj by (apply nth_error_Some; congruence).
      pose proof (YS j (List.length l) ltac:(lia) Ly). lia.
    + unfold ready_new. rewrite filter_all; auto. intros x I. apply Z.leb_le. apply Z0, Ac, I.
  - rewrite concat_app. simpl. rewrite List.app_nil_r. apply incl_app; auto. apply (gc_pool _ _ G).
  - exact An.
Qed.

Definition extend (s : info) (l : list stage) (c : @items BV) : list stage :=
  l ++ [mkStage (cur s) (vmap with_time c) (snd (p_opf P (log s) (cur s) (active_of l c)))].

Definition after_check (s : info) (l : list stage) (c : @items BV) : info :=
  set_opf (log s ++ [mkCall (cur s) (active_of l c) (sels l ++ [c])])
          (p_opf P (log s) (cur s) (active_of l c)) s.

Lemma check_feasibility_spec s l c : cnd s = cand_of l -> new s = new_of c ->
  NoDup (map fst (List.concat (sels l))) -> In (cur s) (p_nodes P) ->
  check_feasibility P s = Ok (fst (p_opf P (log s) (cur s) (active_of l c)), after_check s l c).
Proof.
  intros E N ND I. unfold check_feasibility, bind, get. rewrite (ready_to_operate_spec s l c); auto.
  unfold lift. rewrite E, N. simpl. rewrite path_of_map_snd.
  assert (existsb (Nat.eqb (cur s)) (p_nodes P) = true) as ->.
  { apply existsb_exists. exists (cur s). split; auto. apply Nat.eqb_refl. }
  reflexivity.
Qed.

Lemma vmap_fst_with_time c : vmap fst (vmap with_time c) = c.
Proof. rewrite vmap_vmap. simpl. apply vmap_id. Qed.

Lemma vmap_snd_with_time c : vmap snd (vmap with_time c) = vmap bv_time c.
Proof. now rewrite vmap_vmap. Qed.

Lemma construction_spec s l c q : cnd s = cand_of l -> new s = new_of c -> opf_res s = (true, q) ->
  level s = Z.of_nat (List.length l) ->
  construction_of_solution s = Ok (tt, set_cnd (cand_of (l ++ [mkStage (cur s) (vmap with_time c) q])) s).
Proof.
  intros E N R L. unfold construction_of_solution, modify. do 2 f_equal. rewrite E, N, R, L, str_Z_nat. unfold set_cnd. f_equal.
  unfold cand_of, new_of, nodes, sels, costs. rewrite !map_app. simpl. rewrite !path_of_app_one, !map_length.
  unfold st_ints, st_times. simpl. rewrite vmap_fst_with_time, vmap_snd_with_time, path_of_len, map_length. reflexivity.
Qed.

Lemma return_spec s l st : cnd s = cand_of (l ++ [st]) -> level s = Z.of_nat (List.length l) ->
  return_to_previous_state P s = Ok (tt, set_cnd (cand_of l) s).
Proof.
  intros E L. unfold return_to_previous_state, bind, get. rewrite E, L, str_Z_nat. unfold cand_of at 1 2 3 4 5; simpl.
  assert (PP : forall B (f : stage -> B), l_pop (str_nat (List.length l)) (path_of (map f (l ++ [st]))) = Ok (f st, path_of (map f l))).
  { intros B f. rewrite map_app. simpl. rewrite <- (map_length f l). apply path_of_pop. }
  unfold sels, costs, nodes. rewrite !PP. unfold lift at 1 2 3. rewrite path_of_len, map_length, app_length. simpl.
  replace (Z.of_nat (List.length l + 1) - 1)%Z with (Z.of_nat (List.length l)) by lia.
  rewrite str_Z_nat, PP. simpl. rewrite nonant. reflexivity.
Qed.

Lemma extend_good s l c : In (cur s) (p_nodes P) -> path_from P root (nodes l ++ [cur s]) ->
  good_cand (log s) l -> addable l c ->
  fst (p_opf P (log s) (cur s) (active_of l c)) = true ->
  good_cand (log s ++ [mkCall (cur s) (active_of l c) (sels l ++ [c])]) (extend s l c).
Proof.
  intros I PF G [Ac An] F. unfold extend.
  assert (SE : sels (l ++ [mkStage (cur s) (vmap with_time c) (snd (p_opf P (log s) (cur s) (active_of l c)))]) = sels l ++ [c]).
  { unfold sels. rewrite map_app. simpl. unfold st_ints at 2. simpl. now rewrite vmap_fst_with_time. }
  split; rewrite ?SE.
  - right. unfold nodes. rewrite map_app. exact PF.
  - rewrite concat_app. simpl. rewrite List.app_nil_r. apply incl_app; auto. apply (gc_pool _ _ G).
  - exact An.
  - intros j st E. apply nth_error_snoc in E as [[Lj E]|[-> ->]].
    + destruct (gc_ran _ _ G j st E) as (act & R). exists act. apply ran_mono.
      rewrite firstn_app. unfold sels at 2. rewrite map_length.
      replace (S j - List.length l) with 0 by lia. simpl firstn at 2. now rewrite List.app_nil_r.
    + exists (active_of l c). simpl st_node. simpl st_cost. exists (log s), []. split.
      * rewrite firstn_all2; [reflexivity|]. rewrite app_length. unfold sels. rewrite map_length. simpl. lia.
      * destruct (p_opf P (log s) (cur s) (active_of l c)) as [b q]. simpl in *. now subst b.
Qed.

Lemma extend_times s l c : times_ok (List.length l) l -> times_ok (List.length l) (extend s l c).
Proof.
  intros T YS j st k b t E I. unfold extend in E. apply nth_error_snoc in E as [[Lj E]|[-> ->]].
  - eapply T; eauto.
  - simpl in I. unfold vmap in I. apply in_map_iff in I as ([k' b'] & Eq & I). injection Eq as <- <- <-. lia.
Qed.

(* ------------------------------------------------------------------ *)
(** ** available interventions *)

Lemma list_Qeqb_refl l : list_Qeqb l l = true.
Proof. induction l; simpl; auto. rewrite IHl, andb_true_r. apply Qeq_bool_iff. reflexivity. Qed.

Lemma bv_eqb_refl b : bv_eqb b b = true.
Proof.
  unfold bv_eqb. rewrite !String.eqb_refl.
  assert (Qeq_bool (bv_cost b) (bv_cost b) = true) as -> by (apply Qeq_bool_iff; reflexivity).
  assert (forall v, pyval_eqb v v = true) as H.
  { intros [q|l]; simpl; [apply Qeq_bool_iff; reflexivity|apply list_Qeqb_refl]. }
  now rewrite !H.
Qed.

Definition unused (used : list (string * BV)) (it : string * BV) : bool := negb (str_in (fst it) (map fst used)).

Lemma str_in_spec k l : str_in k l = true <-> In k l.
Proof.
  unfold str_in. rewrite existsb_exists. split.
  - intros (x & I & E). apply String.eqb_eq in E. now subst.
  - intros I. exists k. split; auto. apply String.eqb_refl.
Qed.

Lemma difference_unused av used : incl av (p_pool P) -> incl used (p_pool P) ->
  difference_lists bv_eqb av used = filter (unused used) av.
Proof.
  intros I1 I2. unfold difference_lists. apply filter_ext_in. intros [k b] I. unfold unused. f_equal. simpl.
  destruct (str_in k (map fst used)) eqn:E.
  - apply str_in_spec in E. apply in_map_iff in E as ([k' b'] & Eq & J). simpl in Eq. subst k'.
    assert (b' = b) as ->.
    { pose proof (l_get_nodup_In k b (p_pool P) pool_nodup (I1 _ I)). pose proof (l_get_nodup_In k b' (p_pool P) pool_nodup (I2 _ J)). congruence. }
    unfold item_in. apply existsb_exists. exists (k, b). split; auto. unfold item_eqb. simpl. now rewrite String.eqb_refl, bv_eqb_refl.
  - destruct (item_in bv_eqb (k, b) used) eqn:F; auto. unfold item_in in F. apply existsb_exists in F as ([k' b'] & J & Eq).
    unfold item_eqb in Eq. simpl in Eq. apply andb_true_iff in Eq as [Eq _]. apply String.eqb_eq in Eq. subst k'.
    assert (str_in k (map fst used) = true); [|congruence]. apply str_in_spec. change k with (fst (k, b')). now apply in_map.
Qed.

Lemma filter_filter {A} (f g : A -> bool) l : filter f (filter g l) = filter (fun x => g x && f x) l.
Proof. induction l as [|x l IH]; simpl; auto. destruct (g x); simpl; [destruct (f x); now rewrite IH|auto]. Qed.

Lemma available_general s : incl (List.concat (map snd (c_int (cnd s)))) (p_pool P) -> incl (n_int (new s)) (p_pool P) ->
  available P s = filter (unused (List.concat (map snd (c_int (cnd s))) ++ n_int (new s))) (p_pool P).
Proof.
  intros I1 I2. unfold available.
  assert (G : forall (L : list (string * @items BV)) av, incl av (p_pool P) -> incl (List.concat (map snd L)) (p_pool P) ->
    fold_left (fun av prev => difference_lists bv_eqb av (snd prev)) L av = filter (unused (List.concat (map snd L))) av).
  { induction L as [|[k x] L IH]; intros av J1 J2; simpl.
    - symmetry. apply filter_all. reflexivity.
    - rewrite difference_unused; auto.
      2:{ intros y Y. apply J2. simpl. apply in_app_iff; auto. }
      rewrite IH.
      + rewrite filter_filter. apply filter_ext. intros it. unfold unused. rewrite map_app, <- negb_orb. f_equal.
        unfold str_in. now rewrite existsb_app.
      + intros y Y. apply filter_In in Y as [Y _]. auto.
      + intros y Y. apply J2. simpl. apply in_app_iff; auto. }
  rewrite G; auto using incl_refl. rewrite difference_unused; auto.
  - rewrite filter_filter. apply filter_ext. intros it. unfold unused. rewrite map_app, <- negb_orb. f_equal.
    unfold str_in. now rewrite existsb_app.
  - intros y Y. apply filter_In in Y as [Y _]. auto.
Qed.

Lemma available_spec s l c : cnd s = cand_of l -> new s = new_of c ->
  incl (List.concat (sels l)) (p_pool P) -> incl c (p_pool P) ->
  available P s = filter (unused (List.concat (sels l ++ [c]))) (p_pool P).
Proof.
  intros E N I1 I2. rewrite available_general; rewrite ?E, ?N; simpl; rewrite ?path_of_map_snd; auto.
  rewrite concat_app. simpl. now rewrite List.app_nil_r.
Qed.

Lemma addable_sub h l c : good_cand h l ->
  subseq c (filter (unused (List.concat (sels l))) (p_pool P)) -> addable l c.
Proof.
  intros Gh S.
  assert (subseq c (filter (unused (List.concat (sels l))) (p_pool P)) -> incl c (p_pool P)) as I.
  { intros H x J. apply (subseq_incl _ _ H) in J. now apply filter_In in J. }
  split; auto. rewrite concat_app, map_app. apply NoDup_app_join.
  - apply (gc_nodup _ _ Gh).
  - simpl. rewrite List.app_nil_r. eapply subseq_NoDup; [apply subseq_map, S|].
    eapply subseq_NoDup; [apply subseq_map, subseq_filter|]. exact pool_nodup.
  - simpl. rewrite List.app_nil_r. intros x J K. apply in_map_iff in K as (it & <- & K). apply (subseq_incl _ _ S) in K.
    apply filter_In in K as [_ K]. unfold unused in K. apply negb_true_iff in K.
    apply str_in_spec in J. congruence.
Qed.

Lemma concat_snoc_nil {A} (l : list (list A)) : List.concat (l ++ [[]]) = List.concat l.
Proof. rewrite concat_app. simpl. now rewrite !List.app_nil_r. Qed.

Lemma new_of_nil : new_of [] = no_new.
Proof. reflexivity. Qed.

Lemma available_spec_nil s l : cnd s = cand_of l -> new s = no_new -> incl (List.concat (sels l)) (p_pool P) ->
  available P s = filter (unused (List.concat (sels l))) (p_pool P).
Proof.
  intros E N I. etransitivity; [apply (available_spec s l []); auto; intros x []|].
  f_equal. f_equal. apply (concat_snoc_nil (sels l)).
Qed.

Lemma available_year_spec s l : cnd s = cand_of l -> new s = no_new -> incl (List.concat (sels l)) (p_pool P) ->
  available_for_current_year P s =
  Ok (filter (fun it => negb (0 <? bv_time (snd it))%Z) (filter (unused (List.concat (sels l))) (p_pool P))).
Proof.
  intros E N I. unfold available_for_current_year. rewrite (available_spec_nil s l); auto.
  set (A := filter (unused (List.concat (sels l))) (p_pool P)).
  assert (NoDup (map fst A)) as ND.
  { eapply subseq_NoDup; [apply subseq_map, subseq_filter|]. exact pool_nodup. }
  assert (G : forall (L acc : list (string * BV)), foldM (fun acc it => if (0 <? bv_time (snd it))%Z
                       then do (_, acc') <- l_pop (fst it) acc; Ok acc' else Ok acc) L acc
        = pops (map fst (filter (fun it => (0 <? bv_time (snd it))%Z) L)) acc).
  { induction L as [|it L IH]; intros acc; simpl; auto. destruct (0 <? bv_time (snd it))%Z; simpl; auto.
    unfold pops. simpl. destruct (l_pop (fst it) acc) as [[v acc']|]; simpl; auto. apply IH. }
  rewrite G. apply (pops_filter (fun it => (0 <? bv_time (snd it))%Z) A ND).
Qed.

(* ------------------------------------------------------------------ *)
(** ** storing a candidate *)

Lemma built_now L : times_ok (List.length L - 1) L ->
  incl (List.concat (sels L)) (p_pool P) -> List.length L <= List.length (p_years P) ->
  immediate P -> map built L = sels L.
Proof.
  intros T I Ly [YS Z0]. unfold sels. apply map_ext_in. intros st J. unfold built, st_ints. f_equal.
  apply filter_all. intros [k [b t]] K. simpl. apply negb_true_iff, Z.ltb_ge.
  apply In_nth_error in J as (j & Ej). specialize (T YS j st k b t Ej K).
  assert (j < List.length L) as Lj by (apply nth_error_Some; congruence).
  pose proof (YS j (List.length L - 1) ltac:(lia) ltac:(lia)).
  assert (In (k, b) (p_pool P)) as IP.
  { apply I. apply in_concat. exists (st_ints st). split.
    - unfold sels. apply in_map. eapply nth_error_In; eauto.
    - unfold st_ints, vmap. apply in_map_iff. exists (k, (b, t)). auto. }
  specialize (Z0 _ IP). simpl in Z0. lia.
Qed.

(** What [s'] may change w.r.t. [s] while a candidate is stored. *)
Definition stored (s s' : info) : Prop :=
  Inv s' /\ keeps s s' /\ advance s s' /\ log s' = log s /\ last s' = last s /\
  (pl_paths (inc s') <> []).

Record cand_ready (s : info) (L : list stage) : Prop := {
  cr_cnd : cnd s = cand_of L;
  cr_good : good_cand (log s) L;
  cr_leaf : ends_in_leaf P (nodes L);
  cr_times : times_ok (List.length L - 1) L;
  cr_years : List.length L <= List.length (p_years P) }.

Lemma subseq_map_built L : Forall2 subseq (map built L) (sels L).
Proof. induction L as [|st L IH]; simpl; constructor; auto. apply built_subseq. Qed.

Lemma costs_len L : List.length (costs L) = List.length L.
Proof. apply map_length. Qed.

Lemma append_ok k s L : cand_ready s L -> Inv s -> ok (append_candidate P k) s (fun _ s' => stored s s' /\ complete s' = complete s).
Proof.
  intros [E G Lf T Ly] (R & C & Pt & ER & EC & EP & GR & GC & GP & CV & LG).
  unfold append_candidate. apply ok_get_bind. rewrite E.
  eapply ok_lift_bind; [apply already_built_spec, (gc_nodup _ _ G)|].
  destruct (investment_cost_ok (sels L)) as (iv & Ei & Vi). { unfold sels. now rewrite map_length. }
  eapply ok_lift_bind; [exact Ei|].
  destruct (operation_cost_ok (costs L)) as (o & Eo & Vo). { now rewrite costs_len. }
  eapply ok_lift_bind; [exact Eo|]. apply ok_modify.
  set (r := mkRow (path_of (nodes L)) (path_of (map built L)) iv o).
  assert (good_row (log s) r) as GRr.
  { exists L, (map built L). repeat (split; [first [assumption|reflexivity|apply subseq_map_built|idtac]|]).
    - intros Im. apply built_now; auto. apply (gc_pool _ _ G).
    - right. exact Ei. }
  rewrite ER. pose proof (plan_of_append k r R) as PA. simpl in PA. simpl. rewrite PA.
  split; [|reflexivity]. split; [|split; [repeat split|split; [apply advance_same; reflexivity|]]].
  - exists (l_append k r R), C, Pt. simpl. sp; auto. unfold l_append. rewrite map_app. apply Forall_app. split; [exact GR|]. repeat constructor. exact GRr.
  - sp; auto. simpl. unfold l_append. destruct R; discriminate.
Qed.

Lemma l_set_values {V} k (v : V) R x : In x (map snd (l_set k v R)) -> x = v \/ In x (map snd R).
Proof.
  induction R as [|[a b] R IH]; simpl; [tauto|]. intros [H|H].
  - destruct (String.eqb a k); simpl in H; auto.
  - destruct (IH H); auto.
Qed.

Lemma replace_ok k s L : cand_ready s L -> Inv s -> pl_paths (inc s) <> [] ->
  ok (replace_solution P k) s (fun _ s' => stored s s' /\ complete s' = complete s).
Proof.
  intros [E G Lf T Ly] (R & C & Pt & ER & EC & EP & GR & GC & GP & CV & LG) NE.
  unfold replace_solution. apply ok_get_bind. rewrite E.
  eapply ok_lift_bind; [apply already_built_spec, (gc_nodup _ _ G)|].
  destruct (investment_cost_ok (map built L)) as (iv & Ei & Vi). { now rewrite map_length. }
  eapply ok_lift_bind; [exact Ei|].
  destruct (operation_cost_ok (costs L)) as (o & Eo & Vo). { now rewrite costs_len. }
  eapply ok_lift_bind; [exact Eo|]. apply ok_modify.
  set (r := mkRow (path_of (nodes L)) (path_of (map built L)) iv o).
  assert (good_row (log s) r) as GRr.
  { exists L, (map built L). repeat (split; [first [assumption|reflexivity|apply subseq_map_built|idtac]|]).
    - intros Im. apply built_now; auto. apply (gc_pool _ _ G).
    - left. exact Ei. }
  rewrite ER in *. pose proof (plan_of_set k r R) as PA. simpl in PA. simpl. rewrite PA.
  split; [|reflexivity]. split; [|split; [repeat split|split; [apply advance_same; reflexivity|]]].
  - exists (l_set k r R), C, Pt. simpl. sp; auto.
    rewrite Forall_forall in *. intros x I. apply l_set_values in I as [->|I]; auto.
  - sp; auto. simpl in *. destruct R as [|[a b] R]; simpl in *; congruence.
Qed.

Lemma replace_if_better_ok k s L : cand_ready s L -> Inv s -> In k (map fst (pl_paths (inc s))) ->
  ok (replace_if_better P k) s (fun _ s' => stored s s' /\ complete s' = complete s).
Proof.
  intros CR IV K. pose proof CR as [E G Lf T Ly]. pose proof IV as (R & C & Pt & ER & EC & EP & GR & GC & GP & CV & LG).
  assert (pl_paths (inc s) <> []) as NE by (intros H; rewrite H in K; destruct K).
  unfold replace_if_better. apply ok_get_bind. rewrite E.
  eapply ok_lift_bind; [apply already_built_spec, (gc_nodup _ _ G)|].
  destruct (investment_cost_ok (map built L)) as (iv & Ei & Vi). { now rewrite map_length. }
  eapply ok_lift_bind; [exact Ei|].
  destruct (operation_cost_ok (costs L)) as (o & Eo & Vo). { now rewrite costs_len. }
  eapply ok_lift_bind; [exact Eo|].
  assert (exists r, l_get k R = Some r) as (r & Gr).
  { rewrite ER in K. simpl in K. rewrite map_map in K. simpl in K. destruct (l_get k R) eqn:Q; eauto.
    apply l_get_None in Q. contradiction. }
  eapply ok_lift_bind.
  { rewrite ER. unfold get_cost. simpl. change (map (fun x => (fst x, r_inv (snd x))) R) with (vmap r_inv R).
    rewrite l_get_vmap, Gr. reflexivity. }
  eapply ok_lift_bind.
  { rewrite ER. unfold get_cost. simpl. change (map (fun x => (fst x, r_op (snd x))) R) with (vmap r_op R).
    rewrite l_get_vmap, Gr. reflexivity. }
  destruct (Qgt_bool _ _).
  - apply replace_ok with (L := L); auto.
  - apply ok_ret. split; auto. split; auto. split; [apply keeps_refl|]. split; [apply advance_refl|auto].
Qed.

Lemma remaining_nodes_covers R : remaining_nodes P (pl_paths (plan_of R)) = [] -> covers R.
Proof.
  intros H n I. unfold remaining_nodes in H. simpl in H.
  assert (RM : forall m rem, In n rem -> n <> m -> In n (remove_node m rem)).
  { intros m rem. induction rem as [|x rem IH]; simpl; [tauto|]. intros [->|J] D.
    - destruct (Nat.eqb_spec n m); [congruence|simpl; auto].
    - destruct (Nat.eqb x m); simpl; auto. }
  assert (G1 : forall (p : list (string * node)) rem, In n rem -> ~ In n (map snd p) ->
    In n (fold_left (fun rem it => if existsb (Nat.eqb (snd it)) rem then remove_node (snd it) rem else rem) p rem)).
  { induction p as [|it p IH]; intros rem J D; simpl; auto. simpl in D. assert (n <> snd it) as DN by (intros Q; apply D; auto). apply IH.
    { match goal with |- context [if ?b then _ else _] => destruct b end; auto. } { intros Q; apply D; auto. } }
  assert (G2 : forall (R : list (string * row)) rem, In n rem ->
    (exists r, In r R /\ In n (map snd (r_path (snd r)))) \/
    In n (fold_left (fun rem p => fold_left (fun rem it =>
      if existsb (Nat.eqb (snd it)) rem then remove_node (snd it) rem else rem) (snd p) rem)
      (map (fun x => (fst x, r_path (snd x))) R) rem)).
  { induction R0 as [|r R0 IH]; intros rem J; simpl; auto.
    destruct (in_dec Nat.eq_dec n (map snd (r_path (snd r)))) as [D|D]; [left; exists r; auto|].
    destruct (IH _ (G1 _ _ J D)) as [(r' & A & B)|K]; [left; exists r'; auto|right; exact K]. }
  destruct (G2 R _ I) as [X|X]; [exact X|]. rewrite H in X. destruct X.
Qed.

Lemma Qgt_bool_le a b : Qgt_bool a b = true -> (b <= a)%Q.
Proof.
  unfold Qgt_bool. rewrite negb_true_iff. intros H. destruct (Qlt_le_dec b a) as [L|L]; [now apply Qlt_le_weak|].
  apply Qle_bool_iff in L. congruence.
Qed.

Lemma replacement_ok s : Inv s -> pl_paths (inc s) <> [] -> remaining_nodes P (pl_paths (inc s)) = [] ->
  ok replacement_for_whole_tree s (fun _ s' => stored s s' /\ pl_paths (complete s') <> []).
Proof.
  intros IV NE RN. pose proof IV as (R & C & Pt & ER & EC & EP & GR & GC & GP & CV & LG).
  assert (F : Inv (set_complete (inc s) s)).
  { exists R, R, Pt. simpl. sp; auto. intros _. apply remaining_nodes_covers. now rewrite <- ER. }
  unfold replacement_for_whole_tree. apply ok_get_bind.
  eapply ok_lift_bind; [rewrite EC; apply plan_is_empty_plan_of|].
  destruct (Nat.eqb_spec (List.length C) 0) as [Z|Z].
  - apply ok_modify. split; auto. split; auto. split; [repeat split|]. split; [|sp; auto].
    split; [exists []; simpl; now rewrite List.app_nil_r|].
    intros H. exfalso. apply H. rewrite EC. simpl. destruct C; [reflexivity|discriminate].
  - assert (pl_paths (complete s) <> []) as NC. { rewrite EC. simpl. destruct C; [simpl in Z; congruence|discriminate]. }
    match goal with |- ok (if ?b then _ else _) _ _ => destruct b eqn:B end.
    + apply ok_modify. split; auto. split; auto. split; [repeat split|]. split; [|sp; auto].
      split; [exists []; simpl; now rewrite List.app_nil_r|]. intros _. split; auto. simpl. unfold total_cost.
      now apply Qgt_bool_le.
    + apply ok_ret. split; auto. split; auto. split; [apply keeps_refl|]. split; [apply advance_refl|]. auto.
Qed.

Lemma optimality_nonempty_ok s L : cand_ready s L -> Inv s -> pl_paths (inc s) <> [] ->
  ok (optimality_check_nonempty P) s (fun _ s' => stored s s').
Proof.
  intros CR IV NE. unfold optimality_check_nonempty. apply ok_get_bind. apply ok_bind.
  apply (ok_conseq _ _ (fun _ s' => stored s s')).
  { rewrite (cr_cnd _ _ CR). destruct (find_stored_path _ _) as [k|] eqn:F.
    - eapply ok_conseq; [apply replace_if_better_ok with (L := L); auto|].
      + unfold find_stored_path in F.
        destruct (filter _ (pl_paths (inc s))) as [|it r] eqn:Fi; [discriminate|]. injection F as <-.
        apply in_map. assert (In it (it :: r)) as J by (simpl; auto). rewrite <- Fi in J. now apply filter_In in J.
      + intros _ s' [H _]. exact H.
    - eapply ok_conseq; [apply append_ok with (L := L); auto|]. intros _ s' [H _]. exact H. }
  intros _ s1 (I1 & K1 & A1 & L1 & La1 & N1). apply ok_get_bind.
  destruct (Nat.eqb_spec (List.length (remaining_nodes P (pl_paths (inc s1)))) 0) as [Z|Z].
  - apply ok_modify_bind. eapply ok_conseq; [apply replacement_ok|].
    + destruct I1 as (R & C & Pt & H). exists R, C, Pt. exact H.
    + exact N1.
    + simpl. now apply length_zero_iff_nil.
    + intros _ s2 ((I2 & K2 & A2 & L2 & La2 & N2) & _). split; auto. split; [eapply keeps_trans; eauto|].
      split; [eapply advance_trans; [exact A1|exact A2]|]. simpl in *. repeat split; congruence.
  - apply ok_ret. unfold stored. auto 10.
Qed.

Definition back (s s' : info) (l : list stage) : Prop :=
  cnd s' = cand_of l /\ new s' = new s /\ cur s' = cur s /\ level s' = level s /\ log s' = log s /\
  last s' = last s /\ Inv s' /\ advance s s'.

Lemma optimality_ok s l st : cand_ready s (l ++ [st]) -> Inv s -> level s = Z.of_nat (List.length l) ->
  ok (optimality_check P) s (fun _ s' => back s s' l).
Proof.
  intros CR IV Lv. unfold optimality_check. apply ok_get_bind. apply ok_bind.
  apply (ok_conseq _ _ (fun _ s' => stored s s')).
  { destruct (Nat.eqb_spec (List.length (pl_paths (inc s))) 0) as [Z|Z].
    - eapply ok_conseq; [apply append_ok with (L := l ++ [st]); auto|]. intros _ s' [H _]. exact H.
    - apply optimality_nonempty_ok with (L := l ++ [st]); auto. intros H. apply Z. now rewrite H. }
  intros _ s1 (I1 & K1 & A1 & L1 & La1 & N1). destruct K1 as (K1 & K2 & K3 & K4).
  exists tt. eexists. split.
  - apply (return_spec s1 l st); [rewrite K1; apply (cr_cnd _ _ CR)|congruence].
  - unfold back. simpl. repeat (split; [congruence|]). split.
    + destruct I1 as (R & C & Pt & H). exists R, C, Pt. exact H.
    + eapply advance_trans; [exact A1|]. apply advance_same; reflexivity.
Qed.

(* ------------------------------------------------------------------ *)
(** ** the recursion *)

Record pre (f L : nat) (s : info) (l : list stage) : Prop := {
  pr_deep : deep P f (cur s);
  pr_years : List.length l + f <= List.length (p_years P);
  pr_cnd : cnd s = cand_of l;
  pr_level : level s = Z.of_nat (List.length l);
  pr_path : path_from P root (nodes l ++ [cur s]);
  pr_good : good_cand (log s) l;
  pr_times : times_ok L l;
  pr_cur : l <> [] -> cur s <> 0;
  pr_inv : Inv s }.

Definition exit (s s' : info) (l : list stage) : Prop :=
  exists d, (years_sorted P -> (d <= 0)%Z) /\ cnd s' = cand_of (shift_all d l) /\
  cur s' = cur s /\ Inv s' /\ advance s s'.

Lemma exit_same s s' l : cnd s' = cand_of l -> cur s' = cur s -> Inv s' -> advance s s' -> exit s s' l.
Proof. intros A B C D. exists 0%Z. rewrite shift_0. sp; auto. intros; lia. Qed.

Lemma exit_trans s1 s2 s3 l : exit s1 s2 l ->
  (forall d, cnd s2 = cand_of (shift_all d l) -> exit s2 s3 (shift_all d l)) -> exit s1 s3 l.
Proof.
  intros (d & D & E & C & I & A) H. destruct (H d E) as (d' & D' & E' & C' & I' & A').
  exists (d + d')%Z. rewrite shift_shift in E'. sp; auto.
  - intros YS. specialize (D YS). specialize (D' YS). lia.
  - congruence.
  - eapply advance_trans; eauto.
Qed.

Lemma Inv_ext s s' : inc s' = inc s -> complete s' = complete s -> partial s' = partial s -> log s' = log s ->
  Inv s -> Inv s'.
Proof. intros E1 E2 E3 E4 (R & C & Pt & H). exists R, C, Pt. rewrite E1, E2, E3, E4. exact H. Qed.

Lemma Inv_log s c r : Inv s -> log_ok c -> Inv (set_opf (log s ++ [c]) r s).
Proof.
  intros (R & C & Pt & ER & EC & EP & GR & GC & GP & CV & LG) H. exists R, C, Pt. simpl.
  sp; auto using good_rows_mono. apply Forall_app. auto.
Qed.

Lemma deep_node f n : deep P f n -> In n (p_nodes P).
Proof. destruct f; simpl; tauto. Qed.

Lemma advance_log s l r : advance s (set_opf (log s ++ l) r s).
Proof. split; [exists l; reflexivity|]. intros H. split; auto. apply Qle_refl. Qed.

Lemma linked_app a n b : linked P (a ++ [n]) -> is_edge P n b -> linked P (a ++ [n; b]).
Proof.
  induction a as [|x a IH]; intros H E; [simpl in *; auto|].
  destruct a as [|y a]; [simpl in *; tauto|]. destruct H as [H1 H2]. split; [exact H1|]. exact (IH H2 E).
Qed.

Lemma path_from_app ns n b : path_from P root (ns ++ [n]) -> is_edge P n b -> path_from P root ((ns ++ [n]) ++ [b]).
Proof.
  intros [H1 H2] E. split.
  - destruct ns; simpl in *; auto.
  - rewrite <- app_assoc. simpl. now apply linked_app.
Qed.

(** Node [n] and everything below it were found feasible, with one selection per node,
    after the selections [sel] on the way to [n]. *)
Fixpoint served (f : nat) (h : list opf_call) (sel : list (@items BV)) (n : node) : Prop :=
  match f with
  | O => False
  | S f' => exists c act q chs, ran_feasible P h n act (sel ++ [c]) q /\ successors P n chs /\
              forall m, In m chs -> served f' h (sel ++ [c]) m
  end.

Lemma served_mono f : forall h h' sel n, served f h sel n -> served f (h ++ h') sel n.
Proof.
  induction f as [|f IH]; simpl; [tauto|]. intros h h' sel n (c & act & q & chs & R & S & H).
  exists c, act, q, chs. split; [now apply ran_mono|]. split; auto.
Qed.

Lemma served_advance f s s' sel n : advance s s' -> served f (log s) sel n -> served f (log s') sel n.
Proof. intros [[l ->] _]. apply served_mono. Qed.

Lemma ran_last h n act sel q : p_opf P h n act = (true, q) -> ran_feasible P (h ++ [mkCall n act sel]) n act sel q.
Proof. intros E. exists h, []. auto. Qed.

Definition solve_spec (f : nat) (solve : M bool) : Prop :=
  forall s l, pre f (List.length l - 1) s l ->
    ok solve s (fun b s' => exit s s' l /\ new s' = no_new /\ level s' = (level s - 1)%Z /\
      (b = true -> served f (log s') (sels l) (cur s))).

Definition same_frame (s s' : info) : Prop := cur s' = cur s /\ level s' = level s.

(** Children of a node, given the stage of the node appended to the candidate. *)
Lemma explore_list_ok f solve par chs : forall s l, solve_spec f solve ->
  (forall m, In m chs -> is_edge P par m /\ m <> 0 /\ deep P f m) ->
  l <> [] -> List.length l + f <= List.length (p_years P) -> cnd s = cand_of l ->
  (level s + 1)%Z = Z.of_nat (List.length l) -> path_from P root (nodes l) -> hd_error (rev (nodes l)) = Some par ->
  good_cand (log s) l -> times_ok (List.length l - 1) l -> Inv s ->
  ok (explore_list solve chs) s (fun b s' => exists d, (years_sorted P -> (d <= 0)%Z) /\
     cnd s' = cand_of (shift_all d l) /\ level s' = level s /\ Inv s' /\ advance s s' /\
     (chs = [] -> s' = s) /\ (chs <> [] -> new s' = no_new) /\
     (b = true -> forall m, In m chs -> served f (log s') (sels l) m)).
Proof.
  induction chs as [|m chs IH]; intros s l SS CH NE Ly E Lv PF LP G T IV.
  - apply ok_ret. exists 0%Z. rewrite shift_0. sp; auto; [intros; lia|apply advance_refl|congruence|intros _ m []].
  - simpl. apply ok_modify_bind. apply ok_bind.
    destruct (CH m) as (Em & Nm & Dm); [simpl; auto|].
    set (s1 := set_cur m (set_level (level s + 1)%Z s)).
    assert (pre f (List.length l - 1) s1 l) as PR.
    { split; auto.
      simpl. assert (exists ns, nodes l = ns ++ [par]) as (ns & En).
      { exists (rev (tl (rev (nodes l)))). rewrite <- (rev_involutive (nodes l)) at 1.
        destruct (rev (nodes l)) as [|x r]; [discriminate|]. simpl in *. congruence. }
      rewrite En in *. now apply path_from_app. }
    eapply ok_conseq; [apply (SS s1 l PR)|].
    intros b s2 ((d & D & E2 & C2 & I2 & A2) & N2 & L2 & SV2).
    assert (level s2 = level s) as L2' by (rewrite L2; simpl; lia).
    assert (exists lg, log s2 = log s ++ lg) as (lg & El) by apply A2.
    destruct b.
    + assert (pre2 : ok (explore_list solve chs) s2 (fun b s' => exists d', (years_sorted P -> (d' <= 0)%Z) /\
         cnd s' = cand_of (shift_all d' (shift_all d l)) /\ level s' = level s2 /\ Inv s' /\ advance s2 s' /\
         (chs = [] -> s' = s2) /\ (chs <> [] -> new s' = no_new) /\
         (b = true -> forall m, In m chs -> served f (log s') (sels (shift_all d l)) m))).
      { apply IH; auto.
        - intros m' I'. apply CH. simpl; auto.
        - intros H. apply NE. apply length_zero_iff_nil. rewrite <- (shift_length d l). now rewrite H.
        - now rewrite shift_length.
        - rewrite shift_length. congruence.
        - now rewrite shift_nodes.
        - now rewrite shift_nodes.
        - rewrite El. now apply good_cand_mono, good_cand_shift.
        - rewrite shift_length. now apply times_ok_shift. }
      eapply ok_conseq; [exact pre2|].
      intros b' s3 (d' & D' & E3 & L3 & I3 & A3 & Z3 & N3 & SV3).
      exists (d + d')%Z. rewrite shift_shift in E3. sp; auto.
      * intros YS. specialize (D YS). specialize (D' YS). lia.
      * congruence.
      * eapply advance_trans; [exact A2|exact A3].
      * intros H; discriminate.
      * intros _. destruct chs; [rewrite Z3; auto|apply N3; discriminate].
      * intros Eb m' [<-|I']; [eapply served_advance; [exact A3|now apply SV2]|].
        rewrite shift_sels in SV3. now apply SV3.
    + apply ok_ret. exists d. sp; auto; intros H; discriminate.
Qed.

Lemma exploration_ok f solve s l c : solve_spec f solve -> pre (S f) (List.length l) s l ->
  new s = new_of c -> addable l c ->
  ok (exploration_of_current_solution P solve) s (fun b s' =>
     exit s s' l /\ (new s' = new s \/ new s' = no_new) /\ level s' = level s /\
     (b = true -> served (S f) (log s') (sels l) (cur s))).
Proof.
  intros SS [PD PY PC PL PP PG PT PCu PI] N AD. unfold exploration_of_current_solution.
  pose proof (deep_node _ _ PD) as Dn.
  assert (log_ok (mkCall (cur s) (active_of l c) (sels l ++ [c]))) as LO.
  { eapply log_ok_call; eauto. lia. }
  apply ok_bind. do 2 eexists. split; [apply (check_feasibility_spec s l c); auto; apply (gc_nodup _ _ PG)|].
  pose proof (Inv_log s _ (p_opf P (log s) (cur s) (active_of l c)) PI LO) as IV1.
  destruct (fst (p_opf P (log s) (cur s) (active_of l c))) eqn:F.
  2:{ apply ok_ret. split; [|split; [left; reflexivity|split; [reflexivity|discriminate]]].
      apply exit_same; auto. apply advance_log. }
  apply ok_bind. do 2 eexists. split.
  { apply (construction_spec _ l c (snd (p_opf P (log s) (cur s) (active_of l c)))); auto.
    unfold after_check. simpl. destruct (p_opf P (log s) (cur s) (active_of l c)); simpl in *. congruence. }
  change (cur (after_check s l c)) with (cur s). fold (extend s l c). set (l1 := extend s l c).
  set (s1 := set_cnd (cand_of l1) (after_check s l c)).
  assert (List.length l1 = S (List.length l)) as Len. { unfold l1, extend. rewrite app_length. simpl. lia. }
  destruct PD as (PDn & chs & CHS & CH).
  assert (exists st, l1 = l ++ [st] /\ st_node st = cur s) as (st & El1 & Est). { eexists; split; reflexivity. }
  assert (nodes l1 = nodes l ++ [cur s]) as En. { rewrite El1. unfold nodes. rewrite map_app. simpl. now rewrite Est. }
  apply ok_bind. unfold graph_exploration, exploration_of_successors. apply ok_bind. apply ok_bind. do 2 eexists. split; [reflexivity|].
  apply (ok_lift_bind _ chs).
  { unfold neighbours. simpl. unfold successors in CHS. now rewrite CHS. }
  apply ok_bind. eapply ok_conseq.
  { apply (explore_list_ok f solve (cur s) chs s1 l1); auto.
    - intros m I. destruct (CH m I). split; [exists chs; auto|auto].
    - rewrite El1. intros H. apply app_eq_nil in H as [_ H]. discriminate.
    - lia.
    - simpl. lia.
    - now rewrite En.
    - rewrite En, rev_app_distr. reflexivity.
    - apply extend_good; auto.
    - rewrite Len. replace (S (List.length l) - 1) with (List.length l) by lia. now apply extend_times. }
  intros b s2 (d & D & E2 & L2 & I2 & A2 & Z2 & N2 & SV2).
  apply ok_modify_bind. apply ok_ret. apply ok_get_bind. change (cur s1) with (cur s).
  set (s3 := set_cur (cur s) s2).
  assert (Inv s3) as I3 by (eapply Inv_ext; [..|exact I2]; reflexivity).
  apply ok_bind. apply (ok_conseq _ _ (fun _ s' => Inv s' /\ keeps s3 s' /\ advance s3 s')).
  { match goal with |- ok (if ?b then _ else _) _ _ => destruct b end.
    - eapply ok_conseq; [apply eliminate_ok; auto|]. intros _ s' (? & ? & ? & ?). auto.
    - apply ok_ret. auto using keeps_refl, advance_refl. }
  intros _ s4 (I4 & (K1 & K2 & K3 & K4) & A4). apply ok_ret.
  apply ok_bind. do 2 eexists. split.
  { apply (return_spec s4 (shift_all d l) (shift_stage d st)).
    - rewrite K1. simpl. rewrite E2, El1, shift_app. reflexivity.
    - rewrite K4. simpl. rewrite L2, shift_length. simpl. exact PL. }
  apply ok_ret. split; [|split; [|split]].
  - exists d. simpl. sp; auto.
    apply (advance_trans _ (after_check s l c)); [apply advance_log|]. apply (advance_trans _ s1); [apply advance_same; reflexivity|].
      eapply advance_trans; [exact A2|]. eapply advance_trans; [apply (advance_same _ s3); reflexivity|].
      eapply advance_trans; [exact A4|]. apply advance_same; reflexivity.
  - simpl. rewrite K2. simpl. destruct chs.
    + left. rewrite Z2 by reflexivity. reflexivity.
    + right. apply N2. discriminate.
  - simpl. rewrite K4. simpl. rewrite L2. reflexivity.
  - intros Eb. simpl log. apply (served_advance _ s3); [exact A4|]. simpl log.
    exists c, (active_of l c), (snd (p_opf P (log s) (cur s) (active_of l c))), chs. split; [|split; auto].
    + destruct A2 as [[lg ->] _]. apply ran_mono. simpl. apply ran_last.
      destruct (p_opf P (log s) (cur s) (active_of l c)); simpl in *. congruence.
    + intros m I. specialize (SV2 Eb m I). rewrite El1 in SV2. unfold sels in SV2. rewrite map_app in SV2.
      assert (st_ints st = c) as Esi.
      { assert (l1 = l ++ [mkStage (cur s) (vmap with_time c) (snd (p_opf P (log s) (cur s) (active_of l c)))]) as El2 by reflexivity.
        rewrite El1 in El2. apply app_inj_tail in El2 as [_ ->]. unfold st_ints. simpl. apply vmap_fst_with_time. }
      simpl in SV2. rewrite Esi in SV2. exact SV2.
Qed.

Lemma pre_exit f L s s' l d : pre f L s l -> (years_sorted P -> (d <= 0)%Z) -> cnd s' = cand_of (shift_all d l) ->
  cur s' = cur s -> level s' = level s -> Inv s' -> advance s s' -> pre f L s' (shift_all d l).
Proof.
  intros [PD PY PC PL PP PG PT PCu PI] D E C Lv I [[lg El] _]. split; rewrite ?C, ?shift_length, ?shift_nodes; auto.
  - congruence.
  - rewrite El. now apply good_cand_mono, good_cand_shift.
  - now apply times_ok_shift.
  - intros H. apply PCu. intros ->. apply H. reflexivity.
Qed.

Lemma close_exit f L s s' l : pre f L s l -> exit s s' l -> ok (close_exploration P) s' (fun _ s'' =>
  (exit s s'' l /\ new s'' = new s' /\ level s'' = level s') /\ advance s' s'').
Proof.
  intros PR (d & D & E & C & I & A). destruct f as [|f]; [destruct (pr_deep _ _ _ _ PR)|].
  destruct (pr_deep _ _ _ _ PR) as (_ & chs & CHS & _).
  eapply ok_conseq; [apply (close_ok s' chs); auto; rewrite C; exact CHS|].
  intros _ s2 (I2 & (K1 & K2 & K3 & K4) & A2). split; [|exact A2]. split; [|auto].
  exists d. sp; auto; try congruence. eapply advance_trans; eauto.
Qed.

Lemma handler_ok f solve s l : solve_spec f solve -> pre (S f) (List.length l) s l -> new s = no_new ->
  ok (interventions_handler P solve) s (fun b s' => exit s s' l /\ new s' = no_new /\ level s' = level s /\
    (b = true -> served (S f) (log s') (sels l) (cur s))).
Proof.
  intros SS PR N. unfold interventions_handler. apply ok_get_bind.
  rewrite (available_spec_nil s l); [|apply (pr_cnd _ _ _ _ PR)|exact N|apply (gc_pool _ _ (pr_good _ _ _ _ PR))].
  apply ok_bind. apply (ok_conseq _ _ (fun b s' => exit s s' l /\ new s' = no_new /\ level s' = level s /\
    (b = true -> served (S f) (log s') (sels l) (cur s)))).
  { apply (ok_for_acc_val _ (fun b s' => exit s s' l /\ new s' = no_new /\ level s' = level s /\
      (b = true -> served (S f) (log s') (sels l) (cur s)))).
    - split; [|split; [auto|split; [auto|discriminate]]]. apply exit_same; auto using advance_refl; apply PR.
    - intros c b s1 Ic ((d & D & E & C & I & A) & N1 & L1 & SV1).
      apply all_combinations_spec in Ic as [Sc _].
      assert (addable (shift_all d l) c) as AD.
      { apply addable_shift. eapply addable_sub; [apply (pr_good _ _ _ _ PR)|exact Sc]. }
      pose proof (pre_exit _ _ _ _ _ _ PR D E C L1 I A) as PR1.
      apply ok_bind. do 2 eexists. split; [apply add_new_spec|].
      set (s2 := set_new (new_of c) s1).
      assert (pre (S f) (List.length (shift_all d l)) s2 (shift_all d l)) as PR2.
      { rewrite shift_length. destruct PR1. split; auto. }
      apply ok_bind. eapply ok_conseq; [apply (exploration_ok f solve s2 (shift_all d l) c); auto|].
      intros b' s3 (X3 & N3 & L3 & SV3). apply ok_bind.
      eapply ok_conseq; [apply (close_exit _ _ s2 s3 _ PR2 X3)|].
      intros _ s4 (((d' & D' & E4 & C4 & I4 & A4) & N4 & L4) & A34). apply ok_modify_bind. apply ok_ret.
      split; [|split; [reflexivity|split; [simpl; rewrite L4, L3; exact L1|]]].
      2:{ simpl log. destruct b'; intros Eb.
          - apply (served_advance _ s3); auto. rewrite shift_sels in SV3. simpl cur in SV3. rewrite C in SV3. auto.
          - apply (served_advance _ s3); auto. eapply served_advance; [|apply SV1, Eb].
            apply (advance_trans _ s2); [apply advance_same; reflexivity|]. destruct X3 as (? & _ & _ & _ & _ & X3). exact X3. }
      exists (d + d')%Z. rewrite shift_shift in E4. simpl. sp; auto.
      + intros YS. specialize (D YS). specialize (D' YS). lia.
      + simpl in C4. congruence.
      + eapply advance_trans; [exact A|]. eapply advance_trans; [apply (advance_same _ s2); reflexivity|].
        eapply advance_trans; [exact A4|]. apply advance_same; reflexivity. }
  intros b s1 ((d & D & E & C & I & A) & N1 & L1 & SV1). apply ok_get_bind.
  destruct I as (R & C' & Pt & ER & EC & EP & GR & GC & GP & CV & LG).
  eapply ok_lift_bind; [rewrite EP; apply plan_is_empty_plan_of|].
  apply ok_bind.
  match goal with |- ok (if ?b then _ else _) _ _ => destruct b end.
  - apply ok_modify. apply ok_ret. split; [|auto]. exists d. simpl. sp; auto.
    exists Pt, C', Pt. simpl. sp; auto.
  - apply ok_ret. apply ok_ret. split; [|auto]. exists d. sp; auto. exists R, C', Pt. sp; auto.
Qed.

(* ------------------------------------------------------------------ *)
(** ** leaves *)

(** Trying one selection at a leaf. *)
Lemma leaf_try s l c : is_leaf P (cur s) -> pre 1 (List.length l) s l -> new s = new_of c -> addable l c ->
  ok (let! feasible := check_feasibility P in
      (if feasible then construction_of_solution ;; optimality_check P else ret tt) ;; ret feasible) s
     (fun b s' => cnd s' = cand_of l /\ new s' = new s /\ cur s' = cur s /\ level s' = level s /\ last s' = last s /\
        Inv s' /\ advance s s' /\ (b = true -> served 1 (log s') (sels l) (cur s))).
Proof.
  intros LF [PD PY PC PL PP PG PT PCu PI] N AD.
  pose proof (deep_node _ _ PD) as Dn.
  assert (log_ok (mkCall (cur s) (active_of l c) (sels l ++ [c]))) as LO.
  { eapply log_ok_call; eauto. lia. }
  apply ok_bind. do 2 eexists. split; [apply (check_feasibility_spec s l c); auto; apply (gc_nodup _ _ PG)|].
  pose proof (Inv_log s _ (p_opf P (log s) (cur s) (active_of l c)) PI LO) as IV1.
  destruct (fst (p_opf P (log s) (cur s) (active_of l c))) eqn:F.
  2:{ apply ok_bind. apply ok_ret. apply ok_ret. sp; auto; [apply advance_log|discriminate]. }
  apply ok_bind. apply ok_bind. do 2 eexists. split.
  { apply (construction_spec _ l c (snd (p_opf P (log s) (cur s) (active_of l c)))); auto.
    unfold after_check. simpl. destruct (p_opf P (log s) (cur s) (active_of l c)); simpl in *. congruence. }
  change (cur (after_check s l c)) with (cur s). fold (extend s l c).
  set (s1 := set_cnd (cand_of (extend s l c)) (after_check s l c)).
  eapply ok_conseq.
  { apply (optimality_ok s1 l (mkStage (cur s) (vmap with_time c) (snd (p_opf P (log s) (cur s) (active_of l c))))).
    - split; auto.
      + apply extend_good; auto.
      + exists (cur s). split; auto. unfold nodes. rewrite map_app, rev_app_distr. reflexivity.
      + rewrite app_length. simpl. replace (List.length l + 1 - 1) with (List.length l) by lia. now apply extend_times.
      + rewrite app_length. simpl. lia.
    - eapply Inv_ext; [..|exact IV1]; reflexivity.
    - exact PL. }
  intros _ s2 (B1 & B2 & B3 & B4 & B5 & B6 & B7 & B8). apply ok_ret. simpl in B2, B3, B4, B5, B6. sp; auto.
  2:{ intros _. rewrite B5. exists c, (active_of l c), (snd (p_opf P (log s) (cur s) (active_of l c))), [].
      split; [|split; [exact LF|intros m []]]. apply ran_last.
      destruct (p_opf P (log s) (cur s) (active_of l c)); simpl in *. congruence. }
  apply (advance_trans _ (after_check s l c)); [apply advance_log|]. apply (advance_trans _ s1); [apply advance_same; reflexivity|exact B8].
Qed.

Lemma ok_pair {A B} (m : M A) (g : A -> M unit) (k : A -> M B) s (R : A -> info -> Prop) Q :
  ok (let! f := m in g f ;; ret f) s R -> (forall f s', R f s' -> ok (k f) s' Q) ->
  ok (let! f := m in g f ;; k f) s Q.
Proof.
  intros (f & s' & E & H) K. unfold bind in E. unfold ok, bind. destruct (m s) as [[f0 s0]|]; [|discriminate].
  destruct (g f0 s0) as [[u s1]|]; [|discriminate]. unfold ret in E. injection E as -> ->. apply (K f s' H).
Qed.

Lemma deep_1 f n : deep P f n -> is_leaf P n -> deep P 1 n.
Proof.
  destruct f; simpl; [tauto|]. intros (I & l & S & H) L. split; auto. exists []. split; [exact L|intros m []].
Qed.

Lemma pre_1 f L s l : pre f L s l -> is_leaf P (cur s) -> pre 1 L s l.
Proof.
  intros [PD PY PC PL PP PG PT PCu PI] LF. split; auto.
  - eapply deep_1; eauto.
  - destruct f; [destruct PD|lia].
Qed.

Lemma optimise_last_ok s l : is_leaf P (cur s) -> pre 1 (List.length l) s l -> new s = no_new ->
  ok (optimise_last_node P) s (fun b s' => cnd s' = cand_of l /\ new s' = no_new /\ cur s' = cur s /\ level s' = level s /\
     last s' = last s /\ Inv s' /\ advance s s' /\ (b = true -> served 1 (log s') (sels l) (cur s))).
Proof.
  intros LF PR N. unfold optimise_last_node. apply ok_get_bind.
  eapply ok_lift_bind; [apply (available_year_spec s l); [apply (pr_cnd _ _ _ _ PR)|exact N|apply (gc_pool _ _ (pr_good _ _ _ _ PR))]|].
  apply (ok_for_acc_val _ (fun b s' => cnd s' = cand_of l /\ new s' = no_new /\ cur s' = cur s /\ level s' = level s /\
     last s' = last s /\ Inv s' /\ advance s s' /\ (b = true -> served 1 (log s') (sels l) (cur s)))).
  - sp; auto; try apply PR; [apply advance_refl|discriminate].
  - intros c b s1 Ic (E & N1 & C & L1 & La & I & A & SV).
    apply all_combinations_spec in Ic as [Sc _].
    assert (addable l c) as AD.
    { eapply addable_sub; [apply (pr_good _ _ _ _ PR)|]. eapply subseq_trans; [apply subseq_filter|exact Sc]. }
    assert (pre 1 (List.length l) s1 l) as PR1.
    { rewrite <- (shift_0 l) at 2. eapply (pre_exit _ _ s); eauto; [intros; lia|now rewrite shift_0]. }
    apply ok_bind. do 2 eexists. split; [apply add_new_spec|].
    set (s2 := set_new (new_of c) s1).
    assert (pre 1 (List.length l) s2 l) as PR2. { destruct PR1. split; auto. }
    eapply ok_pair; [apply (leaf_try s2 l c); auto; simpl; now rewrite C|].
    intros b' s3 (H1 & H2 & H3 & H4 & H5 & H6 & H7 & SV'). apply ok_modify_bind. apply ok_ret. simpl cur in *. simpl level in *.
    simpl last in *. simpl log. sp; auto; try congruence.
    2:{ destruct b'; [rewrite C in SV'; auto|]. intros Eb. eapply served_advance; [|apply SV, Eb].
        apply (advance_trans _ s2); [apply advance_same; reflexivity|exact H7]. }
    eapply advance_trans; [exact A|]. apply (advance_trans _ s2); [apply advance_same; reflexivity|].
    eapply advance_trans; [exact H7|]. apply advance_same; reflexivity.
Qed.

(* ------------------------------------------------------------------ *)
(** ** solve *)

Lemma py_index_minus_one : 0 < List.length (p_years P) -> exists y, py_index (p_years P) (-1) = Ok y.
Proof.
  intros H. unfold py_index. cbv zeta.
  assert ((-1 <? 0)%Z = true) as -> by reflexivity.
  destruct (Z.ltb_spec (-1 + Z.of_nat (List.length (p_years P))) 0); [lia|].
  match goal with |- context [nth_error ?a ?b] => destruct (nth_error a b) as [y|] eqn:E end; [now exists y|].
  apply nth_error_None in E. lia.
Qed.

Lemma shift_nil d : shift_all d [] = [].
Proof. reflexivity. Qed.

(** Entering a node: the remaining times are brought to the year of the node. *)
Lemma enter_ok f s l : pre f (List.length l - 1) s l -> new s = no_new ->
  ok (if Nat.eqb (cur s) 0 then ret (-1)%Z
      else let! a := lift (py_index (p_years P) (level s)) in
           let! b := lift (py_index (p_years P) (level s - 1)) in
           update_times (- (a - b)) ;; ret (a - b)%Z) s
     (fun adj s' => s' = set_cnd (cand_of (shift_all (- adj) l)) s /\
        pre f (List.length l) s' (shift_all (- adj) l) /\ (cur s = 0 -> l = []) /\
        (l <> [] -> years_sorted P -> (0 <= adj)%Z)).
Proof.
  intros PR N. pose proof PR as [PD PY PC PL PP PG PT PCu PI].
  assert (1 <= f) as F1 by (destruct f; [destruct PD|lia]).
  assert (FIN : forall d, times_ok (List.length l) (shift_all d l) ->
     pre f (List.length l) (set_cnd (cand_of (shift_all d l)) s) (shift_all d l)).
  { intros d T. split; rewrite ?shift_length, ?shift_nodes; auto.
    - now apply good_cand_shift.
    - intros H. apply PCu. intros ->. apply H. reflexivity. }
  destruct (Nat.eqb_spec (cur s) 0) as [Z|Z].
  - assert (l = []) as -> by (destruct l; auto; exfalso; apply PCu; [discriminate|auto]).
    apply ok_ret. rewrite shift_nil in *.
    split; [rewrite <- PC; now destruct s|]. split; [|split; [auto|congruence]].
    replace s with (set_cnd (cand_of (shift_all 0 [])) s); [|rewrite shift_nil, <- PC; now destruct s].
    apply (FIN 0%Z). intros YS j st k b t E. destruct j; discriminate.
  - rewrite PL. eapply ok_lift_bind; [apply py_index_year; lia|].
    destruct l as [|st l0].
    + destruct py_index_minus_one as (y & Ey); [simpl in PY; lia|].
      eapply ok_lift_bind; [exact Ey|]. apply ok_bind. do 2 eexists.
      split; [apply (update_times_spec _ []); auto; constructor|]. apply ok_ret. rewrite !shift_nil.
      split; [reflexivity|]. split; [|split; [auto|congruence]]. apply (FIN 0%Z). intros YS j st k b t E. destruct j; discriminate.
    + set (l := st :: l0) in *.
      assert (List.length l = S (List.length l0)) as Ll by reflexivity.
      eapply ok_lift_bind.
      { replace (Z.of_nat (List.length l) - 1)%Z with (Z.of_nat (List.length l - 1)) by lia. apply py_index_year. lia. }
      apply ok_bind. do 2 eexists. split; [apply (update_times_spec _ l); auto; apply (gc_nodup _ _ PG)|].
      apply ok_ret. split; [reflexivity|]. split; [|split; [intros; contradiction|]].
      * apply FIN. now apply times_ok_next.
      * intros _ YS. pose proof (YS (List.length l - 1) (List.length l) ltac:(lia) ltac:(lia)). lia.
Qed.

Lemma solve_body_ok f solve : solve_spec f solve -> solve_spec (S f) (solve_body P solve).
Proof.
  intros SS s l PR. unfold solve_body. apply ok_modify_bind. apply ok_get_bind.
  set (s0 := set_new no_new s).
  assert (pre (S f) (List.length l - 1) s0 l) as PR0. { destruct PR. split; auto. }
  apply ok_bind. eapply ok_conseq; [apply (enter_ok _ _ _ PR0 eq_refl)|].
  intros adj s1 (E1 & PR1 & Z1 & AD).
  destruct (pr_deep _ _ _ _ PR1) as (_ & chs & CHS & CH).
  assert (cur s1 = cur s /\ level s1 = level s /\ new s1 = no_new /\ log s1 = log s /\ complete s1 = complete s) as (C1 & L1 & N1 & G1 & M1)
    by (rewrite E1; auto).
  assert (advance s s1) as A1 by (apply advance_same; auto).
  apply (ok_lift_bind _ chs).
  { unfold neighbours. change (cur s0) with (cur s). rewrite <- C1. unfold successors in CHS. now rewrite CHS. }
  destruct chs as [|ch chs].
  - apply ok_modify_bind. set (s2 := set_last true s1).
    assert (pre 1 (List.length (shift_all (- adj) l)) s2 (shift_all (- adj) l)) as PR2.
    { rewrite shift_length. apply pre_1 with (f := S f); [|exact CHS]. destruct PR1. split; auto. }
    eapply ok_pair.
    { apply (leaf_try s2 (shift_all (- adj) l) []); auto. apply addable_nil. apply (gc_nodup _ _ (pr_good _ _ _ _ PR2)). }
    intros b s3 (H1 & H2 & H3 & H4 & H5 & H6 & H7 & SV3).
    assert (pre 1 (List.length (shift_all (- adj) l)) s3 (shift_all (- adj) l)) as PR3.
    { rewrite <- (shift_0 (shift_all (- adj) l)) at 2. eapply (pre_exit _ _ s2); eauto; [intros; lia|now rewrite shift_0]. }
    apply ok_bind. eapply ok_conseq; [apply (optimise_last_ok s3 (shift_all (- adj) l))|]; auto.
    { rewrite H3. exact CHS. }
    { rewrite H2. exact N1. }
    intros b' s4 (J1 & J2 & J3 & J4 & J5 & J6 & J7 & SV4). apply ok_modify_bind. apply ok_ret.
    split; [|split; [|split]].
    + exists (if match l with [] => true | _ => false end then 0%Z else (- adj)%Z).
      assert (advance s s4) as A4.
      { apply (advance_trans _ s1); auto. apply (advance_trans _ s2); [apply advance_same; reflexivity|].
        eapply advance_trans; eauto. }
      destruct l as [|st l0]; simpl in *; sp; auto; try congruence; try (intros; lia).
      intros YS. specialize (AD ltac:(discriminate) YS). lia.
    + simpl. exact J2.
    + simpl. rewrite J4, H4. simpl. now rewrite L1.
    + rewrite !shift_sels in *. simpl log. simpl cur in SV3. intros Eb.
      enough (served 1 (log s4) (sels l) (cur s)) as SV.
      { destruct SV as (c & act & q & chs & R & S & H). assert (chs = []) as ->.
        { unfold successors in *. rewrite C1 in CHS. congruence. }
        exists c, act, q, []. split; [exact R|]. split; [exact S|]. intros m []. }
      destruct b; [|specialize (SV4 Eb); rewrite H3 in SV4; simpl cur in SV4; rewrite C1 in SV4; exact SV4].
      eapply served_advance; [exact J7|]. rewrite C1 in SV3. auto.
  - assert (PR2 : pre (S f) (List.length (shift_all (- adj) l)) s1 (shift_all (- adj) l)) by now rewrite shift_length.
    apply ok_bind. eapply ok_conseq.
    { apply (exploration_ok f solve s1 (shift_all (- adj) l) []); auto.
      apply addable_nil. apply (gc_nodup _ _ (pr_good _ _ _ _ PR2)). }
    intros b s2 (X2 & N2 & L2 & _).
    apply ok_bind. eapply ok_conseq; [apply (close_exit _ _ s1 s2 _ PR2 X2)|].
    intros _ s3 (((d & D & E3 & C3 & I3 & A3) & N3 & L3) & _).
    assert (new s3 = no_new) as N3'. { rewrite N3. destruct N2 as [->| ->]; auto. }
    pose proof (pre_exit _ _ _ _ _ _ PR2 D E3 C3 ltac:(congruence) I3 A3) as PR3.
    rewrite <- (shift_length d) in PR3.
    apply ok_bind. eapply ok_conseq; [apply (handler_ok f solve s3 _ SS PR3 N3')|].
    intros b' s4 ((d' & D' & E4 & C4 & I4 & A4) & N4 & L4 & SV4). apply ok_get_bind.
    assert (advance s s4) as As.
    { eapply advance_trans; [exact A1|]. eapply advance_trans; [exact A3|exact A4]. }
    rewrite !shift_shift in E4.
    assert (NoDup (map fst (List.concat (sels (shift_all (- adj + (d + d')) l))))) as ND.
    { rewrite shift_sels. apply (gc_nodup _ _ (pr_good _ _ _ _ PR)). }
    assert (DD : years_sorted P -> (d + d' <= 0)%Z). { intros YS. specialize (D YS). specialize (D' YS). lia. }
    replace (- adj + d + d')%Z with (- adj + (d + d'))%Z in E4 by lia.
    apply ok_bind.
    apply (ok_conseq _ _ (fun _ s' => s' = set_cnd (cand_of (shift_all (d + d') l)) s4)).
    { destruct (Nat.eqb_spec (cur s4) 0) as [Z|Z].
      - apply ok_ret. assert (l = []) as ->. { apply Z1. change (cur s0) with (cur s). congruence. }
        rewrite shift_nil in *. rewrite <- E4. now destruct s4.
      - do 2 eexists. split; [apply (update_times_spec _ (shift_all (- adj + (d + d')) l)); auto|].
        simpl. f_equal. rewrite shift_shift. f_equal. f_equal. lia. }
    intros _ s5 ->. apply ok_modify_bind. apply ok_ret. split; [|split; [|split]].
    + exists (d + d')%Z. simpl. sp; auto. congruence.
    + simpl. exact N4.
    + simpl. congruence.
    + simpl log. intros Eb. specialize (SV4 Eb). rewrite !shift_sels, C3, C1 in SV4. exact SV4.
Qed.

Theorem solve_correct f : solve_spec f (solve P f).
Proof.
  induction f as [|f IH]; intros s l PR.
  - destruct (pr_deep _ _ _ _ PR).
  - simpl. apply (solve_body_ok f _ IH s l PR).
Qed.
End Inv.
