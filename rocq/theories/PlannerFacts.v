(** Consequences of the search invariant, in the form used by the property theorems. *)
From Coq Require Import List String Bool ZArith QArith Arith Lia Permutation Sorted.
From Verif Require Import Base Container ContainerSpec ContainerProofs Planner PlannerSpec PlannerRows PlannerProofs PlannerInv PlannerMain PlannerLeaf.
Import ListNotations.
Open Scope nat_scope.
Open Scope list_scope.

Local Ltac sp := repeat match goal with |- _ /\ _ => split end.

(** The searches a theorem speaks about: [solve] called on a state whose candidate is a
    path from [root] to the father of the current node. *)
Definition call P root f s l := NoDup (map fst (p_pool P)) /\ ~ (1 - p_rate P / 100 == 0)%Q /\
  p_nonant P = true /\ pre P root f (List.length l - 1) s l.

Lemma call_start P f root : well_formed P f root -> call P root f (start root) [].
Proof. intros W. pose proof (pre_start _ _ _ W). destruct W as (D & L & R & N & NA). split; auto. Qed.

Lemma call_ok P root f s l : call P root f s l ->
  exists b s', solve P f s = Ok (b, s') /\ exit P root s s' l /\ new s' = no_new /\ level s' = (level s - 1)%Z /\
    (b = true -> served P f (log s') (sels l) (cur s)).
Proof.
  intros (N & R & NA & PR). destruct (solve_correct P root N R NA f s l PR) as (b & s' & E & X & Nw & Lv & Sv).
  exists b, s'. auto.
Qed.

(** Row [r] is stored in one of the three tables of plans. *)
Definition stored_row (s : info) (k : string) (r : row) : Prop :=
  exists R, (inc s = plan_of R \/ partial s = plan_of R \/ complete s = plan_of R) /\ In (k, r) R.

Lemma plan_of_inj R R' : plan_of R = plan_of R' -> R = R'.
Proof.
  unfold plan_of. intros E. injection E as E1 E2 E3 E4. revert R' E1 E2 E3 E4.
  induction R as [|[k [a b c d]] R IH]; intros [|[k' [a' b' c' d']] R'] E1 E2 E3 E4; simpl in *; try discriminate; auto.
  injection E1 as -> -> E1. injection E2 as -> E2. injection E3 as -> E3. injection E4 as -> E4.
  f_equal. now apply IH.
Qed.

Lemma stored_good P root s k r : Inv P root s -> stored_row s k r -> good_row P root (log s) r.
Proof.
  intros (R & C & Pt & ER & EC & EP & GR & GC & GP & _) (R0 & [E|[E|E]] & I).
  - rewrite ER in E. apply plan_of_inj in E. subst R0. rewrite Forall_forall in GR. apply GR. now apply (in_map snd) in I.
  - rewrite EP in E. apply plan_of_inj in E. subst R0. rewrite Forall_forall in GP. apply GP. now apply (in_map snd) in I.
  - rewrite EC in E. apply plan_of_inj in E. subst R0. rewrite Forall_forall in GC. apply GC. now apply (in_map snd) in I.
Qed.

Lemma Inv_log_ok P root s c : Inv P root s -> In c (log s) -> log_ok P c.
Proof. intros (R & C & Pt & ER & EC & EP & GR & GC & GP & CV & LG) I. rewrite Forall_forall in LG. auto. Qed.

Lemma good_row_paths P root h r : good_row P root h r ->
  exists ns, r_path r = path_of ns /\ path_from P root ns /\ ends_in_leaf P ns.
Proof.
  intros (l & bl & G & LF & Ep & _). exists (nodes l). sp; auto.
  destruct (gc_path _ _ _ _ G) as [->|H]; auto. destruct LF as (a & H & _). discriminate.
Qed.

Lemma ran_log_ok P root s n act sel q : Inv P root s -> immediate P -> ran_feasible P (log s) n act sel q ->
  act = map snd (List.concat sel).
Proof.
  intros I IM (a & b & E & O). assert (In (mkCall n act sel) (log s)) as J.
  { rewrite E. apply in_app_iff. simpl. auto. }
  exact (lo_imm _ _ (Inv_log_ok _ _ _ _ I J) IM).
Qed.

Lemma good_row_feasible P root s r : Inv P root s -> immediate P -> good_row P root (log s) r ->
  exists ns sel, r_path r = path_of ns /\ r_int r = path_of sel /\ List.length sel = List.length ns /\
    forall j n, nth_error ns j = Some n ->
      exists q, ran_feasible P (log s) n (map snd (List.concat (firstn (S j) sel))) (firstn (S j) sel) q.
Proof.
  intros I IM (l & bl & G & LF & Ep & Ei & F2 & IB & _). specialize (IB IM). subst bl.
  exists (nodes l), (sels l). sp; auto.
  - unfold nodes, sels. now rewrite !map_length.
  - intros j n E. unfold nodes in E. rewrite nth_error_map in E. destruct (nth_error l j) as [st|] eqn:Es; [|discriminate].
    injection E as <-. destruct (gc_ran _ _ _ _ G j st Es) as (act & R). exists (st_cost st).
    now rewrite <- (ran_log_ok _ _ _ _ _ _ _ I IM R).
Qed.

Lemma good_row_operation P root s r : ~ (1 - p_rate P / 100 == 0)%Q ->
  good_row P root (log s) r -> (forall ns, path_from P root ns -> ends_in_leaf P ns -> List.length ns <= List.length (p_years P)) ->
  exists ns sel qs, r_path r = path_of ns /\ List.length qs = List.length ns /\ List.length sel = List.length ns /\
    (forall j n q, nth_error ns j = Some n -> nth_error qs j = Some q ->
      exists act, ran_feasible P (log s) n act (firstn (S j) sel) q) /\
    (r_op r == discounted P (map (fun q => q * 365) qs))%Q /\
    (immediate P -> r_int r = path_of sel /\ r_inv r == discounted P (map stage_cost sel))%Q.
Proof.
  intros RT (l & bl & G & LF & Ep & Ei & F2 & IB & Eo & Ev) LEN.
  assert (PF : path_from P root (nodes l)).
  { destruct (gc_path _ _ _ _ G) as [->|H]; auto. destruct LF as (a & H & _). discriminate. }
  specialize (LEN _ PF LF). assert (List.length (nodes l) = List.length l) as NL by apply map_length.
  exists (nodes l), (sels l), (map st_cost l). sp; auto.
  - now rewrite map_length.
  - unfold sels. now rewrite map_length.
  - intros j n q E E'. unfold nodes in E. rewrite nth_error_map in E, E'. destruct (nth_error l j) as [st|] eqn:Es; [|discriminate].
    injection E as <-. injection E' as <-. exact (gc_ran _ _ _ _ G j st Es).
  - destruct (operation_cost_ok P RT (costs l)) as (o & Eo' & Vo). { rewrite costs_len. lia. }
    rewrite Eo in Eo'. injection Eo' as ->. rewrite Vo. unfold costs. rewrite map_map. reflexivity.
  - intros IM. specialize (IB IM). subst bl. split; auto.
    destruct (investment_cost_ok P RT (sels l)) as (o & Ei' & Vi). { unfold sels. rewrite map_length. lia. }
    assert (investment_cost P (path_of (sels l)) = Ok (r_inv r)) as Ev' by tauto.
    rewrite Ev' in Ei'. injection Ei' as ->. exact Vi.
Qed.

(** Paths of a tree of depth [f] have at most [f] nodes. *)
Lemma linked_deep P : forall f n ns, deep P f n -> linked P (n :: ns) -> List.length (n :: ns) <= f.
Proof.
  induction f as [|f IH]; intros n ns D L; [destruct D|].
  destruct ns as [|m ns]; [simpl; lia|]. destruct L as ((chs & S & I) & L). destruct D as (_ & l & S' & H).
  unfold successors in *. rewrite S in S'. injection S' as <-. specialize (IH m ns (proj2 (H m I)) L). simpl in *. lia.
Qed.

Lemma path_length P f root ns : deep P f root -> path_from P root ns -> List.length ns <= f.
Proof. intros D [H L]. destruct ns as [|n ns]; [simpl; lia|]. injection H as ->. now apply (linked_deep P). Qed.

(** Stored selections use no intervention twice. *)
Lemma Forall2_subseq_concat {A} (a b : list (list A)) : Forall2 subseq a b -> subseq (List.concat a) (List.concat b).
Proof.
  induction 1 as [|x y a b H F IH]; simpl; [constructor|].
  induction H; simpl; auto using sub_skip, sub_take.
Qed.

Lemma good_row_once P root h r : good_row P root h r ->
  NoDup (map fst (List.concat (map snd (r_int r)))) /\ incl (List.concat (map snd (r_int r))) (p_pool P).
Proof.
  intros (l & bl & G & LF & Ep & Ei & F2 & _). rewrite Ei, path_of_map_snd. apply Forall2_subseq_concat in F2. split.
  - eapply subseq_NoDup; [apply subseq_map, F2|]. apply (gc_nodup _ _ _ _ G).
  - intros x I. apply (gc_pool _ _ _ _ G). now apply (subseq_incl _ _ F2).
Qed.

Lemma subseq_filter_eq {A} (f : A -> bool) l : subseq (filter f l) l.
Proof. apply subseq_filter. Qed.

Lemma available_exact P s : NoDup (map fst (p_pool P)) ->
  incl (List.concat (map snd (c_int (cnd s)))) (p_pool P) -> incl (n_int (new s)) (p_pool P) ->
  subseq (available P s) (p_pool P) /\
  forall it, In it (available P s) <-> In it (p_pool P) /\ ~ In it (List.concat (map snd (c_int (cnd s))) ++ n_int (new s)).
Proof.
  intros N I1 I2. rewrite available_general; auto. split; [apply subseq_filter|].
  intros it. rewrite filter_In. unfold unused. rewrite negb_true_iff. split; intros [I J]; split; auto.
  - intros K. assert (str_in (fst it) (map fst (List.concat (map snd (c_int (cnd s))) ++ n_int (new s))) = true); [|congruence].
    apply str_in_spec. now apply in_map.
  - apply not_true_is_false. intros K. apply str_in_spec in K. apply in_map_iff in K as (it' & E & K).
    assert (it' = it) as ->; [|auto].
    assert (In it' (p_pool P)) as I' by (apply in_app_iff in K as [K|K]; auto).
    destruct it as [k b], it' as [k' b']. simpl in E. subst k'.
    pose proof (l_get_nodup_In k b (p_pool P) N I). pose proof (l_get_nodup_In k b' (p_pool P) N I'). congruence.
Qed.

(** Combinations come size by size. *)
Lemma combinations_by_size {A} (l : list A) : StronglySorted (fun a b => List.length a <= List.length b) (all_combinations l).
Proof.
  unfold all_combinations.
  assert (G : forall n i, (forall c, In c (flat_map (combinations l) (seq i n)) -> i <= List.length c) /\
     StronglySorted (fun a b => List.length a <= List.length b) (flat_map (combinations l) (seq i n))).
  { induction n as [|n IH]; intros i; simpl; [split; [intros c []|constructor]|].
    destruct (IH (S i)) as [I1 I2].
    assert (H : forall c, In c (combinations l i) -> List.length c = i) by (intros c I; now apply combinations_spec in I).
    split.
    - intros c I. apply in_app_iff in I as [I|I]; [rewrite (H c I); lia|]. specialize (I1 c I). lia.
    - induction (combinations l i) as [|c L IHL]; simpl; auto.
      constructor; [apply IHL; intros; apply H; simpl; auto|].
      apply Forall_forall. intros d I. rewrite (H c) by (simpl; auto).
      apply in_app_iff in I as [I|I]; [rewrite (H d); simpl; auto|]. specialize (I1 d I). lia. }
  apply G.
Qed.

(** Keys of the four columns agree. *)
Definition aligned (p : plan) : Prop :=
  map fst (pl_int p) = map fst (pl_paths p) /\ map fst (pl_inv p) = map fst (pl_paths p) /\ map fst (pl_op p) = map fst (pl_paths p).

Lemma plan_of_aligned R : aligned (plan_of R).
Proof. unfold aligned, plan_of. simpl. rewrite !map_map. auto. Qed.

Lemma Inv_aligned P root s : Inv P root s -> aligned (inc s) /\ aligned (partial s) /\ aligned (complete s).
Proof. intros (R & C & Pt & -> & -> & -> & _). sp; apply plan_of_aligned. Qed.

Lemma Inv_covers P root s : Inv P root s -> pl_paths (complete s) <> [] ->
  forall n, In n (p_nodes P) -> exists k path, In (k, path) (pl_paths (complete s)) /\ In n (map snd path).
Proof.
  intros (R & C & Pt & ER & EC & EP & GR & GC & GP & CV & LG) NE n I. rewrite EC in *.
  destruct CV with (n := n) as ([k r] & J & K); auto. { intros ->. apply NE. reflexivity. }
  exists k, (r_path r). split; auto. unfold plan_of. simpl. change (k, r_path r) with ((fun x : string * row => (fst x, r_path (snd x))) (k, r)).
  now apply in_map.
Qed.

(** Leaf decisions when the OPF does not depend on what was run before. *)
Lemma leaf_optimal P root f s l c q :
  immediate P -> (forall h h' n a, p_opf P h n a = p_opf P h' n a) ->
  call P root (S f) s l -> is_leaf P (cur s) -> inc s = empty_plan ->
  subseq c (filter (unused (List.concat (sels l))) (p_pool P)) ->
  p_opf P [] (cur s) (map snd (List.concat (sels l ++ [c]))) = (true, q) ->
  exists b s' r, solve P (S f) s = Ok (b, s') /\ inc s' = plan_of [("0"%string, r)] /\
    r_path r = path_of (nodes l ++ [cur s]) /\
    (r_inv r + r_op r <= discounted P (map stage_cost (sels l ++ [c])) + discounted P (costs l ++ [q * 365]))%Q.
Proof.
  intros IM HI (N & R & NA & PR) LF E0 SC O.
  destruct (leaf_tried P root N R NA IM f s l LF PR E0) as (b & s' & E & calls & bnd & EL & ES & EN & SG & BD & _).
  destruct (solve_correct P root N R NA (S f) s l PR) as (b2 & s2 & E2 & (d & _ & _ & _ & IV & _) & _).
  rewrite E in E2. injection E2 as <- <-.
  assert (In c ([] :: all_combinations (filter (unused (List.concat (sels l))) (p_pool P)))) as IC.
  { destruct c as [|x c]; [now left|right]. apply all_combinations_spec. split; [exact SC|discriminate]. }
  assert (In (sels l ++ [c]) (map oc_selected calls)) as I1.
  { rewrite ES. apply (in_map (fun c => sels l ++ [c])). exact IC. }
  apply in_map_iff in I1 as (cl & Ecl & Icl). apply in_split in Icl as (h1 & h2 & Eh).
  assert (oc_active cl = map snd (List.concat (sels l ++ [c]))) as Ea.
  { rewrite <- Ecl. apply (lo_imm P cl); auto. apply (Inv_log_ok P root s'); auto. rewrite EL, Eh. apply in_app_iff. right. apply in_app_iff. right. now left. }
  destruct (BD h1 cl h2 q Eh) as (bq & -> & Le).
  { rewrite Ea. rewrite (HI _ []). exact O. }
  destruct SG as (r & Er & Ep & Lr). exists b, s', r. sp; auto.
  eapply Qle_trans; [exact Lr|]. rewrite Ecl in Le. exact Le.
Qed.

(** Rows of the pool, group by group, entry by entry. *)
Lemma group_rows_nth g i : nth_error (group_rows g) i =
  match nth_error (g_costs g) i, nth_error (g_positions g) i, nth_error (g_times g) i, nth_error (g_caps g) i with
  | Some c, Some p, Some t, Some q => Some (mkBV "" c p (g_type g) (g_name g) t q)
  | _, _, _, _ => None
  end.
Proof.
  unfold group_rows. rewrite nth_error_map, zip4_nth.
  repeat (match goal with |- context [nth_error ?l i] => destruct (nth_error l i) end; try reflexivity).
Qed.

Lemma pool_numbered groups :
  map fst (create_pool groups) = map str_nat (seq 0 (List.length (create_pool groups))) /\
  NoDup (map fst (create_pool groups)) /\
  exists per_group, map snd (create_pool groups) = List.concat per_group /\
    Forall2 (fun g rows => List.length rows = Nat.min (Nat.min (List.length (g_costs g)) (List.length (g_positions g)))
                                               (Nat.min (List.length (g_times g)) (List.length (g_caps g))) /\
       forall i b, nth_error rows i = Some b <->
         exists c p t q, nth_error (g_costs g) i = Some c /\ nth_error (g_positions g) i = Some p /\
           nth_error (g_times g) i = Some t /\ nth_error (g_caps g) i = Some q /\
           b = mkBV "" c p (g_type g) (g_name g) t q) groups per_group.
Proof.
  rewrite create_pool_spec. sp.
  - rewrite path_of_keys. f_equal. f_equal. symmetry. rewrite <- (map_length snd). now rewrite path_of_map_snd.
  - apply path_of_keys_NoDup.
  - exists (map group_rows groups). split; [rewrite path_of_map_snd; apply flat_map_concat_map|].
    induction groups as [|g G IH]; simpl; constructor; auto. split.
    + unfold group_rows. now rewrite map_length, zip4_length.
    + intros i b. rewrite group_rows_nth. split.
      * intros E. destruct (nth_error (g_costs g) i), (nth_error (g_positions g) i), (nth_error (g_times g) i), (nth_error (g_caps g) i); try discriminate.
        injection E as <-. do 4 eexists. sp; eauto.
      * intros (c & p & t & q & -> & -> & -> & -> & ->). reflexivity.
Qed.

Lemma elimination_exact s R Pt ns : inc s = plan_of R -> partial s = plan_of Pt -> NoDup (map fst R) ->
  c_path (cnd s) = path_of ns ->
  exists s' R' keep, eliminate_offsprings s = Ok (tt, s') /\ inc s' = plan_of R' /\
    Permutation (map snd R') (map snd keep) /\ subseq keep R /\
    (forall x m, In x R -> r_path (snd x) = path_of m -> (In x keep <-> ~ is_prefix ns m)) /\
    complete s' = complete s /\ (R' = [] -> last s = false -> allow s' = false) /\ (R' <> [] \/ last s = true -> allow s' = allow s).
Proof.
  intros E1 E2 N Ec. destruct (eliminate_exact s R Pt E1 E2 N) as (s' & R' & E & Ei & Pm & _ & _ & Ecp & _ & _ & _ & _ & _ & Al).
  exists s', R', (filter (fun x => negb (path_in (c_path (cnd s)) (r_path (snd x)))) R).
  sp; auto; [apply subseq_filter| |intros -> Hl; rewrite Al, Hl; reflexivity|].
  2:{ intros H. rewrite Al. destruct R'; [|reflexivity]. destruct H as [H|H]; [congruence|]. now rewrite H. }
  intros x m I Em. rewrite filter_In, Em, Ec. unfold path_in. rewrite negb_true_iff.
  rewrite <- (path_contains_prefix Nat.eqb Nat.eqb_eq ns m). destruct (compare_lists _ _ _); split; intros; try tauto; try split; auto; try congruence.
  destruct H as [_ H]. discriminate.
Qed.
