(** Consequences of the search invariant, enumeration of combinations, pool numbering,
    elimination, leaves. *)
From Coq Require Import List String Bool ZArith QArith Arith Lia Permutation.
From Verif Require Import Base Container ContainerSpec ContainerProofs Planner PlannerSpec PlannerRows PlannerProofs PlannerInv.
Import ListNotations.
Open Scope nat_scope.
Open Scope list_scope.

(** GeneralManager.py:18-33 with another start node. *)
Definition start (root : node) : info := set_cur root initial_info.

(* ------------------------------------------------------------------ *)
(** ** the recursion bound is immaterial *)

Definition extends_run {A} (m m' : M A) : Prop := forall s r, m s = Ok r -> m' s = Ok r.

Lemma ext_refl {A} (m : M A) : extends_run m m.
Proof. intros s r H; exact H. Qed.

Lemma ext_bind {A B} (m m' : M A) (k k' : A -> M B) :
  extends_run m m' -> (forall a, extends_run (k a) (k' a)) -> extends_run (bind m k) (bind m' k').
Proof.
  intros H K s r E. unfold bind in *. destruct (m s) as [[a s']|] eqn:Em; [|discriminate].
  rewrite (H _ _ Em). now apply K.
Qed.

Lemma ext_if {A} (b : bool) (m m' n n' : M A) : extends_run m m' -> extends_run n n' ->
  extends_run (if b then m else n) (if b then m' else n').
Proof. destruct b; auto. Qed.

Lemma ext_for_acc {A B} (l : list A) (body body' : B -> A -> M B) : (forall b a, extends_run (body b a) (body' b a)) ->
  forall b, extends_run (for_acc l b body) (for_acc l b body').
Proof. intros H. induction l as [|a l IH]; intros b; simpl; [apply ext_refl|]. apply ext_bind; auto. Qed.

Lemma ext_explore_list (sv sv' : M bool) l : extends_run sv sv' -> extends_run (explore_list sv l) (explore_list sv' l).
Proof.
  intros H. induction l as [|n l IH]; simpl; [apply ext_refl|].
  apply ext_bind; [apply ext_refl|]. intros _. apply ext_bind; auto. intros b. apply ext_if; auto. apply ext_refl.
Qed.

Lemma ext_exploration P (sv sv' : M bool) : extends_run sv sv' ->
  extends_run (exploration_of_current_solution P sv) (exploration_of_current_solution P sv').
Proof.
  intros H. unfold exploration_of_current_solution, graph_exploration, exploration_of_successors.
  apply ext_bind; [apply ext_refl|]. intros b. apply ext_if; [|apply ext_refl].
  apply ext_bind; [apply ext_refl|]. intros _. apply ext_bind; [|intros; apply ext_refl].
  apply ext_bind; [|intros; apply ext_refl]. apply ext_bind; [apply ext_refl|]. intros s.
  apply ext_bind; [apply ext_refl|]. intros l. apply ext_bind; [|intros; apply ext_refl].
  now apply ext_explore_list.
Qed.

Lemma ext_solve_body P (sv sv' : M bool) : extends_run sv sv' -> extends_run (solve_body P sv) (solve_body P sv').
Proof.
  intros H. unfold solve_body. apply ext_bind; [apply ext_refl|]. intros _.
  apply ext_bind; [apply ext_refl|]. intros s. apply ext_bind; [apply ext_refl|]. intros adj.
  apply ext_bind; [apply ext_refl|]. intros [|c l]; [apply ext_refl|].
  apply ext_bind; [now apply ext_exploration|]. intros _. apply ext_bind; [apply ext_refl|]. intros _.
  apply ext_bind; [|intros; apply ext_refl].
  unfold interventions_handler. apply ext_bind; [apply ext_refl|]. intros s1.
  apply ext_bind; [|intros; apply ext_refl]. apply ext_for_acc. intros b a.
  apply ext_bind; [apply ext_refl|]. intros _. apply ext_bind; [now apply ext_exploration|]. intros; apply ext_refl.
Qed.

Lemma solve_mono P f : forall g, f <= g -> extends_run (solve P f) (solve P g).
Proof.
  induction f as [|f IH]; intros g L; [intros s r H; discriminate|].
  destruct g as [|g]; [lia|]. simpl. apply ext_solve_body. apply IH. lia.
Qed.

(* ------------------------------------------------------------------ *)
(** ** whole runs *)

Lemma Inv_initial P root n : Inv P root (set_cur n initial_info).
Proof.
  exists [], [], []. simpl. repeat match goal with |- _ /\ _ => split end; auto; try (intros H; congruence); constructor.
Qed.

Lemma pre_start P f root : well_formed P f root -> pre P root f 0 (start root) [].
Proof.
  intros (D & L & _). split; simpl; auto.
  - split; simpl; auto.
  - split; simpl; auto using incl_nil_l; [constructor|]. intros j st E. destruct j; discriminate.
  - intros YS j st k b t E. destruct j; discriminate.
  - apply Inv_initial.
Qed.

Lemma run_ok P f root : well_formed P f root -> exists b s,
  solve P f (start root) = Ok (b, s) /\ Inv P root s /\ new s = no_new /\ level s = (-1)%Z /\ cur s = root /\
  cnd s = cnd (start root).
Proof.
  intros W. pose proof (pre_start _ _ _ W) as PR. destruct W as (D & L & R & N & NA).
  destruct (solve_correct P root N R NA f (start root) [] PR) as (b & s & E & (d & _ & Ec & Cu & I & _) & Nw & Lv & Sv).
  exists b, s. repeat match goal with |- _ /\ _ => split end; auto.
Qed.

(* ------------------------------------------------------------------ *)
(** ** combinations *)

Lemma NoDup_map_inj {A B} (f : A -> B) l : (forall x y, f x = f y -> x = y) -> NoDup l -> NoDup (map f l).
Proof.
  intros H N. induction N; simpl; constructor; auto. intros I. apply in_map_iff in I as (y & E & I).
  apply H in E. now subst.
Qed.

Lemma combinations_NoDup {A} (l : list A) : NoDup l -> forall r, NoDup (combinations l r).
Proof.
  induction l as [|x l IH]; intros N [|r]; simpl; try (repeat constructor; simpl; tauto).
  inversion N; subst. apply NoDup_app_join.
  - apply NoDup_map_inj; auto. intros a b E. congruence.
  - auto.
  - intros c I J. apply in_map_iff in I as (d & <- & I). apply combinations_spec in J as [S _].
    apply H1. apply (subseq_incl _ _ S). simpl; auto.
Qed.

Lemma flat_map_NoDup {A B} (f : A -> list B) l : NoDup l -> (forall a, In a l -> NoDup (f a)) ->
  (forall a a' b, In a l -> In a' l -> In b (f a) -> In b (f a') -> a = a') -> NoDup (flat_map f l).
Proof.
  intros N. induction N as [|x l NI N IH]; intros H D; simpl; [constructor|].
  apply NoDup_app_join.
  - apply H. simpl; auto.
  - apply IH; intros; [apply H|eapply D]; simpl; eauto.
  - intros b I J. apply in_flat_map in J as (y & Iy & Jy).
    assert (x = y) as -> by (eapply D; simpl; eauto). contradiction.
Qed.

Lemma all_combinations_NoDup {A} (l : list A) : NoDup l -> NoDup (all_combinations l).
Proof.
  intros N. unfold all_combinations. apply flat_map_NoDup.
  - apply seq_NoDup.
  - intros r _. now apply combinations_NoDup.
  - intros r r' c _ _ I J. apply combinations_spec in I as [_ <-]. apply combinations_spec in J as [_ <-]. reflexivity.
Qed.

(** Number of combinations, for all sizes together. *)
Fixpoint total {A} (l : list A) (n : nat) : nat :=
  match n with O => List.length (combinations l 0) | S n' => total l n' + List.length (combinations l n) end.

Lemma combinations_too_long {A} (l : list A) : forall r, List.length l < r -> combinations l r = [].
Proof.
  induction l as [|x l IH]; intros [|r] H; simpl in *; try lia; auto.
  rewrite !IH by lia. reflexivity.
Qed.

Lemma combinations_0 {A} (l : list A) : combinations l 0 = [[]].
Proof. destruct l; reflexivity. Qed.

Lemma total_cons {A} (x : A) l n : total (x :: l) (S n) = total l n + total l (S n).
Proof.
  induction n as [|n IH].
  - simpl. rewrite app_length, map_length, !combinations_0. simpl. lia.
  - change (total (x :: l) (S (S n))) with (total (x :: l) (S n) + List.length (combinations (x :: l) (S (S n)))).
    change (total l (S (S n))) with (total l (S n) + List.length (combinations l (S (S n)))).
    rewrite IH. change (combinations (x :: l) (S (S n))) with (map (cons x) (combinations l (S n)) ++ combinations l (S (S n))).
    rewrite app_length, map_length. change (total l (S n)) with (total l n + List.length (combinations l (S n))) at 2. lia.
Qed.

Lemma total_pow {A} (l : list A) : total l (List.length l) = 2 ^ List.length l.
Proof.
  assert (S : forall (l : list A), total l (S (List.length l)) = total l (List.length l)).
  { intros l0. simpl. rewrite (combinations_too_long l0) by lia. simpl. lia. }
  induction l as [|x l IH]; [reflexivity|]. simpl List.length. rewrite total_cons, S, IH. simpl. lia.
Qed.

Lemma all_combinations_length {A} (l : list A) : List.length (all_combinations l) = 2 ^ List.length l - 1.
Proof.
  rewrite <- total_pow. unfold all_combinations.
  assert (G : forall n, S (List.length (flat_map (combinations l) (seq 1 n))) = total l n).
  { induction n as [|n IH]; [simpl; now rewrite combinations_0|].
    rewrite seq_S, flat_map_app, app_length. simpl flat_map. rewrite List.app_nil_r.
    change (total l (S n)) with (total l n + List.length (combinations l (S n))). rewrite <- IH. simpl. lia. }
  rewrite <- G. lia.
Qed.

(* ------------------------------------------------------------------ *)
(** ** pool *)

Lemma pool_rows_spec l : forall n pool, pool_rows n l pool =
  (n + List.length l, pool ++ combine (map str_nat (seq n (List.length l))) l).
Proof.
  induction l as [|b l IH]; intros n pool; simpl.
  - now rewrite Nat.add_0_r, List.app_nil_r.
  - rewrite IH. unfold l_append. rewrite <- app_assoc. simpl. f_equal. lia.
Qed.

Lemma create_pool_spec groups : create_pool groups = path_of (flat_map group_rows groups).
Proof.
  unfold create_pool.
  assert (CA : forall (a b : list BV) n, combine (map str_nat (seq n (List.length a))) a ++
     combine (map str_nat (seq (n + List.length a) (List.length b))) b
     = combine (map str_nat (seq n (List.length (a ++ b)))) (a ++ b)).
  { induction a as [|x a IH]; intros b n; simpl; [now rewrite Nat.add_0_r|]. f_equal.
    rewrite <- IH. replace (n + S (List.length a)) with (S n + List.length a) by lia. reflexivity. }
  assert (G : forall gs n pool, snd (fold_left (fun acc g => pool_rows (fst acc) (group_rows g) (snd acc)) gs (n, pool))
     = pool ++ combine (map str_nat (seq n (List.length (flat_map group_rows gs)))) (flat_map group_rows gs)).
  { induction gs as [|g gs IH]; intros n pool; simpl; [now rewrite List.app_nil_r|].
    rewrite pool_rows_spec. rewrite IH, <- app_assoc, CA. reflexivity. }
  rewrite G. reflexivity.
Qed.

Lemma path_of_keys_NoDup {V} (l : list V) : NoDup (map fst (path_of l)).
Proof.
  rewrite path_of_keys. apply NoDup_map_inj; [apply str_nat_inj|apply seq_NoDup].
Qed.

Lemma zip4_nth {A B C D} (a : list A) : forall (b : list B) (c : list C) (d : list D) i,
  nth_error (zip4 a b c d) i =
  match nth_error a i, nth_error b i, nth_error c i, nth_error d i with
  | Some x, Some y, Some z, Some w => Some (x, y, z, w)
  | _, _, _, _ => None
  end.
Proof.
  induction a as [|x a IH]; intros [|y b] [|z c] [|w d] [|i]; simpl; auto;
    try (destruct (nth_error a i); auto; try (destruct (nth_error b i); auto; try (destruct (nth_error c i); auto))).
Qed.

Lemma zip4_length {A B C D} (a : list A) : forall (b : list B) (c : list C) (d : list D),
  List.length (zip4 a b c d) = Nat.min (Nat.min (List.length a) (List.length b)) (Nat.min (List.length c) (List.length d)).
Proof. induction a as [|x a IH]; intros [|y b] [|z c] [|w d]; simpl; try lia. rewrite IH. lia. Qed.

(* ------------------------------------------------------------------ *)
(** ** elimination *)

Lemma eliminate_exact s R Pt : inc s = plan_of R -> partial s = plan_of Pt -> NoDup (map fst R) ->
  exists s' R', eliminate_offsprings s = Ok (tt, s') /\ inc s' = plan_of R' /\
    Permutation (map snd R') (map snd (filter (fun x => negb (path_in (c_path (cnd s)) (r_path (snd x)))) R)) /\
    cnd s' = cnd s /\ new s' = new s /\ complete s' = complete s /\ cur s' = cur s /\ level s' = level s /\
    last s' = last s /\ log s' = log s /\ (exists Pt', partial s' = plan_of Pt' /\ incl Pt' Pt) /\
    allow s' = (if Nat.eqb (List.length R') 0 && negb (last s) then false else allow s).
Proof.
  intros ER EP ND.
  assert (ok eliminate_offsprings s (fun _ s' => exists R', inc s' = plan_of R' /\
    Permutation (map snd R') (map snd (filter (fun x => negb (path_in (c_path (cnd s)) (r_path (snd x)))) R)) /\
    cnd s' = cnd s /\ new s' = new s /\ complete s' = complete s /\ cur s' = cur s /\ level s' = level s /\
    last s' = last s /\ log s' = log s /\ (exists Pt', partial s' = plan_of Pt' /\ incl Pt' Pt) /\
    allow s' = (if Nat.eqb (List.length R') 0 && negb (last s) then false else allow s))) as (u & s' & E & R' & H).
  2:{ exists s', R'. destruct u. auto. }
  unfold eliminate_offsprings. apply ok_get_bind. apply ok_bind.
  assert (FK : find_keys_of_offsprings (pl_paths (inc s)) (c_path (cnd s)) =
     map fst (filter (fun x => path_in (c_path (cnd s)) (r_path (snd x))) R)).
  { unfold find_keys_of_offsprings. rewrite ER, plan_of_vmap. simpl. rewrite filter_vmap. simpl. apply vmap_keys. }
  rewrite FK. eapply ok_conseq.
  { apply (delete_offsprings_ok _ s R Pt); auto. intros k. apply count_filter_le. }
  intros _ s1 (R1 & Pt1 & -> & Pp & I1 & I2). apply ok_get_bind. simpl.
  rewrite pops_filter in Pp by auto. injection Pp as <-.
  destruct (renumber_ok (filter (fun x => negb (path_in (c_path (cnd s)) (r_path (snd x)))) R)) as (R2 & E2 & Pm).
  eapply ok_lift_bind; [exact E2|]. apply ok_modify_bind. apply ok_get_bind.
  match goal with |- ok (if ?b then _ else _) _ _ => destruct b eqn:B end; simpl in B; rewrite !map_length in B.
  - apply ok_modify. exists R2. simpl. rewrite B. repeat match goal with |- _ /\ _ => split end; eauto.
  - apply ok_ret. exists R2. simpl. rewrite B. repeat match goal with |- _ /\ _ => split end; eauto.
Qed.
