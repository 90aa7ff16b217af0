(** Proofs about the solution tables and the anticipative planner. *)
From Coq Require Import List String Bool ZArith QArith Arith Lia Permutation Sorted.
From Verif Require Import Base Container ContainerSpec ContainerProofs Planner PlannerSpec PlannerRows PlannerSolution.
Import ListNotations.
Open Scope nat_scope.
Open Scope list_scope.

(* ------------------------------------------------------------------ *)
(** ** sorting and duplicates *)

Lemma insert_perm {A} (leb : A -> A -> bool) x l : Permutation (insert leb x l) (x :: l).
Proof.
  induction l as [|y l IH]; simpl; auto. destruct (leb x y); auto.
  rewrite IH. apply perm_swap.
Qed.

Lemma sort_perm {A} (leb : A -> A -> bool) l : Permutation (sort_values leb l) l.
Proof. induction l as [|x l IH]; simpl; auto. rewrite insert_perm. now constructor. Qed.

Lemma insert_sorted {A} (leb : A -> A -> bool) x l :
  (forall a b, leb a b = false -> leb b a = true) ->
  Sorted (fun a b => leb a b = true) l -> Sorted (fun a b => leb a b = true) (insert leb x l).
Proof.
  intros T H. induction l as [|y l IH]; simpl.
  - repeat constructor.
  - destruct (leb x y) eqn:E; [constructor; auto|].
    inversion H as [|? ? Hl Hy]; subst. constructor; auto.
    destruct l as [|z l]; simpl.
    + constructor. auto.
    + destruct (leb x z); constructor; auto. now inversion Hy.
Qed.

Lemma sort_sorted {A} (leb : A -> A -> bool) l :
  (forall a b, leb a b = false -> leb b a = true) -> Sorted (fun a b => leb a b = true) (sort_values leb l).
Proof. intros T. induction l; simpl; [constructor|]. now apply insert_sorted. Qed.

Lemma cost_leb_total a b : cost_leb a b = false -> cost_leb b a = true.
Proof. unfold cost_leb. rewrite Nat.leb_gt, Nat.leb_le. lia. Qed.

Lemma drop_duplicates_distinct l : NoDup (map fst l) -> drop_duplicates l = l.
Proof.
  unfold drop_duplicates.
  enough (G : forall seen, NoDup (map fst l) -> (forall x, In x l -> ~ In (fst x) (map fst seen)) ->
     drop_duplicates_from seen l = l) by (intros N; apply G; auto).
  induction l as [|x l IH]; intros seen N H; simpl; auto. inversion N; subst.
  assert (existsb (cost_row_eqb x) seen = false) as ->.
  { apply not_true_is_false. intros E. apply existsb_exists in E as (y & I & E).
    unfold cost_row_eqb in E. apply andb_true_iff in E as [E _]. apply Nat.eqb_eq in E.
    apply (H x (or_introl eq_refl)). rewrite E. now apply in_map. }
  f_equal. apply IH; auto. intros y I [E|E].
  - apply H2. rewrite E. now apply in_map.
  - apply (H y (or_intror I) E).
Qed.

Lemma mapM_all {A B} (f : A -> res B) (g : A -> B) l : (forall a, In a l -> f a = Ok (g a)) -> mapM f l = Ok (map g l).
Proof.
  induction l as [|a l IH]; intros H; simpl; auto. rewrite (H a) by (simpl; auto). simpl.
  rewrite IH; [reflexivity|]. intros; apply H; simpl; auto.
Qed.

(* ------------------------------------------------------------------ *)
(** ** solution tables *)

Section Solution.
Variable scen : node -> option (list nat).
Variable yr : node -> option Z.

(** Scenarios served by the plan in row [x]: those of the last node of its path. *)
Definition leaf_scenarios (r : row) : list nat :=
  match last_node (r_path r) with
  | Some n => match scen n with Some l => l | None => [] end
  | None => []
  end.

(** The data get_solution reads is there: distinct plan numbers, a known last node, and for
    each node of a path its scenarios, its year and the interventions of its stage. *)
Definition reportable (R : @items row) : Prop :=
  NoDup (map fst R) /\
  forall k r, In (k, r) R ->
    (exists n, last_node (r_path r) = Some n /\ scen n <> None) /\
    (forall lev n, In (lev, n) (r_path r) -> l_get lev (r_int r) <> None /\ scen n <> None /\ yr n <> None).

Lemma plan_of_get {B} (f : row -> B) R k r : NoDup (map fst R) -> In (k, r) R ->
  l_get k (map (fun x => (fst x, f (snd x))) R) = Some (f r).
Proof.
  intros N I. apply l_get_nodup_In.
  - unfold keys. rewrite map_map. simpl. exact N.
  - change (k, f r) with ((fun x : string * row => (fst x, f (snd x))) (k, r)). now apply in_map.
Qed.

Definition rows_of_line (it : string * node) (st : @items BV) : list line_row :=
  flat_map (fun b => if String.eqb (bv_type (snd b)) "line" then
     map (fun s => mkLine s (match yr (snd it) with Some y => y | None => 0%Z end) (bv_pos (snd b)))
         (match scen (snd it) with Some l => l | None => [] end) else []) st.

Definition rows_of_plan (r : row) : list line_row :=
  flat_map (fun it => rows_of_line it (match l_get (fst it) (r_int r) with Some st => st | None => [] end)) (r_path r).

Lemma path_lines_ok R k r : reportable R -> In (k, r) R ->
  path_lines scen yr (plan_of R) k (r_path r) = Ok (rows_of_plan r).
Proof.
  intros [N H] I. destruct (H k r I) as [_ Hn]. unfold path_lines.
  rewrite (mapM_all _ (fun it => rows_of_line it (match l_get (fst it) (r_int r) with Some st => st | None => [] end))).
  - simpl. unfold rows_of_plan. now rewrite flat_map_concat_map.
  - intros [lev n] J. simpl fst. simpl snd. destruct (Hn lev n J) as (A & B & C).
    unfold plan_of. simpl pl_int. rewrite (plan_of_get r_int R k r N I). simpl.
    destruct (l_get lev (r_int r)) as [st|]; [|congruence]. simpl.
    rewrite (mapM_all _ (fun b => if String.eqb (bv_type (snd b)) "line" then
       map (fun s => mkLine s (match yr n with Some y => y | None => 0%Z end) (bv_pos (snd b)))
         (match scen n with Some l => l | None => [] end) else [])).
    + simpl. unfold rows_of_line. now rewrite flat_map_concat_map.
    + intros [kb b] _. unfold line_rows. simpl. destruct (String.eqb (bv_type b) "line"); auto.
      destruct (scen n) as [sc|]; [|congruence]. destruct (yr n) as [y|]; [|congruence]. simpl.
      now rewrite (mapM_all _ (fun s => mkLine s y (bv_pos b))).
Qed.

Lemma path_costs_ok (f : row -> Q) R k r : reportable R -> In (k, r) R ->
  path_costs scen (map (fun x => (fst x, f (snd x))) R) k (r_path r) =
  Ok (map (fun s => (s, Some (f r))) (leaf_scenarios r)).
Proof.
  intros [N H] I. destruct (H k r I) as [(n & E & S) _]. unfold path_costs, leaf_scenarios. rewrite E. simpl.
  destruct (scen n) as [sc|]; [|congruence]. simpl. now rewrite (plan_of_get f R k r N I).
Qed.

Lemma In_flat_map_fst (f : row -> Q) (R : @items row) :
  map fst (flat_map (fun x => map (fun s => (s, Some (f (snd x)))) (leaf_scenarios (snd x))) R)
  = flat_map (fun x => leaf_scenarios (snd x)) R.
Proof.
  induction R as [|x R IH]; simpl; auto. rewrite map_app, IH, map_map. simpl. now rewrite map_id.
Qed.

Lemma get_solution_spec R : reportable R -> NoDup (flat_map (fun x => leaf_scenarios (snd x)) R) ->
  exists L I O, get_solution scen yr (plan_of R) = Ok (L, I, O) /\
  Permutation L (flat_map (fun x => rows_of_plan (snd x)) R) /\
  Permutation I (flat_map (fun x => map (fun s => (s, Some (r_inv (snd x)))) (leaf_scenarios (snd x))) R) /\
  Permutation O (flat_map (fun x => map (fun s => (s, Some (r_op (snd x)))) (leaf_scenarios (snd x))) R) /\
  Sorted (fun a b => cost_leb a b = true) I /\ Sorted (fun a b => cost_leb a b = true) O.
Proof.
  intros RP ND. unfold get_solution. unfold plan_of at 4. simpl pl_paths.
  assert (E : mapM (fun it : string * @items node =>
             do l <- path_lines scen yr (plan_of R) (fst it) (snd it);
             do i <- path_costs scen (pl_inv (plan_of R)) (fst it) (snd it);
             do o <- path_costs scen (pl_op (plan_of R)) (fst it) (snd it);
             Ok (l, i, o)) (map (fun x => (fst x, r_path (snd x))) R)
    = Ok (map (fun x => (rows_of_plan (snd x), map (fun s => (s, Some (r_inv (snd x)))) (leaf_scenarios (snd x)),
                         map (fun s => (s, Some (r_op (snd x)))) (leaf_scenarios (snd x)))) R)).
  { assert (G : forall R0, incl R0 R -> mapM (fun it : string * @items node =>
             do l <- path_lines scen yr (plan_of R) (fst it) (snd it);
             do i <- path_costs scen (pl_inv (plan_of R)) (fst it) (snd it);
             do o <- path_costs scen (pl_op (plan_of R)) (fst it) (snd it);
             Ok (l, i, o)) (map (fun x => (fst x, r_path (snd x))) R0)
    = Ok (map (fun x => (rows_of_plan (snd x), map (fun s => (s, Some (r_inv (snd x)))) (leaf_scenarios (snd x)),
                         map (fun s => (s, Some (r_op (snd x)))) (leaf_scenarios (snd x)))) R0)).
    { induction R0 as [|[k r] R0 IH]; intros IC; simpl; auto.
      assert (In (k, r) R) as IR by (apply IC; simpl; auto).
      rewrite path_lines_ok; auto. cbn [rbind].
      rewrite (path_costs_ok r_inv); auto. cbn [rbind].
      rewrite (path_costs_ok r_op); auto. cbn [rbind].
      assert (incl R0 R) as IC0 by (intros y Y; apply IC; simpl; auto).
      specialize (IH IC0). simpl in IH. rewrite IH. reflexivity. }
    apply G, incl_refl. }
  rewrite E. cbn [rbind].
  assert (FM : forall {A B C} (f : A -> B) (g : B -> list C) l, flat_map g (map f l) = flat_map (fun x => g (f x)) l).
  { intros A B C f g l. induction l; simpl; congruence. }
  rewrite !FM. cbn [fst snd].
  eexists _, _, _. split; [reflexivity|].
  assert (D : forall f : row -> Q, drop_duplicates (flat_map (fun x => map (fun s => (s, Some (f (snd x)))) (leaf_scenarios (snd x))) R)
     = flat_map (fun x => map (fun s => (s, Some (f (snd x)))) (leaf_scenarios (snd x))) R).
  { intros f. apply drop_duplicates_distinct. now rewrite In_flat_map_fst. }
  repeat split.
  - apply sort_perm.
  - eapply Permutation_trans; [apply sort_perm|]. apply Permutation_refl'. apply (D r_inv).
  - eapply Permutation_trans; [apply sort_perm|]. apply Permutation_refl'. apply (D r_op).
  - apply sort_sorted, cost_leb_total.
  - apply sort_sorted, cost_leb_total.
Qed.

Lemma table_one_cost (f : row -> Q) (R : @items row) (T : list cost_row) : NoDup (flat_map (fun x => leaf_scenarios (snd x)) R) ->
  Permutation T (flat_map (fun x => map (fun s => (s, Some (f (snd x)))) (leaf_scenarios (snd x))) R) ->
  NoDup (map fst T) /\
  (forall s c, In (s, c) T <-> exists k r, In (k, r) R /\ In s (leaf_scenarios r) /\ c = Some (f r)).
Proof.
  intros ND PM. split.
  - eapply Permutation_NoDup; [symmetry; apply Permutation_map, PM|]. now rewrite In_flat_map_fst.
  - intros s c. split.
    + intros I. apply (Permutation_in _ PM) in I. apply in_flat_map in I as ([k r] & J & I).
      apply in_map_iff in I as (s' & E & I). injection E as -> <-. exists k, r. auto.
    + intros (k & r & J & I & ->). apply (Permutation_in _ (Permutation_sym PM)). apply in_flat_map.
      exists (k, r). split; auto. apply in_map_iff. now exists s.
Qed.

Lemma rows_of_plan_In r s y pos : In (mkLine s y pos) (rows_of_plan r) ->
  exists lev n st kb b, In (lev, n) (r_path r) /\ l_get lev (r_int r) = Some st /\ In (kb, b) st /\
    bv_type b = "line"%string /\ bv_pos b = pos /\ exists sc, scen n = Some sc /\ In s sc.
Proof.
  unfold rows_of_plan, rows_of_line. intros H.
  apply in_flat_map in H as ([lev n] & I & H). apply in_flat_map in H as ([kb b] & J & H). simpl in *.
  destruct (l_get lev (r_int r)) as [st|] eqn:E; [|destruct J].
  destruct (String.eqb_spec (bv_type b) "line") as [T|]; [|destruct H].
  apply in_map_iff in H as (s' & Es & H). injection Es as -> _ <-.
  exists lev, n, st, kb, b. destruct (scen n) as [sc|]; [|destruct H]. repeat split; auto. now exists sc.
Qed.

Lemma In_rows_of_plan r lev n st kb b sc s y : In (lev, n) (r_path r) -> l_get lev (r_int r) = Some st ->
  In (kb, b) st -> bv_type b = "line"%string -> scen n = Some sc -> In s sc -> yr n = Some y ->
  In (mkLine s y (bv_pos b)) (rows_of_plan r).
Proof.
  intros I E J T S K Y. unfold rows_of_plan, rows_of_line. apply in_flat_map. exists (lev, n). split; auto. simpl.
  rewrite E. apply in_flat_map. exists (kb, b). split; auto. simpl. rewrite T, String.eqb_refl, S, Y.
  apply in_map_iff. now exists s.
Qed.

Lemma rows_of_plan_iff R k r s y pos : reportable R -> In (k, r) R ->
  In (mkLine s y pos) (rows_of_plan r) <->
  exists lev n st kb b sc, In (lev, n) (r_path r) /\ l_get lev (r_int r) = Some st /\ In (kb, b) st /\
    bv_type b = "line"%string /\ bv_pos b = pos /\ scen n = Some sc /\ In s sc /\ yr n = Some y.
Proof.
  intros [_ H] IR. split.
  - intros I. destruct (H k r IR) as [_ Hn].
    unfold rows_of_plan, rows_of_line in I.
    apply in_flat_map in I as ([lev n] & I & J). apply in_flat_map in J as ([kb b] & J & K). simpl in *.
    destruct (Hn lev n I) as (A & B & C).
    destruct (l_get lev (r_int r)) as [st|] eqn:E; [|destruct J].
    destruct (String.eqb_spec (bv_type b) "line") as [T|]; [|destruct K].
    apply in_map_iff in K as (s' & Es & K). destruct (yr n) as [y'|] eqn:Y; [|congruence].
    injection Es as -> <- <-. destruct (scen n) as [sc|] eqn:S; [|destruct K].
    exists lev, n, st, kb, b, sc. repeat split; auto.
  - intros (lev & n & st & kb & b & sc & I & E & J & T & <- & S & K & Y). eapply In_rows_of_plan; eauto.
Qed.
End Solution.

(* ------------------------------------------------------------------ *)
(** ** the anticipative planner stores nothing *)

Definition keeps_inc {A} (m : M A) : Prop := forall s a s', m s = Ok (a, s') -> inc s' = inc s.

Lemma ki_bind {A B} (m : M A) (k : A -> M B) : keeps_inc m -> (forall a, keeps_inc (k a)) -> keeps_inc (bind m k).
Proof.
  intros H K s b s2 E. unfold bind in E. destruct (m s) as [[a s1]|] eqn:Em; [|discriminate].
  rewrite (K a s1 b s2 E). eapply H; eauto.
Qed.

Lemma ki_ret {A} (a : A) : keeps_inc (ret a).
Proof. intros s b s' E. unfold ret in E. injection E as _ <-. reflexivity. Qed.
Lemma ki_get : keeps_inc get.
Proof. intros s b s' E. injection E as _ <-. reflexivity. Qed.
Lemma ki_lift {A} (r : res A) : keeps_inc (lift r).
Proof. intros s b s' E. unfold lift in E. destruct r; [|discriminate]. injection E as _ <-. reflexivity. Qed.
Lemma ki_modify f : (forall s, inc (f s) = inc s) -> keeps_inc (modify f).
Proof. intros H s b s' E. unfold modify in E. injection E as _ <-. apply H. Qed.
Lemma ki_raise {A} e : keeps_inc (raise e : M A).
Proof. intros s b s' E. discriminate. Qed.
Lemma ki_for_each {A} (l : list A) body : (forall a, keeps_inc (body a)) -> keeps_inc (for_each l body).
Proof. intros H. induction l; simpl; [apply ki_ret|]. apply ki_bind; auto. Qed.

Lemma base_investment_fails P l : exists e, base_investment_cost P l = Err e /\ (e = NameError \/ e = ZeroDivisionError).
Proof.
  unfold base_investment_cost.
  assert (G : forall i, (exists j, foldM (fun (i : Z) (_ : string * @items BV) =>
            do _ <- discount (p_rate P) i; Ok (i + 1)%Z) l i = Ok j) \/
          foldM (fun (i : Z) (_ : string * @items BV) => do _ <- discount (p_rate P) i; Ok (i + 1)%Z) l i = Err ZeroDivisionError).
  { induction l as [|x l IH]; intros i; simpl; [left; eauto|].
    unfold discount at 1 3. destruct (Qeq_bool _ _ && _); simpl; auto. }
  destruct (G 0%Z) as [[j ->]| ->]; simpl; eauto.
Qed.

Lemma base_append_fails P k s : exists e, base_append P k s = Err e /\ (e = NameError \/ e = ZeroDivisionError).
Proof.
  unfold base_append, bind, get, modify, lift. simpl.
  destruct (base_investment_fails P (c_int (cnd s))) as (e & -> & H). eauto.
Qed.

Lemma base_replace_fails P k s : exists e, base_replace P k s = Err e /\ (e = NameError \/ e = ZeroDivisionError).
Proof.
  unfold base_replace, bind, get, lift. simpl.
  destruct (base_investment_fails P (c_int (cnd s))) as (e & -> & H). eauto.
Qed.

Lemma base_optimality_fails P s : exists e, base_optimality_check P s = Err e /\ (e = NameError \/ e = ZeroDivisionError).
Proof.
  unfold base_optimality_check. unfold bind at 1, get. cbv beta iota.
  unfold bind. destruct (Nat.eqb _ _); [|destruct (find_stored_path _ _)];
    [destruct (base_append_fails P "0" s) as (e & -> & H)|
     destruct (base_replace_fails P s0 s) as (e & -> & H)|
     destruct (base_append_fails P (str_nat (List.length (pl_paths (inc s)))) s) as (e & -> & H)]; eauto.
Qed.

Lemma ki_explore P sv : keeps_inc sv -> keeps_inc (base_graph_exploration P sv).
Proof.
  intros H. unfold base_graph_exploration. apply ki_bind; [apply ki_get|intros s].
  apply ki_bind; [apply ki_lift|intros l]. apply ki_bind; [|intros _; apply ki_modify; reflexivity].
  apply ki_for_each. intros n. apply ki_bind; [apply ki_modify; reflexivity|auto].
Qed.

Lemma base_solve_stores_nothing P f : keeps_inc (base_solve P f).
Proof.
  induction f as [|f IH]; simpl; [apply ki_raise|].
  unfold base_solve_body. apply ki_bind.
  - unfold base_check. apply ki_bind; [apply ki_get|intros s]. apply ki_bind; [apply ki_modify; reflexivity|intros _; apply ki_ret].
  - intros [|]; [|apply ki_ret].
    apply ki_bind; [apply ki_modify; reflexivity|intros _]. apply ki_bind; [apply ki_get|intros s].
    apply ki_bind; [apply ki_lift|intros [|n l]].
    + intros s1 a s2 E. destruct (base_optimality_fails P s1) as (e & E' & _). congruence.
    + unfold base_interventions_handler. apply ki_bind; [apply ki_get|intros s1].
      apply ki_bind; [now apply ki_explore|intros _]. apply ki_for_each. intros c.
      apply ki_bind; [|intros _; now apply ki_explore].
      unfold base_add_new. apply ki_bind; [apply ki_modify; reflexivity|intros _].
      destruct c; [apply ki_ret|apply ki_raise].
Qed.

(** A feasible leaf makes the anticipative planner raise. *)
Lemma base_leaf_raises P f s : successors P (cur s) [] ->
  fst (p_opf P (log s) (cur s) (if Nat.eqb (List.length (n_int (new s))) 0 then []
      else List.concat (map (fun st => map snd (snd st)) (c_int (cnd s))) ++ map snd (n_int (new s)))) = true ->
  exists e, base_solve P (S f) s = Err e /\ (e = NameError \/ e = ZeroDivisionError).
Proof.
  intros L F. simpl. unfold base_solve_body, base_check, construction_of_solution, bind, get, modify, ret, lift. simpl.
  rewrite F. unfold neighbours. simpl. unfold successors in L. rewrite L. apply base_optimality_fails.
Qed.
