(** Trees of two stages: a root and its leaves.  The search finds an optimal plan. *)
From Coq Require Import List String Bool ZArith QArith Qminmax Arith Lia Lqa Permutation.
From Verif Require Import Base Container ContainerSpec ContainerProofs Planner PlannerSpec PlannerRows PlannerProofs PlannerInv PlannerMain PlannerLeaf PlannerFacts.
Import ListNotations.
Open Scope nat_scope.
Open Scope list_scope.

Local Ltac sp := repeat match goal with |- _ /\ _ => split end.

(** ** Sums over rows *)

Definition rows_total (rs : list row) : Q := sumQ (map row_total rs).

Lemma total_cost_rows R : (total_cost (plan_of R) == rows_total (map snd R))%Q.
Proof.
  unfold total_cost, total_planning_cost, rows_total, plan_of. cbn [pl_inv pl_op].
  assert (G : forall a, (fold_left (fun cost p => cost + (snd (fst p) + snd (snd p))) (combine (map (fun x => (fst x, r_inv (snd x))) R) (map (fun x => (fst x, r_op (snd x))) R)) a == a + sumQ (map row_total (map snd R)))%Q).
  { induction R as [|x R IH]; intros a; cbn [map combine fold_left sumQ fold_right fst snd]; [ring|]. rewrite IH. unfold sumQ, row_total. ring. }
  rewrite G. ring.
Qed.

Lemma rows_total_app a b : (rows_total (a ++ b) == rows_total a + rows_total b)%Q.
Proof. unfold rows_total. rewrite map_app. induction (map row_total a) as [|x l IH]; cbn [List.app sumQ fold_right]; [unfold sumQ; ring|]. unfold sumQ in *. rewrite IH. ring. Qed.

Lemma rows_total_one r : (rows_total [r] == row_total r)%Q.
Proof. unfold rows_total, sumQ. cbn. ring. Qed.

Lemma plan_of_path_append rs r : mkPlan (l_append (str_nat (List.length rs)) (r_path r) (pl_paths (plan_of (path_of rs)))) (l_append (str_nat (List.length rs)) (r_int r) (pl_int (plan_of (path_of rs))))
         (l_append (str_nat (List.length rs)) (r_inv r) (pl_inv (plan_of (path_of rs)))) (l_append (str_nat (List.length rs)) (r_op r) (pl_op (plan_of (path_of rs))))
  = plan_of (path_of (rs ++ [r])).
Proof. rewrite plan_of_append, path_of_app_one. reflexivity. Qed.

Lemma plan_of_path_set rs x r : mkPlan (l_set (str_nat (List.length rs)) (r_path r) (pl_paths (plan_of (path_of (rs ++ [x]))))) (l_set (str_nat (List.length rs)) (r_int r) (pl_int (plan_of (path_of (rs ++ [x])))))
         (l_set (str_nat (List.length rs)) (r_inv r) (pl_inv (plan_of (path_of (rs ++ [x]))))) (l_set (str_nat (List.length rs)) (r_op r) (pl_op (plan_of (path_of (rs ++ [x])))))
  = plan_of (path_of (rs ++ [r])).
Proof. rewrite plan_of_set, path_of_set. reflexivity. Qed.

Lemma paths_plan rs : pl_paths (plan_of (path_of rs)) = path_of (map r_path rs).
Proof. rewrite path_of_map. reflexivity. Qed.

Lemma path_in_pair a b c : path_in (path_of [a; b]) (path_of [a; c]) = true <-> b = c.
Proof.
  unfold path_in. rewrite (path_contains_prefix Nat.eqb Nat.eqb_eq). split.
  - intros (d & E). cbn in E. congruence.
  - intros ->. exists []. reflexivity.
Qed.

(** Nodes left over are those no path visits. *)
Lemma remaining_none P rs : NoDup (p_nodes P) -> (forall n, In n (p_nodes P) -> exists r, In r rs /\ In n (map snd (r_path r))) ->
  remaining_nodes P (path_of (map r_path rs)) = [].
Proof.
  intros ND CV. unfold remaining_nodes.
  assert (RN : forall m rem, NoDup rem -> NoDup (remove_node m rem) /\ ~ In m (remove_node m rem) /\ incl (remove_node m rem) rem).
  { intros m rem. induction rem as [|x rem IH]; cbn [remove_node]; intros H; [sp; auto; apply incl_refl|]. inversion H as [|? ? NI H']; subst. destruct (IH H') as (A & B & C). destruct (Nat.eqb_spec x m) as [->|Ne].
    - sp; auto. apply incl_tl, incl_refl.
    - sp.
      + constructor; auto.
      + intros [E|E]; auto.
      + intros y [->|I]; [now left|right; now apply C]. }
  assert (G1 : forall (p : list (string * node)) rem, NoDup rem -> let rem' := fold_left (fun rem it => if existsb (Nat.eqb (snd it)) rem then remove_node (snd it) rem else rem) p rem in
    NoDup rem' /\ incl rem' rem /\ forall n, In n (map snd p) -> ~ In n rem').
  { induction p as [|it p IH]; intros rem H; cbn [fold_left map].
    - cbn zeta. split; [auto|split; [apply incl_refl|intros n []]].
    - set (rem1 := if existsb (Nat.eqb (snd it)) rem then remove_node (snd it) rem else rem). assert (A : NoDup rem1 /\ incl rem1 rem /\ ~ In (snd it) rem1).
      { unfold rem1. clear rem1. destruct (existsb (Nat.eqb (snd it)) rem) eqn:E; [destruct (RN (snd it) rem H) as (A & B & C); auto|]. split; [auto|split; [apply incl_refl|]]. intros I. assert (existsb (Nat.eqb (snd it)) rem = true); [|congruence]. apply existsb_exists. exists (snd it). split; auto. apply Nat.eqb_refl. }
      destruct A as (A1 & A2 & A3). destruct (IH rem1 A1) as (B1 & B2 & B3). split; [auto|split; [eapply incl_tran; eauto|]]. intros n [<-|I]; [intros K; apply B2 in K; auto|auto]. }
  assert (G2 : forall (ps : list (string * list (string * node))) (rem : list node), NoDup rem -> let rem' := fold_left (fun rem p => fold_left (fun rem it => if existsb (Nat.eqb (snd it)) rem then remove_node (snd it) rem else rem) (snd p) rem) ps rem in
    incl rem' rem /\ forall n p, In p (map snd ps) -> In n (map snd p) -> ~ In n rem').
  { induction ps as [|x ps IH]; intros rem H; cbn [fold_left map].
    - cbn zeta. split; [apply incl_refl|]. intros n p [].
    - destruct (G1 (snd x) rem H) as (A1 & A2 & A3). cbn zeta in A1, A2, A3. destruct (IH _ A1) as (B1 & B2). cbn zeta. split; [eapply incl_tran; eauto|]. intros n p [<-|I] J; [|now apply (B2 n p)]. intros K. apply B1 in K. now apply (A3 n J). }
  destruct (G2 (path_of (map r_path rs)) (p_nodes P) ND) as (A & B). cbn zeta in A, B.
  match goal with |- ?l = [] => destruct l as [|n rem] eqn:E; auto end. exfalso. assert (In n (p_nodes P)) as J by (apply A; cbn; auto).
  destruct (CV n J) as (r & Ir & In'). apply (B n (r_path r)); cbn; auto. rewrite path_of_map_snd. now apply in_map.
Qed.

Section TwoStage.
Variable P : problem.
Variable root : node.
Variable ls : list node.
Hypothesis pool_nodup : NoDup (map fst (p_pool P)).
Hypothesis rate_ok : ~ (1 - p_rate P / 100 == 0)%Q.
Hypothesis nonant : p_nonant P = true.
Hypothesis imm : immediate P.
Hypothesis opf_fix : forall h h' n a, p_opf P h n a = p_opf P h' n a.
Hypothesis succ : successors P root ls.
Hypothesis leaves : forall m, In m ls -> is_leaf P m.
Hypothesis several : 2 <= List.length ls.
Hypothesis distinct : NoDup ls.
Hypothesis nodes_once : NoDup (p_nodes P).
Hypothesis nodes_all : forall n, In n (p_nodes P) <-> n = root \/ In n ls.

Definition opf (n : node) (sel : list (@items BV)) : bool * Q := p_opf P [] n (map snd (List.concat sel)).

Lemma root_not_leaf : ~ In root ls.
Proof. intros I. apply leaves in I. unfold is_leaf, successors in *. rewrite I in succ. injection succ as E. rewrite <- E in several. cbn in several. lia. Qed.

(** Row of selection [c] at leaf [m] after [c0] at the root, with daily costs [q0] and [q]. *)
Definition row_of_sel (c0 : @items BV) (q0 : Q) (m : node) (c : @items BV) (q : Q) (r : row) : Prop :=
  r_path r = path_of [root; m] /\ r_int r = path_of [c0; c] /\
  (r_inv r == discounted P (map stage_cost [c0; c]))%Q /\ (r_op r == discounted P [q0 * 365; q * 365])%Q.

Lemma row_cost c0 q0 m c q r : row_of_sel c0 q0 m c q r -> (row_total r == plan_cost P [c0; c] [q0 * 365; q * 365])%Q.
Proof. intros (_ & _ & A & B). unfold row_total, plan_cost. rewrite A, B. reflexivity. Qed.

Definition opt (b : option row) : list row := match b with None => [] | Some r => [r] end.
Definition better (b : option row) (r' : row) : row := match b with None => r' | Some r => if Qgt_bool (row_total r) (row_total r') then r' else r end.

(** The tree stored as complete after the incumbent became [i]. *)
Definition complete_step (i : list row) (s s' : info) : Prop :=
  (~ covers P (path_of i) /\ complete s' = complete s /\ allow s' = allow s) \/
  (covers P (path_of i) /\ allow s' = true /\ (complete s' = plan_of (path_of i) \/ complete s' = complete s) /\
   pl_paths (complete s') <> [] /\ (total_cost (complete s') <= total_cost (plan_of (path_of i)))%Q).

Lemma covers_dec i : covers P (path_of i) <-> remaining_nodes P (path_of (map r_path i)) = [].
Proof.
  split.
  - intros CV. apply remaining_none; auto. intros n I. destruct (CV n I) as ([k r] & J & K). exists r. split; auto. rewrite <- (path_of_map_snd i). now apply (in_map snd) in J.
  - intros E. apply remaining_nodes_covers. now rewrite paths_plan.
Qed.

Lemma check_step s l st m rs b c0 q0 c q : cand_ready P root s (l ++ [st]) -> Inv P root s -> level s = Z.of_nat (List.length l) ->
  nodes (l ++ [st]) = [root; m] -> sels (l ++ [st]) = [c0; c] -> costs (l ++ [st]) = [q0 * 365; q * 365]%Q ->
  inc s = plan_of (path_of (rs ++ opt b)) -> (forall x, In x rs -> exists n, r_path x = path_of [root; n] /\ n <> m) ->
  (forall r, b = Some r -> r_path r = path_of [root; m]) ->
  ok (optimality_check P) s (fun _ s' => exists r', row_of_sel c0 q0 m c q r' /\ inc s' = plan_of (path_of (rs ++ [better b r'])) /\
    partial s' = partial s /\ complete_step (rs ++ [better b r']) s s').
Proof.
  intros CR IV Lv En Es Ec EI OT OB. pose proof (cr_cnd _ _ _ _ CR) as EC0.
  destruct (investment_cost_ok P rate_ok [c0; c]) as (iv & Ei & Vi). { rewrite <- Es. unfold sels. rewrite map_length. apply (cr_years _ _ _ _ CR). }
  destruct (operation_cost_ok P rate_ok [q0 * 365; q * 365]%Q) as (o & Eo & Vo). { rewrite <- Ec, costs_len. apply (cr_years _ _ _ _ CR). }
  assert (Eb : already_built (cnd s) = Ok (path_of [c0; c])).
  { rewrite EC0, already_built_spec by apply (gc_nodup _ _ _ _ (cr_good _ _ _ _ CR)). rewrite (built_now P (l ++ [st])); auto; [now rewrite Es|apply (cr_times _ _ _ _ CR)|apply (gc_pool _ _ _ _ (cr_good _ _ _ _ CR))|apply (cr_years _ _ _ _ CR)]. }
  assert (Ecand : c_path (cnd s) = path_of [root; m] /\ c_int (cnd s) = path_of [c0; c] /\ c_op (cnd s) = path_of [q0 * 365; q * 365]%Q).
  { rewrite EC0. unfold cand_of. cbn [c_path c_int c_op]. rewrite En, Es, Ec. auto. }
  destruct Ecand as (Cp & Ci & Co). set (r' := mkRow (path_of [root; m]) (path_of [c0; c]) iv o). assert (RS : row_of_sel c0 q0 m c q r') by (unfold row_of_sel; cbn; sp; auto).
  assert (RET : forall s1, cnd s1 = cnd s -> level s1 = level s -> forall Q : info -> Prop, Q (set_cnd (cand_of l) s1) -> ok (return_to_previous_state P) s1 (fun _ => Q)).
  { intros s1 C1 L1 Q H. do 2 eexists. split; [apply (return_spec P nonant s1 l st); congruence|exact H]. }
  assert (APP : forall (Q : info -> Prop), b = None -> Q (set_inc (plan_of (path_of (rs ++ [r']))) s) -> ok (append_candidate P (str_nat (List.length rs))) s (fun _ => Q)).
  { intros Q Eb0 H. unfold append_candidate. apply ok_get_bind. rewrite Ci, Co, Cp. eapply ok_lift_bind; [exact Eb|]. eapply ok_lift_bind; [exact Ei|]. eapply ok_lift_bind; [exact Eo|]. apply ok_modify.
    rewrite EI, Eb0. cbn [opt]. rewrite List.app_nil_r. rewrite <- (plan_of_path_append rs r') in H. exact H. }
  unfold optimality_check. apply ok_get_bind. apply ok_bind. rewrite EI, paths_plan, path_of_len, map_length, app_length.
  destruct (Nat.eqb_spec (List.length rs + List.length (opt b)) 0) as [Z|Z].
  - destruct rs as [|x rs]; [|cbn in Z; lia]. destruct b as [b|]; [cbn in Z; lia|]. apply APP; auto. apply RET; auto. exists r'. cbn [better set_inc set_cnd inc partial complete allow List.app]. sp; auto. left. cbn [complete allow]. sp; auto.
    intros CV. assert (OTH : exists n, In n ls /\ n <> m). { destruct ls as [|x [|y l']]; cbn in several; try lia. destruct (Nat.eq_dec x m) as [->|D]; [exists y|exists x]; cbn; auto. split; auto. intros ->. inversion distinct as [|? ? NI _]. apply NI. cbn. auto. }
    destruct OTH as (n & I & D). destruct (CV n) as ([k r] & J & K); [apply nodes_all; auto|]. cbn in J. destruct J as [J|[]]. inversion J; subst k r. cbn in K. destruct K as [K|[K|[]]]; [subst n; now apply root_not_leaf|congruence].
  - apply (ok_conseq _ _ (fun _ s' => inc s' = plan_of (path_of (rs ++ [better b r'])) /\ partial s' = partial s /\ complete_step (rs ++ [better b r']) s s' /\ cnd s' = cnd s /\ level s' = level s)).
    2:{ intros _ s1 (A & B & C & D & E). apply RET; auto. exists r'. cbn [set_cnd inc partial complete allow]. sp; auto. }
    unfold optimality_check_nonempty. apply ok_get_bind. apply ok_bind. rewrite Cp, EI, paths_plan.
    assert (F0 : forall l', (forall x, In x l' -> exists n, x = path_of [root; n] /\ n <> m) -> forall k, filter (fun it : string * list (string * node) => path_in (path_of [root; m]) (snd it)) (combine (map str_nat (seq k (List.length l'))) l') = []).
    { induction l' as [|x l' IH]; intros H k; cbn [List.length seq map combine filter]; auto. destruct (H x ltac:(cbn; auto)) as (n & -> & D). cbn [snd]. destruct (path_in (path_of [root; m]) (path_of [root; n])) eqn:E; [apply path_in_pair in E; congruence|]. apply IH. intros y Y. apply H. cbn; auto. }
    assert (OT' : forall x, In x (map r_path rs) -> exists n, x = path_of [root; n] /\ n <> m). { intros x I. apply in_map_iff in I as (y & <- & I). now apply OT. }
    assert (FS : find_stored_path (path_of (map r_path (rs ++ opt b))) (path_of [root; m]) = match b with None => None | Some _ => Some (str_nat (List.length rs)) end).
    { unfold find_stored_path. destruct b as [b|]; cbn [opt].
      - rewrite map_app. cbn [map]. rewrite path_of_snoc, filter_app, (OB b eq_refl). unfold path_of at 2. rewrite (F0 _ OT'). cbn [List.app filter snd]. rewrite (proj2 (path_in_pair root m m) eq_refl). cbn [fst]. now rewrite map_length.
      - rewrite List.app_nil_r. unfold path_of at 2. rewrite (F0 _ OT'). reflexivity. }
    rewrite FS. apply (ok_conseq _ _ (fun _ s' => s' = set_inc (plan_of (path_of (rs ++ [better b r']))) s)).
    { destruct b as [b|].
      - unfold replace_if_better. apply ok_get_bind. rewrite Co. eapply ok_lift_bind; [exact Eb|]. eapply ok_lift_bind; [exact Ei|]. eapply ok_lift_bind; [exact Eo|].
        assert (GT : forall (A : Type) (g : row -> A), l_get (str_nat (List.length rs)) (map (fun x => (fst x, g (snd x))) (path_of (rs ++ [b]))) = Some (g b)).
        { intros A g. change (map (fun x => (fst x, g (snd x))) (path_of (rs ++ [b]))) with (vmap g (path_of (rs ++ [b]))). now rewrite l_get_vmap, path_of_get. }
        eapply ok_lift_bind. { rewrite EI. unfold get_cost. cbn [plan_of pl_inv opt]. rewrite GT. reflexivity. } eapply ok_lift_bind. { rewrite EI. unfold get_cost. cbn [plan_of pl_op opt]. rewrite GT. reflexivity. }
        cbn [better]. change (r_inv b + r_op b)%Q with (row_total b). change (iv + o)%Q with (row_total r'). destruct (Qgt_bool (row_total b) (row_total r')).
        + unfold replace_solution. apply ok_get_bind. rewrite Co, Cp. eapply ok_lift_bind; [exact Eb|]. eapply ok_lift_bind; [exact Ei|]. eapply ok_lift_bind; [exact Eo|]. apply ok_modify. rewrite EI. cbn [opt].
          f_equal. exact (plan_of_path_set rs b r').
        + apply ok_ret. cbn [opt] in EI. rewrite <- EI. now destruct s.
      - cbn [opt] in *. rewrite List.app_nil_r, path_of_len, map_length. apply APP; auto. }
    intros _ s1 ->. apply ok_get_bind. cbn [set_inc inc]. rewrite paths_plan.
    pose proof (covers_dec (rs ++ [better b r'])) as CD. destruct (Nat.eqb_spec (List.length (remaining_nodes P (path_of (map r_path (rs ++ [better b r']))))) 0) as [Z1|Z1].
    + apply length_zero_iff_nil in Z1. apply CD in Z1. apply ok_modify_bind. unfold replacement_for_whole_tree. apply ok_get_bind. cbn [set_allow complete inc].
      destruct IV as (R & C & Pt & ER & EC & EP & _). eapply ok_lift_bind; [cbn [set_inc complete]; rewrite EC; apply plan_is_empty_plan_of|].
      assert (NE : pl_paths (plan_of (path_of (rs ++ [better b r']))) <> []). { rewrite paths_plan. intros H. apply (f_equal (@List.length _)) in H. rewrite path_of_len, map_length, app_length in H. cbn in H. lia. }
      destruct (Nat.eqb_spec (List.length C) 0) as [Z2|Z2]; [|match goal with |- ok (if ?b then _ else _) _ _ => destruct b eqn:B end].
      * apply ok_modify. cbn [set_complete set_allow set_inc inc partial complete allow cnd level]. sp; auto. right. cbn [complete allow]. sp; auto. apply Qle_refl.
      * apply ok_modify. cbn [set_complete set_allow set_inc inc partial complete allow cnd level]. sp; auto. right. cbn [complete allow]. sp; auto. apply Qle_refl.
      * apply ok_ret. cbn [set_complete set_allow set_inc inc partial complete allow cnd level] in *. sp; auto. right. cbn [complete allow]. sp; auto.
        -- change (pl_paths (complete s) <> []). rewrite EC. cbn. destruct C; [cbn in Z2; congruence|discriminate].
        -- unfold Qgt_bool in B. apply negb_false_iff, Qle_bool_iff in B. exact B.
    + apply ok_ret. cbn [set_inc inc partial complete allow cnd level]. sp; auto. left. cbn [complete allow]. sp; auto. intros CV. apply Z1. apply CD in CV. now rewrite CV.
Qed.

(** ** Leaves *)

(** What a leaf may still build after [c0] at the root. *)
Definition rest (c0 : @items BV) : @items BV := filter (unused (List.concat [c0])) (p_pool P).

(** Row [r] of leaf [m] belongs to a feasible selection. *)
Definition row_ok (c0 : @items BV) (q0 : Q) (m : node) (r : row) : Prop :=
  exists c q, subseq c (rest c0) /\ opf m [c0; c] = (true, q) /\ row_of_sel c0 q0 m c q r.

(** [r] is at most as dear as the feasible selections among [cs]. *)
Definition cheapest (c0 : @items BV) (q0 : Q) (m : node) (cs : @items BV -> Prop) (r : row) : Prop :=
  forall c q, cs c -> opf m [c0; c] = (true, q) -> (row_total r <= plan_cost P [c0; c] [q0 * 365; q * 365])%Q.

(** A stored complete tree: one root selection, and a feasible selection per leaf. *)
Definition tree_ok (C : list row) : Prop :=
  exists c0 q0, subseq c0 (p_pool P) /\ opf root [c0] = (true, q0) /\ Forall2 (row_ok c0 q0) ls C.

Definition CI (s : info) : Prop := exists C, complete s = plan_of (path_of C) /\ (C = [] \/ tree_ok C).

Definition bounded (s : info) (q : Q) : Prop := pl_paths (complete s) <> [] /\ (total_cost (complete s) <= q)%Q.

Lemma row_ok_path c0 q0 m r : row_ok c0 q0 m r -> r_path r = path_of [root; m].
Proof. intros (c & q & _ & _ & H & _). exact H. Qed.

Lemma rows_paths c0 q0 l1 rs : Forall2 (row_ok c0 q0) l1 rs -> forall x, In x rs -> exists n, In n l1 /\ r_path x = path_of [root; n].
Proof.
  induction 1 as [|m r l1 rs H F IH]; intros x []; [subst x; exists m; split; [now left|eapply row_ok_path; eauto]|]. destruct (IH x H0) as (n & I & E). exists n. split; auto. now right.
Qed.

Lemma rows_of_nodes c0 q0 l1 rs : Forall2 (row_ok c0 q0) l1 rs -> forall n, In n l1 -> exists x, In x rs /\ r_path x = path_of [root; n].
Proof.
  induction 1 as [|m r l1 rs H F IH]; intros n []; [subst n; exists r; split; [now left|eapply row_ok_path; eauto]|]. destruct (IH n H0) as (x & I & E). exists x. split; auto. now right.
Qed.

Lemma covers_all c0 q0 rs : Forall2 (row_ok c0 q0) ls rs -> covers P (path_of rs).
Proof.
  intros F. apply covers_dec. apply remaining_none; auto. intros n I. apply nodes_all in I as [->|I].
  - destruct ls as [|m ls']; [cbn in several; lia|]. inversion F as [|? r ? rs' H F']; subst. exists r. split; [now left|]. rewrite (row_ok_path _ _ _ _ H), path_of_map_snd. now left.
  - destruct (rows_of_nodes _ _ _ _ F n I) as (x & J & E). exists x. split; auto. rewrite E, path_of_map_snd. cbn. auto.
Qed.

Lemma covers_last c0 q0 l1 m l2 rs r : ls = l1 ++ m :: l2 -> Forall2 (row_ok c0 q0) l1 rs -> r_path r = path_of [root; m] -> covers P (path_of (rs ++ [r])) -> l2 = [].
Proof.
  intros E F Er CV. destruct l2 as [|x l2]; auto. exfalso. assert (Ix : In x ls) by (rewrite E; apply in_or_app; cbn; auto).
  destruct (CV x) as ([k y] & J & K); [apply nodes_all; auto|]. assert (Iy : In y (rs ++ [r])) by (rewrite <- path_of_map_snd; now apply (in_map snd) in J). cbn [snd] in K.
  assert (Y : exists n, In n (l1 ++ [m]) /\ r_path y = path_of [root; n]).
  { apply in_app_or in Iy as [I|[<-|[]]]; [destruct (rows_paths _ _ _ _ F y I) as (n & I1 & E1); exists n|exists m]; split; auto; apply in_or_app; cbn; auto. }
  destruct Y as (n & In1 & En). rewrite En, path_of_map_snd in K. destruct K as [K|[K|[]]]; [subst x; now apply root_not_leaf|]. subst n.
  pose proof distinct as D. rewrite E in D. replace (l1 ++ m :: x :: l2) with ((l1 ++ [m]) ++ x :: l2) in D by now rewrite <- app_assoc. apply NoDup_remove_2 in D. apply D. apply in_or_app; auto.
Qed.

Section OneLeaf.
Variable c0 : @items BV.
Variable q0 : Q.
Variable l1 : list node.
Variable m : node.
Variable l2 : list node.
Variable rs : list row.
Hypothesis split_ls : ls = l1 ++ m :: l2.
Hypothesis root_sel : subseq c0 (p_pool P).
Hypothesis root_feas : opf root [c0] = (true, q0).
Hypothesis done : Forall2 (row_ok c0 q0) l1 rs.

(** The incumbent after the selections [tried] at [m]. *)
Definition LI (tried : list (@items BV)) (pt : plan) (s : info) : Prop :=
  exists b, inc s = plan_of (path_of (rs ++ opt b)) /\ partial s = pt /\ CI s /\
  (b = None -> forall c, In c tried -> fst (opf m [c0; c]) = false) /\
  (forall r, b = Some r -> row_ok c0 q0 m r /\ cheapest c0 q0 m (fun c => In c tried) r /\
     (l2 = [] -> allow s = true /\ bounded s (rows_total (rs ++ [r])))).

Lemma LI_ext tried pt s s' : inc s' = inc s -> partial s' = partial s -> complete s' = complete s -> allow s' = allow s -> LI tried pt s -> LI tried pt s'.
Proof. unfold LI, CI, bounded. now intros -> -> -> ->. Qed.

Lemma others x : In x rs -> exists n, r_path x = path_of [root; n] /\ n <> m.
Proof.
  intros I. destruct (rows_paths _ _ _ _ done x I) as (n & J & E). exists n. split; auto. intros ->. pose proof distinct as D. rewrite split_ls in D. apply NoDup_remove_2 in D. apply D. apply in_or_app; auto.
Qed.

Lemma leaf_step2 s l tried c pt : pre P root 1 (List.length l) s l -> new s = new_of c -> addable P l c ->
  sels l = [c0] -> nodes l = [root] -> costs l = [q0 * 365]%Q -> cur s = m -> subseq c (rest c0) -> LI tried pt s ->
  ok (let! feasible := check_feasibility P in
      (if feasible then construction_of_solution ;; optimality_check P else ret tt) ;; ret feasible) s
     (fun f s' => LI (tried ++ [c]) pt s' /\ f = fst (opf m [c0; c])).
Proof.
  intros PR N AD Sl Nl Cl CU SC (b & EI & EP & EC & BN & BS). assert (LF : is_leaf P (cur s)). { rewrite CU. apply leaves. rewrite split_ls. apply in_or_app. cbn. auto. }
  pose proof PR as [PD PY PC PL PP PG PT PCu PI]. pose proof (deep_node _ _ _ PD) as Dn.
  assert (log_ok P (mkCall (cur s) (active_of l c) (sels l ++ [c]))) as LO. { eapply log_ok_call; eauto. lia. }
  pose proof (Inv_log P root s _ (p_opf P (log s) (cur s) (active_of l c)) PI LO) as IV1.
  assert (OE : p_opf P (log s) (cur s) (active_of l c) = opf m [c0; c]).
  { unfold opf. rewrite (opf_fix (log s) []), CU. f_equal. pose proof (lo_imm _ _ LO imm) as LI0. cbn [oc_selected oc_active] in LI0. now rewrite LI0, Sl. }
  apply ok_bind. do 2 eexists. split; [apply (check_feasibility_spec P s l c); auto; apply (gc_nodup _ _ _ _ PG)|].
  rewrite OE. destruct (opf m [c0; c]) as [fb q] eqn:OP. cbn [fst]. destruct fb.
  - apply ok_bind. apply ok_bind. do 2 eexists. split.
    { apply (construction_spec _ l c q); auto. }
    set (st := mkStage (cur (after_check P s l c)) (vmap with_time c) q). set (s1 := set_cnd (cand_of (l ++ [st])) (after_check P s l c)).
    assert (Est : l ++ [st] = extend P s l c). { unfold extend. rewrite OE. reflexivity. }
    assert (CR : cand_ready P root s1 (l ++ [st])).
    { split; auto.
      + rewrite Est. apply extend_good; auto. now rewrite OE.
      + exists (cur s). split; auto. unfold nodes. rewrite map_app, rev_app_distr. reflexivity.
      + rewrite app_length. simpl. replace (List.length l + 1 - 1) with (List.length l) by lia. rewrite Est. now apply extend_times.
      + rewrite app_length. simpl. lia. }
    assert (IV2 : Inv P root s1). { eapply Inv_ext; [..|exact IV1]; reflexivity. }
    assert (En : nodes (l ++ [st]) = [root; m]). { unfold nodes. rewrite map_app. fold (nodes l). rewrite Nl. cbn. now rewrite CU. }
    assert (Es : sels (l ++ [st]) = [c0; c]). { unfold sels. rewrite map_app. fold (sels l). rewrite Sl. cbn [map List.app]. unfold st_ints. cbn [st st_sel]. now rewrite vmap_fst_with_time. }
    assert (Ec : costs (l ++ [st]) = [q0 * 365; q * 365]%Q). { unfold costs. rewrite map_app. fold (costs l). rewrite Cl. reflexivity. }
    eapply ok_conseq.
    { apply (check_step s1 l st m rs b c0 q0 c q CR IV2 PL En Es Ec EI others). intros r E. destruct (BS r E) as (H & _). eapply row_ok_path; eauto. }
    intros _ s2 (r' & RS & EI2 & EP2 & CS). apply ok_ret. split; [|reflexivity].
    assert (OKr' : row_ok c0 q0 m r') by (exists c, q; auto).
    assert (OKb : row_ok c0 q0 m (better b r')). { destruct b as [r|]; cbn [better]; auto. destruct (Qgt_bool _ _); auto. now apply BS. }
    assert (LE : (row_total (better b r') <= row_total r')%Q /\ forall r, b = Some r -> (row_total (better b r') <= row_total r)%Q).
    { destruct b as [r|]; cbn [better]; [|split; [apply Qle_refl|discriminate]]. destruct (Qgt_bool (row_total r) (row_total r')) eqn:B.
      - split; [apply Qle_refl|]. intros x E. injection E as <-. now apply Qgt_bool_le.
      - unfold Qgt_bool in B. apply negb_false_iff, Qle_bool_iff in B. split; auto. intros x E. injection E as <-. apply Qle_refl. }
    destruct LE as [LE1 LE2]. pose proof (row_ok_path _ _ _ _ OKb) as Pb.
    exists (Some (better b r')). cbn [opt]. sp; auto; [now rewrite EP2| |discriminate|].
    + destruct CS as [(_ & E & _)|(CV & _ & [E|E] & _)].
      * unfold CI. rewrite E. exact EC.
      * exists (rs ++ [better b r']). split; auto. right. pose proof (covers_last c0 q0 l1 m l2 rs _ split_ls done Pb CV) as ->. exists c0, q0. sp; auto. rewrite split_ls. apply Forall2_app; auto.
      * unfold CI. rewrite E. exact EC.
    + intros r E. injection E as <-. sp; auto.
      * intros c1 q1 I1 O1. apply in_app_or in I1 as [I1|[<-|[]]].
        -- destruct b as [r|]; [|specialize (BN eq_refl c1 I1); rewrite O1 in BN; discriminate]. eapply Qle_trans; [apply LE2; reflexivity|]. destruct (BS r eq_refl) as (_ & CH & _). now apply CH.
        -- rewrite O1 in OP. injection OP as ->. rewrite <- (row_cost _ _ _ _ _ _ RS). exact LE1.
      * intros L2. destruct CS as [(NC & _)|(CV & AL & _ & NE & LE)].
        -- exfalso. apply NC. apply (covers_all c0 q0). rewrite split_ls, L2. apply Forall2_app; auto.
        -- sp; auto. split; auto. rewrite total_cost_rows, path_of_map_snd in LE. exact LE.
  - apply ok_bind. apply ok_ret. apply ok_ret. split; [|reflexivity]. exists b. cbn [after_check set_opf inc partial complete allow]. sp; auto.
    + intros E c1 I1. apply in_app_or in I1 as [I1|[<-|[]]]; [now apply BN|now rewrite OP].
    + intros r E. destruct (BS r E) as (H1 & H2 & H3). sp; auto. intros c1 q1 I1 O1. apply in_app_or in I1 as [I1|[<-|[]]]; [now apply H2|]. rewrite O1 in OP. discriminate.
Qed.

(** Whether one of [cs] is feasible. *)
Definition some_ok (cs : list (@items BV)) : bool := existsb (fun c => fst (opf m [c0; c])) cs.

Lemma leaf_loop2 l pt : sels l = [c0] -> nodes l = [root] -> costs l = [q0 * 365]%Q ->
  forall combs tried b s, (forall c, In c combs -> subseq c (rest c0)) ->
  pre P root 1 (List.length l) s l -> cur s = m -> new s = no_new -> LI tried pt s ->
  ok (for_acc combs b (fun found comb =>
    add_new_interventions comb ;;
    let! feasible := check_feasibility P in
    (if feasible then construction_of_solution ;; optimality_check P else ret tt) ;;
    modify (set_new no_new) ;;
    ret (if feasible then true else found))) s
    (fun f s' => LI (tried ++ combs) pt s' /\ f = b || some_ok combs /\ last s' = last s).
Proof.
  intros Sl Nl Cl. assert (LF : is_leaf P m). { apply leaves. rewrite split_ls. apply in_or_app. cbn. auto. }
  induction combs as [|c combs IH]; intros tried b s SC PR CU N LS; cbn [for_acc].
  - apply ok_ret. rewrite List.app_nil_r. cbn. rewrite orb_false_r. auto.
  - apply ok_bind. apply ok_bind. do 2 eexists. split; [apply add_new_spec|].
    set (s2 := set_new (new_of c) s).
    assert (pre P root 1 (List.length l) s2 l) as PR2. { destruct PR. split; auto. }
    assert (addable P l c) as AD. { eapply addable_sub; eauto; [apply (pr_good _ _ _ _ _ _ PR)|]. rewrite Sl. apply SC. now left. }
    assert (LF2 : is_leaf P (cur s2)). { cbn. now rewrite CU. }
    eapply ok_pair.
    { apply ok_both; [apply (leaf_try P root rate_ok nonant s2 l c LF2 PR2 eq_refl AD)|].
      apply (leaf_step2 s2 l tried c pt PR2 eq_refl AD Sl Nl Cl CU); [apply SC; now left|]. eapply LI_ext; [..|exact LS]; reflexivity. }
    intros f s3 ((H1 & H2 & H3 & H4 & H5 & H6 & H7 & _) & LS3 & Ef). apply ok_modify_bind. apply ok_ret.
    replace (tried ++ c :: combs) with ((tried ++ [c]) ++ combs) by now rewrite <- app_assoc.
    assert (pre P root 1 (List.length l) s3 l) as PR3.
    { rewrite <- (shift_0 l) at 2. eapply (pre_exit _ _ _ _ s2); eauto; [intros; lia|now rewrite shift_0]. }
    eapply ok_conseq.
    { apply (IH (tried ++ [c]) (if f then true else b) (set_new no_new s3)); auto.
      - intros c' I. apply SC. now right.
      - destruct PR3. split; auto.
      - cbn. rewrite H3. exact CU. }
    intros g s4 (A & B & C). sp; auto; [|cbn in C; rewrite C, H5; reflexivity]. rewrite B, Ef. unfold some_ok. cbn [existsb].
    assert (G : forall x e : bool, (if x then true else b) || e = b || (x || e)) by (intros [] e; destruct b; auto). apply G.
Qed.

Definition leaf_result (pt : plan) (fb : bool) (s' : info) : Prop :=
  partial s' = pt /\ last s' = true /\ CI s' /\
  (fb = false -> (forall c, subseq c (rest c0) -> fst (opf m [c0; c]) = false) /\ inc s' = plan_of (path_of rs)) /\
  (fb = true -> exists r, row_ok c0 q0 m r /\ cheapest c0 q0 m (fun c => subseq c (rest c0)) r /\ inc s' = plan_of (path_of (rs ++ [r])) /\
     (l2 = [] -> allow s' = true /\ bounded s' (rows_total (rs ++ [r])))).

Lemma leaf_solve f s l : pre P root (S f) (List.length l - 1) s l -> sels l = [c0] -> nodes l = [root] -> costs l = [q0 * 365]%Q ->
  cur s = m -> inc s = plan_of (path_of rs) -> CI s -> ok (solve P (S f)) s (leaf_result (partial s)).
Proof.
  intros PR Sl Nl Cl CU EI EC. assert (LF : is_leaf P (cur s)). { rewrite CU. apply leaves. rewrite split_ls. apply in_or_app. cbn. auto. }
  cbn [solve]. unfold solve_body. apply ok_modify_bind. apply ok_get_bind. set (s0 := set_new no_new s).
  assert (pre P root (S f) (List.length l - 1) s0 l) as PR0. { destruct PR. split; auto. }
  apply ok_bind. eapply ok_conseq; [apply (enter_ok P root _ _ _ PR0 eq_refl)|].
  intros adj s1 (E1 & PR1 & Z1 & AD).
  apply (ok_lift_bind _ []). { unfold neighbours. change (cur s0) with (cur s). unfold is_leaf, successors in LF. now rewrite LF. }
  apply ok_modify_bind. set (s2 := set_last true s1). set (l' := shift_all (- adj) l) in *.
  assert (C1 : cur s1 = cur s) by (rewrite E1; reflexivity).
  assert (pre P root 1 (List.length l') s2 l') as PR2.
  { unfold l' at 1. rewrite shift_length. apply pre_1 with (f := S f); [|cbn; now rewrite C1]. destruct PR1. split; auto. }
  assert (LF2 : is_leaf P (cur s2)). { cbn. now rewrite C1. }
  assert (AD0 : addable P l' []). { apply addable_nil. apply (gc_nodup _ _ _ _ (pr_good _ _ _ _ _ _ PR2)). }
  assert (Sl' : sels l' = [c0]) by (unfold l'; now rewrite shift_sels). assert (Nl' : nodes l' = [root]) by (unfold l'; now rewrite shift_nodes). assert (Cl' : costs l' = [q0 * 365]%Q) by (unfold l'; now rewrite shift_costs).
  assert (LS0 : LI [] (partial s) s2).
  { unfold s2. rewrite E1. exists None. cbn [opt]. rewrite List.app_nil_r. split; [exact EI|split; [reflexivity|split; [exact EC|split; [intros _ c []|discriminate]]]]. }
  assert (N2 : new s2 = no_new). { cbn. rewrite E1. reflexivity. }
  assert (CU2 : cur s2 = m) by (cbn; congruence).
  eapply ok_pair.
  { apply ok_both; [apply (leaf_try P root rate_ok nonant s2 l' [] LF2 PR2 N2 AD0)|].
    apply (leaf_step2 s2 l' [] [] (partial s) PR2 N2 AD0 Sl' Nl' Cl' CU2); [apply subseq_nil|exact LS0]. }
  intros b s3 ((H1 & H2 & H3 & H4 & H5 & H6 & H7 & _) & LS3 & Eb).
  assert (pre P root 1 (List.length l') s3 l') as PR3.
  { rewrite <- (shift_0 l') at 2. eapply (pre_exit _ _ _ _ s2); eauto; [intros; lia|now rewrite shift_0]. }
  apply ok_bind. unfold optimise_last_node. apply ok_get_bind.
  eapply ok_lift_bind.
  { apply (available_year_spec P pool_nodup s3 l'); [apply (pr_cnd _ _ _ _ _ _ PR3)|now rewrite H2|apply (gc_pool _ _ _ _ (pr_good _ _ _ _ _ _ PR3))]. }
  rewrite (av_all P imm), Sl'. fold (rest c0). eapply ok_conseq.
  { apply (leaf_loop2 l' (partial s) Sl' Nl' Cl' (all_combinations (rest c0)) [[]] false s3); auto.
    - intros c I. apply all_combinations_spec in I. apply I.
    - rewrite H3. exact CU2.
    - rewrite H2. exact N2. }
  intros g s4 ((bb & EI4 & EP4 & EC4 & BN & BS) & Eg & La). apply ok_modify_bind. apply ok_ret.
  assert (ALL : forall c, subseq c (rest c0) -> In c ([[]] ++ all_combinations (rest c0))).
  { intros c S. destruct c as [|x c]; [now left|right]. apply all_combinations_spec. split; auto. discriminate. }
  unfold leaf_result. cbn [set_level inc partial complete allow last]. rewrite La, H5. cbn [orb] in Eg.
  assert (FB : (if b then true else g) = match bb with None => false | Some _ => true end).
  { destruct bb as [r|].
    - destruct (BS r eq_refl) as ((c & q & S & O & _) & _). destruct b; auto. rewrite Eg. apply existsb_exists. destruct (ALL c S) as [<-|I]; [discriminate (eq_trans Eb (f_equal fst O))|]. exists c. split; [exact I|exact (f_equal fst O)].
    - rewrite Eb, (BN eq_refl []) by now left. rewrite Eg. unfold some_ok. destruct (existsb _ _) eqn:X; auto. apply existsb_exists in X as (c & I & X). rewrite (BN eq_refl c) in X; [discriminate|now right]. }
  rewrite FB. sp; auto.
  - destruct bb; [discriminate|]. intros _. split; [intros c S; apply BN; auto|]. now rewrite EI4, List.app_nil_r.
  - destruct bb as [r|]; [|discriminate]. intros _. exists r. destruct (BS r eq_refl) as (R1 & R2 & R3). sp; auto. intros c q S O. apply R2; auto.
Qed.
End OneLeaf.

(** ** The leaves in turn *)

(** Some leaf of [ms] has no feasible selection. *)
Definition stuck (c0 : @items BV) (ms : list node) : Prop :=
  exists m, In m ms /\ forall c, subseq c (rest c0) -> fst (opf m [c0; c]) = false.

Definition below_root (r : row) : Prop := exists n, r_path r = path_of [root; n].

Definition best_row (c0 : @items BV) (q0 : Q) (m : node) (r : row) : Prop :=
  row_ok c0 q0 m r /\ cheapest c0 q0 m (fun c => subseq c (rest c0)) r.

Lemma best_ok c0 q0 ms rs : Forall2 (best_row c0 q0) ms rs -> Forall2 (row_ok c0 q0) ms rs.
Proof. induction 1 as [|? ? ? ? [H _]]; constructor; auto. Qed.

Lemma explore_leaves f (c0 : @items BV) q0 ms : subseq c0 (p_pool P) -> opf root [c0] = (true, q0) -> forall l1 rs s l, ls = l1 ++ ms ->
  Forall2 (row_ok c0 q0) l1 rs -> (forall m, In m ms -> m <> 0 /\ deep P (S f) m) ->
  List.length l + S f <= List.length (p_years P) -> cnd s = cand_of l -> (level s + 1)%Z = Z.of_nat (List.length l) ->
  good_cand P root (log s) l -> times_ok P (List.length l - 1) l -> Inv P root s ->
  sels l = [c0] -> nodes l = [root] -> costs l = [q0 * 365]%Q ->
  inc s = plan_of (path_of rs) -> CI s ->
  ok (explore_list (solve P (S f)) ms) s (fun b s' => partial s' = partial s /\ CI s' /\ (ms <> [] -> last s' = true) /\
    (b = true -> exists rs', Forall2 (best_row c0 q0) ms rs' /\ inc s' = plan_of (path_of (rs ++ rs')) /\
       (ms <> [] -> allow s' = true /\ bounded s' (rows_total (rs ++ rs')))) /\
    (b = false -> stuck c0 ms /\ exists rs', inc s' = plan_of (path_of rs') /\ Forall below_root rs')).
Proof.
  intros RS RF. induction ms as [|m ms IH]; intros l1 rs s l SP DN DP Ly E Lv G T IV Sl Nl Cl EI EC.
  - apply ok_ret. sp; auto; try congruence. intros _. exists []. rewrite List.app_nil_r. sp; auto. congruence.
  - cbn [explore_list]. apply ok_modify_bind. apply ok_bind. destruct (DP m ltac:(now left)) as [Nm Dm].
    set (s1 := set_cur m (set_level (level s + 1)%Z s)).
    assert (Im : In m ls) by (rewrite SP; apply in_or_app; cbn; auto).
    assert (pre P root (S f) (List.length l - 1) s1 l) as PR.
    { split; auto. cbn [s1 set_cur cur]. rewrite Nl. split; [reflexivity|]. cbn. split; auto. exists ls. auto. }
    eapply ok_conseq.
    { apply ok_both; [apply (solve_correct P root pool_nodup rate_ok nonant (S f) s1 l PR)|].
      apply (leaf_solve c0 q0 l1 m ms rs SP RS RF DN f s1 l PR Sl Nl Cl eq_refl EI EC). }
    intros b s2 (((d & D & E2 & C2 & I2 & A2) & N2 & L2 & _) & P2 & La2 & CI2 & F2 & T2).
    assert (level s2 = level s) as L2' by (rewrite L2; cbn; lia).
    assert (exists lg, log s2 = log s ++ lg) as (lg & El) by apply A2.
    destruct b.
    + destruct (T2 eq_refl) as (r & R1 & R2 & EI2 & AB2). destruct ms as [|m2 ms].
      { apply ok_ret. split; [exact P2|split; [auto|split; [auto|split; [|discriminate]]]]. intros _. exists [r]. sp; auto. repeat constructor; auto. }
      eapply ok_conseq.
      { apply (IH (l1 ++ [m]) (rs ++ [r]) s2 (shift_all d l)); auto.
        - now rewrite <- app_assoc.
        - apply Forall2_app; auto.
        - intros m' I'. apply DP. now right.
        - now rewrite shift_length.
        - rewrite shift_length. congruence.
        - rewrite El. now apply good_cand_mono, good_cand_shift.
        - rewrite shift_length. now apply times_ok_shift.
        - now rewrite shift_sels.
        - now rewrite shift_nodes.
        - now rewrite shift_costs. }
      intros b' s3 (P3 & CI3 & La3 & T3 & F3). split; [rewrite P3; exact P2|split; [auto|split; [intros _; apply La3; discriminate|split]]].
      * intros X. destruct (T3 X) as (rs' & B3 & EI3 & AB3). exists (r :: rs'). rewrite <- app_assoc in EI3, AB3. sp; auto; [constructor; auto; split; auto|]. intros _. apply AB3. discriminate.
      * intros X. destruct (F3 X) as ((m' & I' & H') & O3). split; auto. exists m'. split; auto. now right.
    + apply ok_ret. destruct (F2 eq_refl) as (NF & EI2). split; [exact P2|split; [auto|split; [auto|split; [discriminate|]]]]. intros _. split; [exists m; split; auto; now left|]. exists rs. split; auto. apply Forall_forall. intros x Ix. destruct (rows_paths _ _ _ _ DN x Ix) as (n & _ & En). exists n. exact En.
Qed.

(** ** One selection at the root *)

(** A choice of interventions: [c0] at the root and [g m] at leaf [m]. *)
Definition choice_ok (c0 : @items BV) (g : node -> @items BV) : Prop :=
  subseq c0 (p_pool P) /\ fst (opf root [c0]) = true /\
  forall m, In m ls -> subseq (g m) (rest c0) /\ fst (opf m [c0; g m]) = true.

(** Its cost: for every leaf, the discounted cost of the way to it. *)
Definition choice_cost (c0 : @items BV) (g : node -> @items BV) : Q :=
  sumQ (map (fun m => plan_cost P [c0; g m] [snd (opf root [c0]) * 365; snd (opf m [c0; g m]) * 365]%Q) ls).

Definition answered (c0 : @items BV) (b : bool) (s : info) : Prop :=
  (forall g, choice_ok c0 g -> bounded s (choice_cost c0 g)) /\ (b = true <-> exists g, choice_ok c0 g).

Lemma bounded_advance s s' q : advance s s' -> bounded s q -> bounded s' q.
Proof. intros [_ H] [N L]. destruct (H N) as [N' L']. split; auto. eapply Qle_trans; eauto. Qed.

Lemma best_total c0 q0 g rs : opf root [c0] = (true, q0) -> choice_ok c0 g -> Forall2 (best_row c0 q0) ls rs -> (rows_total rs <= choice_cost c0 g)%Q.
Proof.
  intros O (_ & _ & G) F. unfold rows_total, choice_cost. rewrite O. cbn [snd].
  assert (X : forall ms rs', incl ms ls -> Forall2 (best_row c0 q0) ms rs' -> (sumQ (map row_total rs') <= sumQ (map (fun m => plan_cost P [c0; g m] [q0 * 365; snd (opf m [c0; g m]) * 365]%Q) ms))%Q).
  { intros ms rs' I F'. induction F' as [|m r ms rs' [R1 R2] F' IH]; [apply Qle_refl|]. cbn [map sumQ fold_right]. apply Qplus_le_compat.
    - destruct (G m) as (S & Fs); [apply I; now left|]. apply R2; auto. destruct (opf m [c0; g m]); cbn in *. congruence.
    - apply IH. intros x J. apply I. now right. }
  apply X; auto. apply incl_refl.
Qed.

Lemma choose (Q : node -> @items BV -> Prop) ms : (forall m, In m ms -> exists c, Q m c) -> exists g, forall m, In m ms -> Q m (g m).
Proof.
  induction ms as [|m ms IH]; intros H; [exists (fun _ => []); intros m []|]. destruct IH as (g & G); [intros x I; apply H; now right|]. destruct (H m) as (c & C); [now left|].
  exists (fun n => if Nat.eqb n m then c else g n). intros n I. destruct (Nat.eqb_spec n m) as [->|D]; auto. destruct I as [->|I]; [congruence|auto].
Qed.

Lemma rows_choice (c0 : @items BV) q0 rs : subseq c0 (p_pool P) -> opf root [c0] = (true, q0) -> Forall2 (row_ok c0 q0) ls rs ->
  exists g : node -> @items BV, choice_ok c0 g /\ (rows_total rs == choice_cost c0 g)%Q /\
    Forall2 (fun m r => row_of_sel c0 q0 m (g m) (snd (opf m [c0; g m])) r) ls rs.
Proof.
  intros RS O F. 
  assert (X : forall ms rs', NoDup ms -> Forall2 (row_ok c0 q0) ms rs' -> exists g : node -> @items BV, (forall m, In m ms -> subseq (g m) (rest c0) /\ fst (opf m [c0; g m]) = true) /\
     (sumQ (map row_total rs') == sumQ (map (fun m => plan_cost P [c0; g m] [q0 * 365; snd (opf m [c0; g m]) * 365]%Q) ms))%Q /\ Forall2 (fun m r => row_of_sel c0 q0 m (g m) (snd (opf m [c0; g m])) r) ms rs').
  { intros ms rs' ND F'. induction F' as [|m r ms rs' H F' IH]; [exists (fun _ => []); sp; auto; [intros m []|reflexivity]|]. inversion ND as [|? ? NI ND']; subst. destruct (IH ND') as (g & G1 & G2 & G3).
    destruct H as (c & q & S & Oc & RW). exists (fun n => if Nat.eqb n m then c else g n). assert (SAME : forall n, In n ms -> (if Nat.eqb n m then c else g n) = g n). { intros n I. destruct (Nat.eqb_spec n m) as [->|D]; auto. contradiction. }
    sp.
    - intros n [<-|I]; [rewrite Nat.eqb_refl; exact (conj S (f_equal fst Oc))|]. rewrite (SAME n I). exact (G1 n I).
    - cbn [map sumQ fold_right]. rewrite Nat.eqb_refl. pose proof (f_equal snd Oc) as Oq. cbn [snd] in Oq. apply Qplus_comp; [rewrite (row_cost _ _ _ _ _ _ RW), <- Oq; reflexivity|]. unfold sumQ in *. rewrite G2. erewrite map_ext_in; [reflexivity|]. intros n I. cbn beta. now rewrite (SAME n I).
    - constructor; [rewrite Nat.eqb_refl; pose proof (f_equal snd Oc) as Oq; cbn [snd] in Oq; exact (eq_ind_r (fun x => row_of_sel c0 q0 m c x r) RW Oq)|]. clear - G3 SAME. induction G3 as [|n r' ms rs' W G3 IH]; constructor; [rewrite (SAME n (or_introl eq_refl)); exact W|]. apply IH. intros x I. apply SAME. now right. }
  destruct (X ls rs distinct F) as (g & G1 & G2 & G3). exists g. sp; auto.
  - split; auto. split; auto. exact (f_equal fst O).
  - unfold rows_total, choice_cost. rewrite O. exact G2.
Qed.

Lemma eliminate_all s rs c : inc s = plan_of (path_of rs) -> partial s = empty_plan -> cnd s = cand_of [c] -> st_node c = root -> Forall below_root rs ->
  ok eliminate_offsprings s (fun _ s' => inc s' = empty_plan /\ partial s' = empty_plan /\ complete s' = complete s).
Proof.
  intros EI EP EC Nc BR. destruct (eliminate_exact s (path_of rs) []) as (s' & R' & E & EI' & Pm & _ & _ & Co & _ & _ & _ & _ & (Pt' & EP' & Ip) & _); auto.
  { rewrite path_of_keys. apply NoDup_map_inj; [apply str_nat_inj|apply seq_NoDup]. }
  exists tt, s'. split; auto. sp; auto.
  - rewrite EI'. replace (filter _ (path_of rs)) with (@nil (string * row)) in Pm; [apply Permutation_sym, Permutation_nil in Pm; destruct R'; [reflexivity|discriminate]|]. symmetry.
    assert (X : forall l, (forall x, In x l -> below_root (snd x)) -> filter (fun x : string * row => negb (path_in (path_of [root]) (r_path (snd x)))) l = []).
    { induction l as [|x l IH]; intros H; auto. cbn [filter]. destruct (H x ltac:(now left)) as (n & ->). replace (path_in (path_of [root]) (path_of [root; n])) with true; [cbn [negb]; apply IH; intros y Y; apply H; now right|]. symmetry. unfold path_in. apply (path_contains_prefix Nat.eqb Nat.eqb_eq). exists [n]. reflexivity. }
    replace (c_path (cnd s)) with (path_of [root]) by (rewrite EC; cbn; now rewrite Nc). apply X. intros x I. apply (in_map snd) in I. rewrite path_of_map_snd in I. rewrite Forall_forall in BR. now apply BR.
  - rewrite EP'. destruct Pt' as [|x ?]; [reflexivity|]. destruct (Ip x). now left.
Qed.

Definition idle (s : info) : Prop := inc s = empty_plan /\ partial s = empty_plan /\ CI s.

Lemma root_try f s (c0 : @items BV) : pre P root (S (S f)) 0 s [] -> cur s = root -> new s = new_of c0 -> subseq c0 (p_pool P) -> idle s ->
  ok (exploration_of_current_solution P (solve P (S f))) s (fun b s' => idle s' /\ answered c0 b s').
Proof.
  intros PR CU N SC (EI & EP & EC). pose proof PR as [PD PY PC PL PP PG PT PCu PI]. pose proof (deep_node _ _ _ PD) as Dn. cbn [List.length] in *.
  assert (AD : addable P [] c0). { split; [now apply subseq_incl|]. cbn. rewrite List.app_nil_r. eapply subseq_NoDup; [apply subseq_map; exact SC|exact pool_nodup]. }
  unfold exploration_of_current_solution.
  assert (log_ok P (mkCall (cur s) (active_of [] c0) (sels [] ++ [c0]))) as LO. { eapply log_ok_call; eauto. cbn. lia. }
  assert (OE : p_opf P (log s) (cur s) (active_of [] c0) = opf root [c0]).
  { unfold opf. rewrite (opf_fix (log s) []), CU. f_equal. pose proof (lo_imm _ _ LO imm) as LI0. cbn [oc_selected oc_active] in LI0. now rewrite LI0. }
  apply ok_bind. do 2 eexists. split; [apply (check_feasibility_spec P s [] c0); auto; constructor|].
  pose proof (Inv_log P root s _ (p_opf P (log s) (cur s) (active_of [] c0)) PI LO) as IV1.
  rewrite OE. destruct (opf root [c0]) as [fb q0] eqn:OP. cbn [fst]. destruct fb.
  2:{ apply ok_ret. split; [split; auto|]. split.
      - intros g (_ & H & _). rewrite OP in H. discriminate.
      - split; [discriminate|]. intros (g & _ & H & _). rewrite OP in H. discriminate. }
  apply ok_bind. do 2 eexists. split. { apply (construction_spec _ [] c0 q0); auto. }
  change (cur (after_check P s [] c0)) with (cur s). cbn [List.app]. set (st := mkStage (cur s) (vmap with_time c0) q0). set (s1 := set_cnd (cand_of [st]) (after_check P s [] c0)).
  assert (Est : [st] = extend P s [] c0). { unfold extend. rewrite OE. reflexivity. }
  destruct PD as (PDn & chs & CHS & CH). assert (chs = ls) as ->. { rewrite CU in CHS. unfold successors in *. congruence. }
  assert (Sl : sels [st] = [c0]). { unfold sels. cbn [map]. unfold st_ints. cbn [st st_sel]. now rewrite vmap_fst_with_time. }
  assert (Nl : nodes [st] = [root]). { cbn. now rewrite CU. }
  assert (G1 : good_cand P root (log s1) [st]). { rewrite Est. apply extend_good; auto. now rewrite OE. }
  assert (T1 : times_ok P (List.length [st] - 1) [st]). { rewrite Est. apply (extend_times P s [] c0 PT). }
  assert (I1 : Inv P root s1). { eapply Inv_ext; [..|exact IV1]; reflexivity. }
  apply ok_bind. unfold graph_exploration, exploration_of_successors. apply ok_bind. apply ok_bind. do 2 eexists. split; [reflexivity|].
  apply (ok_lift_bind _ ls). { unfold neighbours. cbn [s1 set_cnd after_check set_opf cur]. rewrite CU. unfold successors in succ. now rewrite succ. }
  apply ok_bind. eapply ok_conseq.
  { apply ok_both.
    - apply (explore_list_ok P root (S f) (solve P (S f)) root ls s1 [st]); auto.
      + apply solve_correct; auto.
      + intros m I. destruct (CH m I). split; [exists ls; auto|auto].
      + discriminate.
      + cbn [s1 set_cnd after_check set_opf level List.length]. lia.
      + now rewrite Nl.
    - apply (explore_leaves f c0 q0 ls SC OP [] [] s1 [st]); auto.
      + cbn [s1 set_cnd after_check set_opf level List.length]. lia. }
  assert (NE : ls <> []). { intros H. rewrite H in several. cbn in several. lia. }
  intros b s2 ((d & D & E2 & L2 & I2 & A2 & _) & P2 & CI2 & La2 & T2 & F2).
  apply ok_modify_bind. apply ok_ret. apply ok_get_bind. set (s3 := set_cur (cur s1) s2).
  apply ok_bind.
  assert (X : exists rs, inc s3 = plan_of (path_of rs) /\ Forall below_root rs /\ negb b || allow s3 = true).
  { destruct b.
    - destruct (T2 eq_refl) as (rs & B2 & EI2 & AB2). exists rs. sp; [exact EI2| |cbn; apply AB2; auto]. apply Forall_forall. intros x I. destruct (rows_paths _ _ _ _ (best_ok _ _ _ _ B2) x I) as (n & _ & En). exists n. exact En.
    - destruct (F2 eq_refl) as (_ & rs & EI2 & B2). exists rs. auto. }
  destruct X as (rs & EI3 & BR & ->).
  assert (E3 : cnd s3 = cand_of [shift_stage d st]) by exact E2.
  apply (ok_conseq _ _ (fun _ s' => (Inv P root s' /\ keeps s3 s') /\ (inc s' = empty_plan /\ partial s' = empty_plan /\ complete s' = complete s2))).
  { apply ok_both.
    - eapply ok_conseq; [apply (eliminate_ok P root); eapply Inv_ext; [..|exact I2]; reflexivity|]. intros _ s' (? & ? & ? & ?). auto.
    - apply (eliminate_all s3 rs (shift_stage d st) EI3); auto. cbn [s3 set_cur partial]. rewrite P2. exact EP. }
  intros _ s4 ((I4 & K1 & K2 & K3 & K4) & EI4 & EP4 & EC4). apply ok_ret. apply ok_bind. do 2 eexists. split.
  { apply (return_spec P nonant s4 [] (shift_stage d st)).
    - rewrite K1. exact E3.
    - rewrite K4. cbn [s3 set_cur level]. rewrite L2. exact PL. }
  apply ok_ret. split; [split; [exact EI4|split; [exact EP4|]]; unfold CI; cbn [set_cnd complete]; rewrite EC4; exact CI2|].
  split.
  - intros g G. unfold bounded. cbn [set_cnd complete]. rewrite EC4. change (bounded s2 (choice_cost c0 g)). destruct b.
    + destruct (T2 eq_refl) as (rs2 & B2 & _ & AB2). destruct (AB2 NE) as (_ & BN & BL). split; auto. eapply Qle_trans; [exact BL|]. cbn [List.app]. apply (best_total c0 q0); auto.
    + destruct (F2 eq_refl) as ((m & I & H) & _). destruct G as (_ & _ & G). destruct (G m I) as (S & Fs). discriminate (eq_trans (eq_sym (H _ S)) Fs).
  - destruct b; split; auto; try discriminate.
    + intros _. destruct (T2 eq_refl) as (rs2 & B2 & _). destruct (rows_choice c0 q0 rs2 SC OP (best_ok _ _ _ _ B2)) as (g & G & _). now exists g.
    + intros (g & _ & _ & G). destruct (F2 eq_refl) as ((m & I & H) & _). destruct (G m I) as (S & Fs). discriminate (eq_trans (eq_sym (H _ S)) Fs).
Qed.

Lemma close_idle s : idle s -> cur s = root -> ok (close_exploration P) s (fun _ s' => idle s' /\ complete s' = complete s).
Proof.
  intros (EI & EP & EC) CU. unfold close_exploration. apply ok_get_bind. apply ok_bind.
  apply (ok_conseq _ _ (fun _ s' => inc s' = empty_plan /\ partial s' = empty_plan /\ complete s' = complete s /\ cur s' = cur s)).
  { destruct (last s); [|apply ok_ret; auto]. unfold store_partial_tree. apply ok_get_bind. eapply ok_lift_bind; [rewrite EP; reflexivity|]. cbv iota. apply ok_modify. cbn [set_partial inc partial complete cur]. auto. }
  intros _ s1 (EI1 & EP1 & EC1 & CU1). apply ok_get_bind. eapply ok_lift_bind. { unfold neighbours. rewrite CU1, CU. unfold successors in succ. rewrite succ. reflexivity. }
  assert (FIN : forall s', inc s' = empty_plan -> partial s' = empty_plan -> complete s' = complete s -> idle s' /\ complete s' = complete s).
  { intros s' A B C. split; auto. split; auto. split; auto. unfold CI. rewrite C. exact EC. }
  match goal with |- ok (if ?b then _ else _) _ _ => destruct b end; [|apply ok_ret; auto].
  apply ok_bind. destruct (eliminate_exact s1 [] []) as (s' & R' & E & EI' & Pm & _ & _ & Co & _ & _ & _ & _ & (Pt' & EP' & Ip) & _); auto; [constructor|].
  exists tt, s'. split; auto. apply ok_modify. apply FIN; cbn [set_last inc partial complete]; [| |congruence].
  - cbn in Pm. apply Permutation_sym, Permutation_nil in Pm. rewrite EI'. destruct R'; [reflexivity|discriminate].
  - rewrite EP'. destruct Pt' as [|x ?]; [reflexivity|]. destruct (Ip x). now left.
Qed.

(** ** All selections at the root *)

Definition ready_root (f : nat) (s : info) : Prop := pre P root (S (S f)) 0 s [] /\ cur s = root /\ idle s.

Lemma one_selection f s (c0 : @items BV) : ready_root f s -> new s = new_of c0 -> subseq c0 (p_pool P) ->
  ok (let! b := exploration_of_current_solution P (solve P (S f)) in close_exploration P ;; ret b) s
     (fun b s' => ready_root f s' /\ advance s s' /\ (new s' = new s \/ new s' = no_new) /\ answered c0 b s').
Proof.
  intros (PR & CU & ID) N SC. apply ok_bind.
  assert (AD : addable P [] c0). { split; [now apply subseq_incl|]. cbn. rewrite List.app_nil_r. eapply subseq_NoDup; [apply subseq_map; exact SC|exact pool_nodup]. }
  eapply ok_conseq.
  { apply ok_both; [apply (exploration_ok P root nonant (S f) (solve P (S f)) s [] c0); auto; apply solve_correct; auto|apply (root_try f s c0 PR CU N SC ID)]. }
  intros b s1 (((d & D & E1 & C1 & I1 & A1) & N1 & L1 & _) & ID1 & AN). apply ok_bind.
  assert (X1 : exit P root s s1 []) by (exists d; auto).
  eapply ok_conseq.
  { apply ok_both; [apply (close_exit P root _ _ s s1 [] PR X1)|apply (close_idle s1 ID1); congruence]. }
  intros _ s2 ((((d2 & D2 & E2 & C2 & I2 & A2) & N2 & L2) & A12) & ID2 & EC2). apply ok_ret. sp; auto.
  - split; [|split; [congruence|exact ID2]]. apply (pre_exit P root _ _ s s2 [] d2 PR D2 E2 C2); auto. congruence.
  - destruct N1 as [H|H]; [left|right]; congruence.
  - destruct AN as [B1 B2]. split; auto. intros g G. unfold bounded. rewrite EC2. apply (B1 g G).
Qed.

Lemma root_loop f combs : (forall c, In c combs -> subseq c (p_pool P)) -> forall b s, ready_root f s -> new s = no_new ->
  ok (for_acc combs b (fun found comb =>
    add_new_interventions comb ;;
    let! ok := exploration_of_current_solution P (solve P (S f)) in
    close_exploration P ;;
    modify (set_new no_new) ;;
    ret (if ok then true else found))) s
  (fun b' s' => ready_root f s' /\ new s' = no_new /\ advance s s' /\
     (forall c g, In c combs -> choice_ok c g -> bounded s' (choice_cost c g)) /\
     (b' = true <-> b = true \/ exists c g, In c combs /\ choice_ok c g)).
Proof.
  induction combs as [|c combs IH]; intros SC b s AR N; cbn [for_acc].
  - apply ok_ret. sp; auto; [apply advance_refl|intros c g []|]. split; auto. intros [H|(c & g & [] & _)]. exact H.
  - apply ok_bind. apply ok_bind. do 2 eexists. split; [apply add_new_spec|]. set (s1 := set_new (new_of c) s).
    assert (AR1 : ready_root f s1). { destruct AR as (PR & CU & ID). split; [destruct PR; split; auto|split; auto]. }
    eapply ok_pair; [apply (one_selection f s1 c AR1 eq_refl); apply SC; now left|].
    intros ok1 s2 (AR2 & A2 & _ & AN1 & AN2). apply ok_modify_bind. apply ok_ret.
    assert (AR3 : ready_root f (set_new no_new s2)). { destruct AR2 as (PR & CU & ID). split; [destruct PR; split; auto|split; auto]. }
    eapply ok_conseq; [apply (IH ltac:(intros x I; apply SC; now right) (if ok1 then true else b) _ AR3 eq_refl)|].
    intros b' s4 (AR4 & N4 & A4 & B4 & F4). sp; auto.
    + eapply advance_trans; [apply (advance_same s s1); reflexivity|]. eapply advance_trans; [exact A2|]. eapply advance_trans; [apply (advance_same s2 (set_new no_new s2)); reflexivity|exact A4].
    + intros x g [<-|I] G; auto. eapply bounded_advance; [exact A4|]. exact (AN1 g G).
    + rewrite F4. destruct ok1.
      * split; auto. intros _. right. destruct (proj1 AN2 eq_refl) as (g & G). exists c, g. split; auto. now left.
      * split; intros [H|(x & g & I & G)]; auto; [right; exists x, g; split; auto; now right|]. destruct I as [<-|I]; [|right; now exists x, g]. assert (X : false = true) by (apply AN2; now exists g). discriminate.
Qed.

Lemma pool_all : filter (unused (List.concat (sels []))) (p_pool P) = p_pool P.
Proof. apply filter_all. intros x _. reflexivity. Qed.

(** The whole search from the root. *)
Theorem two_stage_search f s : pre P root f 0 s [] -> cur s = root -> idle s ->
  ok (solve P f) s (fun b s' => idle s' /\
    (forall c g, choice_ok c g -> bounded s' (choice_cost c g)) /\
    (b = true <-> exists c g, c <> [] /\ choice_ok c g)).
Proof.
  intros PR CU ID. assert (FF : exists f', f = S (S f')).
  { pose proof (pr_deep _ _ _ _ _ _ PR) as D. destruct f as [|[|f']]; [destruct D| |now exists f']. destruct D as (_ & chs & CHS & CH). rewrite CU in CHS. assert (chs = ls) as -> by (unfold successors in *; congruence).
    destruct ls as [|x l]; [cbn in several; lia|]. destruct (CH x) as [_ []]. now left. }
  destruct FF as (f' & ->). cbn [solve]. fold (solve P (S f')). unfold solve_body. apply ok_modify_bind. apply ok_get_bind. set (s0 := set_new no_new s).
  assert (pre P root (S (S f')) (@List.length stage [] - 1) s0 []) as PR0. { destruct PR. split; auto. }
  apply ok_bind. eapply ok_conseq; [apply (enter_ok P root _ _ _ PR0 eq_refl)|]. intros adj s1 (E1 & PR1 & _ & _). rewrite shift_nil in *.
  assert (E1' : s1 = s0). { rewrite E1, <- (pr_cnd _ _ _ _ _ _ PR0). now destruct s0. }
  rewrite E1' in *. clear E1 E1'.
  apply (ok_lift_bind _ ls). { unfold neighbours. change (cur s0) with (cur s). rewrite CU. unfold successors in succ. now rewrite succ. }
  assert (AR0 : ready_root f' s0) by (split; [exact PR1|split; [exact CU|exact ID]]).
  assert (HL : exists x0 l0, ls = x0 :: l0). { destruct ls as [|x0 l0]; [cbn in several; lia|now exists x0, l0]. }
  destruct HL as (x0 & l0 & HL). rewrite HL.
  eapply ok_pair; [apply (one_selection f' s0 [] AR0 eq_refl (subseq_nil _))|].
  intros b1 s2 (AR2 & A2 & N2 & AN1 & _). assert (N2' : new s2 = no_new) by (destruct N2 as [->| ->]; reflexivity).
  apply ok_bind.
  apply (ok_conseq _ _ (fun b s' => idle s' /\ (forall c g, choice_ok c g -> bounded s' (choice_cost c g)) /\ (b = true <-> exists c g, c <> [] /\ choice_ok c g) /\ cur s' = root /\ cnd s' = cand_of [] /\ new s' = no_new)).
  { unfold interventions_handler. apply ok_get_bind. destruct AR2 as (PR2 & CU2 & ID2).
    rewrite (available_spec_nil P pool_nodup s2 []); [|apply (pr_cnd _ _ _ _ _ _ PR2)|exact N2'|intros ? []]. rewrite pool_all.
    apply ok_bind. eapply ok_conseq; [apply (root_loop f' (all_combinations (p_pool P))) with (b := false)|].
    - intros c I. now apply all_combinations_spec in I.
    - split; auto.
    - exact N2'.
    - intros b s3 ((PR3 & CU3 & EI3 & EP3 & CI3) & N3 & A3 & B3 & F3). apply ok_get_bind. eapply ok_lift_bind; [rewrite EP3; reflexivity|]. cbn [negb andb]. apply ok_bind. apply ok_ret. apply ok_ret. split; [split; auto|]. split; [|split; [|split; [exact CU3|split; [exact (pr_cnd _ _ _ _ _ _ PR3)|exact N3]]]].
      + intros c g G. destruct c as [|x c]; [eapply bounded_advance; [exact A3|exact (AN1 g G)]|]. apply B3; auto. apply all_combinations_spec. split; [apply G|discriminate].
      + rewrite F3. split.
        * intros [H|(c & g & I & G)]; [discriminate|]. exists c, g. split; auto. now apply all_combinations_spec in I.
        * intros (c & g & NE & G). right. exists c, g. split; [apply all_combinations_spec; exact (conj (proj1 G) NE)|exact G]. }
  intros b s4 (ID4 & B4 & F4 & CU4 & CN4 & N4). apply ok_get_bind. apply ok_bind.
  apply (ok_conseq _ _ (fun _ s' => s' = s4)).
  { destruct (Nat.eqb (cur s4) 0); [apply ok_ret; auto|]. do 2 eexists. split; [apply (update_times_spec _ [] s4 CN4 N4); constructor|]. rewrite shift_nil, <- CN4. now destruct s4. }
  intros _ s5 ->. apply ok_modify_bind. apply ok_ret. sp; auto.
Qed.
End TwoStage.
