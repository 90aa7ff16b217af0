(** The control tree as input of the planner. *)
From Coq Require Import List String Bool Arith ZArith QArith Lia Permutation Sorted.
From Verif Require Import Base Container Graph GraphSpec GraphProofs GraphTree GraphData GraphDataProofs.
From Verif Require Import Planner PlannerSpec PlannerFacts.
Import ListNotations.
Open Scope nat_scope.
Open Scope list_scope.

Local Ltac sp := repeat match goal with |- _ /\ _ => split end.

(** NonAnticipativeRecursiveFunction.py:182-192 (initialise): what the planner takes from the
    control graph. *)
Definition problem_of (ct : control) (rate : Q) (pool : @items BV) (opf : list opf_call -> node -> list BV -> bool * Q) : problem :=
  mkProblem (map (fun n => (n, succ (ct_graph ct) n)) (g_nodes (ct_graph ct))) (map fst (ct_nodes ct)) (ct_years ct) rate pool true opf.

Lemma walk_snoc g : forall ns n m, walk g ns -> hd_error (rev ns) = Some n -> In (n, m) (g_edges g) -> walk g (ns ++ [m]).
Proof.
  induction ns as [|a ns IH]; intros n m W L J; [exact I|]. destruct ns as [|b ns].
  - simpl in *. injection L as ->. auto.
  - destruct W as [W1 W2]. split; auto. apply (IH n m); auto. simpl in L |- *.
    destruct (rev ns ++ [b]) eqn:E; [destruct (rev ns); discriminate|]. exact L.
Qed.

Lemma walk_last g : forall ns n, walk g (ns ++ [n]) -> walk g ns /\ forall a, hd_error (rev ns) = Some a -> In (a, n) (g_edges g).
Proof.
  induction ns as [|x ns IH]; intros n W; [split; [exact I|discriminate]|]. destruct ns as [|y ns].
  - simpl in *. split; auto. intros a E. injection E as <-. tauto.
  - destruct W as [W1 W2]. destruct (IH n W2) as [A B]. split; [split; auto|]. intros a E. apply B. simpl in E |- *.
    destruct (rev ns ++ [y]) eqn:E'; [destruct (rev ns); discriminate|]. exact E.
Qed.

Lemma staged_walk g root st D ns : staged g root st D -> rooted g root ns -> forall i n, nth_error ns i = Some n -> In n (g_nodes g) /\ st n = i.
Proof.
  intros SG [H W]. induction ns as [|m ns IH] using rev_ind; intros i n E; [destruct i; discriminate|].
  destruct (walk_last _ _ _ W) as [W1 L1]. destruct ns as [|x ns].
  - simpl in H. injection H as ->. destruct i as [|[|i]]; try discriminate. injection E as <-. split; [apply (root_in _ _ _ _ SG)|apply (root_stage _ _ _ _ SG)].
  - assert (H' : hd_error (x :: ns) = Some root) by exact H. specialize (IH H' W1).
    destruct (lt_eq_lt_dec i (List.length (x :: ns))) as [[Lt|EQ]|Gt].
    + rewrite nth_error_app1 in E by auto. auto.
    + subst i. rewrite nth_error_app2, Nat.sub_diag in E by lia. injection E as <-.
      destruct (rev (x :: ns)) as [|a r] eqn:ER; [apply (f_equal (@List.length nat)) in ER; rewrite rev_length in ER; discriminate|].
      specialize (L1 a eq_refl). split; [now apply (sg_ends _ _ _ _ SG) in L1|]. apply (sg_next _ _ _ _ SG) in L1. rewrite L1. simpl. f_equal.
      destruct (IH (List.length ns) a) as [_ S]; auto.
      apply (f_equal (@rev nat)) in ER. rewrite rev_involutive in ER. rewrite ER. simpl.
      assert (LL : List.length (rev r) = List.length ns) by (apply (f_equal (@List.length nat)) in ER; simpl in ER; rewrite app_length in ER; simpl in ER; lia).
      rewrite nth_error_app2 by lia. now rewrite LL, Nat.sub_diag.
    + assert (NN : nth_error ((x :: ns) ++ [m]) i = None) by (apply nth_error_None; rewrite app_length; simpl in *; lia). congruence.
Qed.

Lemma hd_rev_nth {A} (ns : list A) : forall n, hd_error (rev ns) = Some n <-> nth_error ns (List.length ns - 1) = Some n.
Proof.
  destruct ns as [|x ns] using rev_ind; [simpl; intros; split; discriminate|]. intros n. rewrite rev_app_distr, app_length. simpl.
  replace (List.length ns + 1 - 1) with (List.length ns) by lia. rewrite nth_error_app2, Nat.sub_diag by lia. simpl. tauto.
Qed.

Section Unfolded.
Context {V : Type}.
Variables (g t : digraph) (d d' : list (nat * V)) (st : nat -> nat) (D : nat) (o : nat -> nat).
Hypothesis SG : staged g 0 st D.
Hypothesis AR : arborescence t 0.
Hypothesis UN : unfolds g d 0 t d' o.

Lemma rooted_length ms : rooted t 0 ms -> List.length ms <= D + 1.
Proof.
  intros R. pose proof (un_down _ _ _ _ _ _ UN ms R) as RG.
  destruct ms as [|x l] using rev_ind; [simpl; lia|]. rewrite map_app in RG. simpl in RG.
  destruct (staged_walk _ _ _ _ _ SG RG (List.length l) (o x)) as [I S].
  { rewrite nth_error_app2 by (rewrite map_length; lia). now rewrite map_length, Nat.sub_diag. }
  apply (sg_last _ _ _ _ SG) in I. rewrite app_length. simpl. lia.
Qed.

(** A walk that ends in a leaf of the tree runs through all stages. *)
Lemma leaf_walk ms n : rooted t 0 ms -> hd_error (rev ms) = Some n -> succ t n = [] -> List.length ms = D + 1.
Proof.
  intros R L S. pose proof (un_down _ _ _ _ _ _ UN ms R) as RG. pose proof (rooted_length ms R) as LE.
  destruct (Nat.eq_dec (List.length ms) (D + 1)) as [|NE]; auto. exfalso.
  assert (EL : nth_error (map o ms) (List.length ms - 1) = Some (o n)) by (apply hd_rev_nth in L; now apply map_nth_error).
  destruct (staged_walk _ _ _ _ _ SG RG _ _ EL) as [I ST].
  assert (1 <= List.length ms) by (destruct ms; [discriminate|simpl; lia]).
  destruct (sg_succ _ _ _ _ SG (o n) I) as [b Ib]; [lia|].
  destruct (un_up _ _ _ _ _ _ UN (map o ms ++ [b])) as (ms' & R' & E').
  { destruct RG as [H1 H2]. split; [destruct ms; [discriminate|exact H1]|]. apply (walk_snoc g _ (o n)); auto. apply hd_rev_nth. now rewrite map_length. }
  destruct ms' as [|y l] using rev_ind; [destruct (map o ms); discriminate|]. clear IHl. rewrite map_app in E'. simpl in E'.
  apply app_inj_tail in E' as [E1 E2]. destruct R' as [H1 H2]. destruct (walk_last _ _ _ H2) as [W1 W2].
  assert (l = ms) as ->. { apply (un_one _ _ _ _ _ _ UN); auto. split; auto. destruct l; [|exact H1]. simpl in E1. destruct ms; [simpl in *; lia|discriminate]. }
  specialize (W2 n L). apply succ_In in W2. rewrite S in W2. destruct W2.
Qed.
End Unfolded.

Lemma adj_find_map (g : digraph) : forall l n, In n l -> adj_find n (map (fun n => (n, succ g n)) l) = Some (succ g n).
Proof.
  induction l as [|a l IH]; intros n I; [destruct I|]. simpl. destruct (Nat.eqb_spec a n) as [->|NE]; auto. destruct I; [congruence|auto].
Qed.

Lemma adj_find_none (g : digraph) : forall l n, ~ In n l -> adj_find n (map (fun n => (n, succ g n)) l) = None.
Proof.
  induction l as [|a l IH]; intros n I; auto. simpl in *. destruct (Nat.eqb_spec a n) as [->|NE]; [exfalso; auto|apply IH; tauto].
Qed.

Section Link.
Variables (ct : control) (rate : Q) (pool : @items BV) (opf : list opf_call -> node -> list BV -> bool * Q).
Let t := ct_graph ct.
Let P := problem_of ct rate pool opf.
Hypothesis ends : forall a b, In (a, b) (g_edges t) -> In a (g_nodes t) /\ In b (g_nodes t).
Hypothesis keys : forall n, In n (map fst (ct_nodes ct)) <-> In n (g_nodes t).

Lemma edge_iff a b : is_edge P a b <-> In (a, b) (g_edges t).
Proof.
  unfold is_edge, successors. simpl. split.
  - intros (l & E & I). destruct (in_dec Nat.eq_dec a (g_nodes t)) as [Ia|Na].
    + fold t in E. rewrite (adj_find_map t _ a Ia) in E. injection E as <-. now apply succ_In in I.
    + fold t in E. rewrite (adj_find_none t _ a Na) in E. discriminate.
  - intros I. exists (succ t a). split; [apply adj_find_map; now apply ends in I|now apply succ_In].
Qed.

Lemma linked_iff ns : linked P ns <-> walk t ns.
Proof.
  induction ns as [|a ns IH]; [simpl; tauto|]. destruct ns as [|b ns]; [simpl; tauto|].
  change (is_edge P a b /\ linked P (b :: ns) <-> In (a, b) (g_edges t) /\ walk t (b :: ns)). now rewrite edge_iff, IH.
Qed.

Lemma leaf_iff n : is_leaf P n -> succ t n = [].
Proof.
  unfold is_leaf, successors. simpl. fold t. intros E. destruct (in_dec Nat.eq_dec n (g_nodes t)) as [I|N].
  - rewrite adj_find_map in E; auto. now injection E.
  - rewrite adj_find_none in E; auto. discriminate.
Qed.

Lemma deep_tree_ok d g st D o : staged g 0 st D -> arborescence t 0 -> unfolds g d 0 t (ct_nodes ct) o -> deep P (D + 1) 0.
Proof.
  intros SG AR UN. assert (G : forall f ns n, rooted t 0 ns -> hd_error (rev ns) = Some n -> In n (g_nodes t) -> List.length ns + f = D + 2 -> deep P f n).
  { induction f as [|f IH]; intros ns n R L I E.
    - pose proof (rooted_length _ _ _ _ _ _ _ SG UN ns R). lia.
    - simpl. split; [now apply keys|]. exists (succ t n). split; [now apply adj_find_map|]. intros m Im. apply succ_In in Im.
      split. { intros ->. destruct AR as (_ & P0 & _). apply pred_In in Im. rewrite P0 in Im. destruct Im. }
      destruct R as [H W]. apply (IH (ns ++ [m])).
      + split; [destruct ns; [discriminate|exact H]|]. now apply (walk_snoc t _ n).
      + rewrite rev_app_distr. reflexivity.
      + now apply ends in Im.
      + rewrite app_length. simpl. lia. }
  apply (G (D + 1) [0] 0); [split; simpl; auto|reflexivity|apply AR|simpl; lia].
Qed.
End Link.
