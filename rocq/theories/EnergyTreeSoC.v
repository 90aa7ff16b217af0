(** The states of charge that the constraints allow. *)
From Coq Require Import List Bool Arith ZArith QArith Qfield Lia Lqa.
From Verif Require Import Base Cases CasesSpec CasesProofs CasesClusters EnergyTree EnergyTreeSpec EnergyTreeProofs EnergyTreeLinks.
Import ListNotations.
Open Scope nat_scope.
Open Scope list_scope.

Local Ltac sp := repeat match goal with |- _ /\ _ => split end.

(** ** Sums *)

Definition sumf (f : nat -> Q) (n : nat) : Q := fold_right Qplus 0%Q (map f (seq 0 n)).

Lemma fold_app (l l' : list Q) : (fold_right Qplus 0 (l ++ l') == fold_right Qplus 0 l + fold_right Qplus 0 l')%Q.
Proof. induction l as [|x l IH]; cbn [List.app fold_right]; [ring|]. rewrite IH. ring. Qed.

Lemma sumf_S f n : (sumf f (S n) == sumf f n + f n)%Q.
Proof. unfold sumf. rewrite <- Nat.add_1_r, seq_snoc, map_app, fold_app. cbn [map fold_right]. cbn [Nat.add]. ring. Qed.

Lemma sumf_ext f g n : (forall i, i < n -> (f i == g i)%Q) -> (sumf f n == sumf g n)%Q.
Proof. induction n as [|n IH]; intros H; [reflexivity|]. rewrite !sumf_S, IH, H by auto. reflexivity. Qed.

Lemma sumf_plus f g n : (sumf (fun i => f i + g i) n == sumf f n + sumf g n)%Q.
Proof. induction n as [|n IH]; [reflexivity|]. rewrite !sumf_S, IH. ring. Qed.

Lemma sumf_scale a f n : (sumf (fun i => a * f i) n == a * sumf f n)%Q.
Proof. induction n as [|n IH]; [unfold sumf; cbn; ring|]. rewrite !sumf_S, IH. ring. Qed.

Lemma sumf_const a n : (sumf (fun _ => a) n == inject_Z (Z.of_nat n) * a)%Q.
Proof. induction n as [|n IH]; [unfold sumf; cbn; ring|]. rewrite sumf_S, IH. replace (Z.of_nat (S n)) with (Z.of_nat n + 1)%Z by lia. rewrite inject_Z_plus. ring. Qed.

Lemma sumf_add f n m : (sumf f (n + m) == sumf f n + sumf (fun i => f (n + i)%nat) m)%Q.
Proof.
  induction m as [|m IH]; [rewrite Nat.add_0_r; unfold sumf at 3; cbn; ring|]. replace (n + S m) with (S (n + m)) by lia. rewrite !sumf_S, IH. ring.
Qed.

Lemma sumf_block f w l : (sumf f (w * l) == sumf (fun j => sumf (fun c => f (j * l + c)%nat) l) w)%Q.
Proof. induction w as [|w IH]; [reflexivity|]. rewrite sumf_S, <- IH. replace (S w * l) with (w * l + l) by lia. apply sumf_add. Qed.

Section SoC.
Variable lens : list nat.
Hypothesis pos : Forall (fun n => 0 < n) lens.
Variable unc : list bool.
Hypothesis unc_len : List.length unc = depth lens.
Hypothesis depth_pos : 0 < depth lens.
Hypothesis first_certain : uncertain unc 0 = false.
Variable t : tree.
Hypothesis T : is_tree lens unc t.
Notation P := (depth lens).
Notation N := (nodes lens).
Notation len := (len lens).
Notation width := (width lens).
Notation node := (node lens).
Notation fspec := (fwd_spec lens unc).

Variable weight input output : nat -> Q.
Variable v : nat -> nat -> Q.
Hypothesis not_single : List.length (marked lens t) <> 1.
Hypothesis feas : feasible weight input output (links_spec lens t (List.length (marked lens t) - 1)) v.
Notation net := (net lens weight input output).

Lemma node_range k j : 0 < k -> k <= P -> j < width k -> 1 <= node k j < N.
Proof. intros K KP J. pose proof (node_nodes lens k j KP J). unfold EnergyTreeSpec.node in *. pose proof (off_pos lens k K). lia. Qed.

Lemma ll1_node k j : 0 < k -> k <= P -> j < width k -> nth (node k j) (ll1_spec lens t) (0, 0) = fspec k j.
Proof.
  intros K KP J. pose proof (node_range k j K KP J) as R. unfold ll1_spec. pose proof (it_fwd _ _ _ T k j K KP J) as F. revert R F. generalize (node k j). intros x R F. destruct x as [|x]; [lia|]. cbn [nth].
  rewrite (nth_indep _ (0, 0) (nth 0 (tr_fwd t) (0, 0))) by (rewrite map_length, seq_length; lia). rewrite (map_nth (fun x => nth x (tr_fwd t) (0, 0))). rewrite seq_nth by lia. cbn [Nat.add]. now apply nth_error_nth.
Qed.

Lemma balance k j : 0 < k -> k <= P -> j < width k -> (v (node k j) 0 == v (fst (fspec k j)) (snd (fspec k j)) + input (node k j) - output (node k j))%Q.
Proof.
  intros K KP J. destruct feas as (_ & B & _). pose proof (node_range k j K KP J) as R. specialize (B (node k j)). cbn [lk_bal links_spec] in B. specialize (B ltac:(lia)). unfold balance_rule in B. cbn [lk_ll1 links_spec] in B. now rewrite ll1_node in B.
Qed.

Lemma aggregate k j : 0 < k -> k <= P -> j < width k -> uncertain unc k = false ->
  (v (node k j) 1 == v (fst (bwd_spec lens k j)) (snd (bwd_spec lens k j)) * weight (node k j) + v (fst (fspec k j)) (snd (fspec k j)) * (1 - weight (node k j)))%Q.
Proof.
  intros K KP J U. destruct feas as (_ & _ & A & _). pose proof (node_range k j K KP J) as R. assert (I : In (node k j) (unmarked lens t)). { apply filter_In. split; [apply in_seq; lia|]. rewrite (mark_node lens unc t T) by auto. now rewrite U. }
  apply (In_nth _ _ 0) in I as (i & Hi & E). specialize (A (i + 1)). cbn [lk_agg links_spec] in A. specialize (A ltac:(lia)). unfold aggregate_rule in A. cbn [lk_ll1 lk_ll2 links_spec] in A. rewrite Nat.add_1_r in A. cbn [nth] in A.
  rewrite (nth_indep _ (0, (0, 0)) (row2 t 0)) in A by (now rewrite map_length). rewrite map_nth, E in A. cbn [row2 fst snd] in A. rewrite ll1_node in A by auto. now rewrite (nth_error_nth _ _ (0, 0) (it_bwd _ _ _ T k j K KP J)) in A.
Qed.

Lemma stochastic k j : 0 < k -> k < P -> j < width k -> uncertain unc k = true ->
  (v (node k j) 1 == v (fst (fspec k j)) (snd (fspec k j)) * (1 - weight (node k j)) +
     weight (node k j) * (v (node k j) 0%nat * - inject_Z (Z.of_nat (len k - 1)) + sumf (fun c => v (node (k + 1) (j * len k + c)) 1%nat) (len k)))%Q.
Proof.
  intros K KP J U. destruct feas as (_ & _ & _ & A & _). pose proof (node_range k j K ltac:(lia) J) as R. assert (I : In (node k j) (marked lens t)). { apply filter_In. split; [apply in_seq; lia|]. rewrite (mark_node lens unc t T) by (auto; lia). now rewrite U. }
  assert (L : List.length (marked lens t) <> 0) by (destruct (marked lens t); cbn in *; [tauto|lia]).
  apply (In_nth _ _ 0) in I as (i & Hi & E). cbn [lk_unc links_spec] in A. specialize (A ltac:(lia) i ltac:(lia)). unfold stochastic_rule in A. cbn [lk_ll1 lk_ll3 links_spec] in A.
  rewrite (nth_indep _ (0, (0, 0)) (row3 t 0)) in A by (now rewrite map_length). rewrite map_nth, E in A. unfold row3 in A. cbn [fst snd] in A. rewrite ll1_node in A by (auto; lia).
  rewrite (nth_error_nth _ _ (0, 0) (it_after _ _ _ T k j KP J)) in A. unfold after_spec in A. cbn [fst snd] in A. pose proof (len_pos lens pos k KP) as LP.
  replace (node (k + 1) (j * len k + len k) - 1 - node (k + 1) (j * len k)) with (len k - 1) in A by (unfold EnergyTreeSpec.node; lia). replace (len k - 1 + 1) with (len k) in A by lia. rewrite A. unfold sumf.
  assert (EM : map (fun x1 => v (node (k + 1) (j * len k) + x1) 1) (seq 0 (len k)) = map (fun c => v (node (k + 1) (j * len k + c)) 1) (seq 0 (len k))). { apply map_ext. intros c. f_equal. unfold EnergyTreeSpec.node. lia. }
  rewrite EM. reflexivity.
Qed.

Lemma children_chain k j : k < P -> j < width k -> uncertain unc k = false ->
  (forall c, c < len k -> (v (node (k + 1) (j * len k + c)) 1 == v (fst (fspec (k + 1) (j * len k + c))) (snd (fspec (k + 1) (j * len k + c))) + net (P - (k + 1)) (k + 1) (j * len k + c))%Q) ->
  forall c, c < len k -> (v (node (k + 1) (j * len k + c)) 1 == v (node k j) 0%nat + sumf (fun c => net (P - (k + 1)) (k + 1)%nat (j * len k + c)%nat) (S c))%Q.
Proof.
  intros K J U H c. induction c as [|c IH]; intros C; rewrite H by auto; rewrite fwd_S, U, orb_false_r; destruct (child_div lens k j _ C) as [Dv Md]; rewrite Dv, Md; cbn [Nat.eqb fst snd].
  - rewrite sumf_S. unfold sumf at 1. cbn [seq map fold_right]. ring.
  - replace (node (k + 1) (j * len k + S c) - 1) with (node (k + 1) (j * len k + c)) by (unfold EnergyTreeSpec.node; lia). rewrite IH by lia. rewrite (sumf_S _ (S c)). ring.
Qed.

Lemma children_end k j : k < P -> j < width k -> uncertain unc k = false ->
  (forall c, c < len k -> (v (node (k + 1) (j * len k + c)) 1 == v (fst (fspec (k + 1) (j * len k + c))) (snd (fspec (k + 1) (j * len k + c))) + net (P - (k + 1)) (k + 1) (j * len k + c))%Q) ->
  (v (node (k + 1) (j * len k + len k) - 1) 1 == v (node k j) 0%nat + sumf (fun c => net (P - (k + 1)) (k + 1)%nat (j * len k + c)%nat) (len k))%Q.
Proof.
  intros K J U H. pose proof (len_pos lens pos k K) as LP. pose proof (children_chain k j K J U H (len k - 1) ltac:(lia)) as E. replace (S (len k - 1)) with (len k) in E by lia. rewrite <- E. replace (node (k + 1) (j * len k + len k) - 1)%nat with (node (k + 1) (j * len k + (len k - 1))) by (unfold EnergyTreeSpec.node; lia). reflexivity.
Qed.

Lemma net_step k j n : (net (S n) k j == weight (node k j) * (input (node k j) - output (node k j) + sumf (fun c => net n (k + 1) (j * len k + c)) (len k)))%Q.
Proof. reflexivity. Qed.

Theorem levels : forall n k j, n = P - k -> 0 < k -> k <= P -> j < width k ->
  (v (node k j) 1 == v (fst (fspec k j)) (snd (fspec k j)) + net n k j)%Q.
Proof.
  induction n as [|n IH]; intros k j En K KP J.
  - assert (k = P) by lia. subst k. rewrite (aggregate P j K KP J). 2:{ unfold uncertain. now rewrite nth_overflow by lia. }
    unfold bwd_spec. rewrite Nat.ltb_irrefl. cbn [fst snd]. rewrite (balance P j) by auto. cbn [EnergyTreeSpec.net]. ring.
  - assert (KL : k < P) by lia. assert (H : forall c, c < len k -> (v (node (k + 1) (j * len k + c)) 1 == v (fst (fspec (k + 1) (j * len k + c))) (snd (fspec (k + 1) (j * len k + c))) + net n (k + 1) (j * len k + c))%Q).
    { intros c C. apply IH; try lia. now apply child_lt. }
    rewrite net_step. destruct (uncertain unc k) eqn:U.
    + rewrite (stochastic k j) by auto. assert (E : (sumf (fun c => v (node (k + 1) (j * len k + c)) 1%nat) (len k) == inject_Z (Z.of_nat (len k)) * v (node k j) 0%nat + sumf (fun c => net n (k + 1) (j * len k + c)) (len k))%Q).
      { rewrite <- sumf_const, <- sumf_plus. apply sumf_ext. intros c C. rewrite H by auto. rewrite fwd_S, U, orb_true_r. destruct (child_div lens k j _ C) as [Dv Md]. rewrite Dv. reflexivity. }
      rewrite E. pose proof (len_pos lens pos k KL) as LP. replace (Z.of_nat (len k)) with (Z.of_nat (len k - 1) + 1)%Z by lia. rewrite inject_Z_plus. rewrite (balance k j) by auto. ring.
    + rewrite (aggregate k j) by auto. unfold bwd_spec. replace (k <? P) with true by (symmetry; apply Nat.ltb_lt; auto). cbn [fst snd]. replace n with (P - (k + 1)) in * by lia. rewrite (children_end k j) by auto. rewrite (balance k j) by auto. ring.
Qed.

Theorem final : (v (node 1 (len 0) - 1) 1 == sumf (fun c => net (P - 1) 1%nat c) (len 0))%Q.
Proof.
  pose proof (children_end 0 0 depth_pos ltac:(cbn; lia) first_certain) as H. cbn [Nat.add Nat.mul] in H. rewrite H.
  - destruct feas as (Z0 & _). pose proof (Z0 0 ltac:(lia)) as Z. unfold zero_rule in Z. change (node 0 0) with 0. rewrite Z. ring.
  - intros c C. apply (levels (P - 1) 1 c); auto; try lia. change 1 with (0 + 1). rewrite width_S. cbn. lia.
Qed.

(** Weight of the nodes before a node, and the sum over all nodes. *)
Fixpoint path_weight (k j : nat) : Q := match k with O => 1%Q | S k' => (path_weight k' (j / len k') * weight (node (S k') j))%Q end.

Lemma path_S k j : path_weight (k + 1) j = (path_weight k (j / len k) * weight (node (k + 1) j))%Q.
Proof. rewrite Nat.add_1_r. reflexivity. Qed.

Lemma level_sum n : forall k, n = P - (k + 1) -> k < P ->
  (sumf (fun j => path_weight k (j / len k) * net n (k + 1)%nat j) (width (k + 1)) ==
   sumf (fun i => sumf (fun j => path_weight (k + 1 + i)%nat j * (input (node (k + 1 + i) j) - output (node (k + 1 + i) j))) (width (k + 1 + i))) (S n))%Q.
Proof.
  induction n as [|n IH]; intros k En K.
  - rewrite sumf_S. unfold sumf at 2. cbn [seq map fold_right]. rewrite Nat.add_0_r. rewrite Qplus_0_l. apply sumf_ext. intros j J. rewrite path_S. cbn [EnergyTreeSpec.net]. ring.
  - specialize (IH (k + 1) ltac:(lia) ltac:(lia)).
    assert (E : (sumf (fun j => path_weight k (j / len k) * net (S n) (k + 1)%nat j) (width (k + 1)) == sumf (fun j => path_weight (k + 1) j * (input (node (k + 1) j) - output (node (k + 1) j))) (width (k + 1)) + sumf (fun j => path_weight (k + 1) (j / len (k + 1)) * net n (k + 1 + 1)%nat j) (width (k + 1 + 1)))%Q).
    { rewrite (width_S lens (k + 1)), sumf_block, <- sumf_plus. apply sumf_ext. intros j J. rewrite net_step, path_S.
      assert (E1 : (sumf (fun c => path_weight (k + 1) ((j * len (k + 1) + c) / len (k + 1)) * net n (k + 1 + 1)%nat (j * len (k + 1) + c)%nat) (len (k + 1)) == path_weight (k + 1) j * sumf (fun c => net n (k + 1 + 1)%nat (j * len (k + 1) + c)%nat) (len (k + 1)))%Q).
      { rewrite <- sumf_scale. apply sumf_ext. intros c C. rewrite (proj1 (child_div lens (k + 1) j c C)). reflexivity. }
      rewrite E1, path_S. ring. }
    rewrite E, IH. replace (S (S n)) with (1 + S n) by lia. rewrite (sumf_add _ 1 (S n)). apply Qplus_comp.
    + rewrite sumf_S. unfold sumf at 2. cbn [seq map fold_right]. rewrite Nat.add_0_r. ring.
    + apply sumf_ext. intros i Hi. replace (k + 1 + 1 + i) with (k + 1 + (1 + i)) by lia. reflexivity.
Qed.

Theorem final_sum : (v (node 1 (len 0) - 1) 1 == sumf (fun i => sumf (fun j => path_weight (1 + i)%nat j * (input (node (1 + i) j) - output (node (1 + i) j))) (width (1 + i))) P)%Q.
Proof.
  rewrite final. pose proof (level_sum (P - 1) 0 ltac:(lia) depth_pos) as E. cbn [Nat.add] in E. replace (S (P - 1)) with P in E by lia. rewrite <- E. replace (width 1) with (len 0) by (cbn [EnergyTreeSpec.width]; lia). apply sumf_ext. intros j J. cbn [path_weight]. ring.
Qed.
End SoC.
