(** The data of the temporal tree as the model for GLPK reads them. *)
From Coq Require Import List String Bool Arith ZArith QArith Lia Lqa.
From Verif Require Import Base Cases Network GraphData GraphDataProofs CasesSpec CasesProofs CasesClusters ClusteringProofs HydroTables EnergyTree EnergyTreeSpec EnergyTreeProofs EnergyTreeLinks EnergyTreeSoC EnergyTreeData Properties_EnergyTree Glpk GlpkSpec GlpkProofs GlpkEnergy GlpkEnergyProofs.
Import ListNotations.
Open Scope nat_scope.
Open Scope list_scope.
Local Ltac sp := repeat match goal with |- _ /\ _ => split end.

Definition fwd_of (e : energy) (n : nat) : nat * nat := nth n (lk_ll1 (en_links e)) (0, 0).
Definition bwd_of (e : energy) (n : nat) : nat * nat := snd (nth n (lk_ll2 (en_links e)) (0, (0, 0))).
Definition weight_of (e : energy) (n : nat) : Q := nth n (en_weight e) 0%Q.
Definition input_of (e : energy) (v n : nat) : Q := nth v (nth n (en_in e) []) 0%Q.
Definition output_of (e : energy) (v n : nat) : Q := nth v (nth n (en_out e) []) 0%Q.

Section Data.
Variables (d : level) (data : list level).
Notation all := (d :: data).
Notation V := (rows (lv_inputs d)).
Notation lens := (map lv_names all).
Hypothesis F : Forall (level_ok V) all.
Hypothesis U : lv_unc d = false.

Lemma row_len A (f : level -> list (list Q)) t x : (forall l, In l all -> Forall (fun r => List.length r = V) (f l)) -> List.length (flat_map f all) + 1 = A -> nth x (tr_inout t) 0 < A -> List.length (nth (nth x (tr_inout t) 0) (repeat 0%Q V :: flat_map f all) []) = V.
Proof.
  intros H L X. set (i := nth x (tr_inout t) 0) in *. assert (I : In (nth i (repeat 0%Q V :: flat_map f all) []) (repeat 0%Q V :: flat_map f all)) by (apply nth_In; cbn [List.length]; lia). destruct I as [E|I]; [rewrite <- E; apply repeat_length|].
  apply in_flat_map in I as (l & J & I). specialize (H l J). rewrite Forall_forall in H. now apply H.
Qed.

(** What initialisation builds. *)
Lemma tree_data : exists e t, initialise all = Ok e /\ is_tree lens (map lv_unc all) t /\ en_links e = links_spec lens t (List.length (marked lens t) - 1) /\ sz_vectors (en_sizes e) = V /\
  List.length (en_weight e) = nodes lens /\
  (forall j i, j < nodes lens -> i < V -> entry_of (en_in e) j i = Ok (input_of e i j) /\ entry_of (en_out e) j i = Ok (output_of e i j)) /\
  (forall i, i < V -> input_of e i 0 = 0%Q /\ output_of e i 0 = 0%Q).
Proof.
  destruct (initialise_spec d data F) as (t & T & E). assert (pos : Forall (fun n => 0 < n) lens) by (now apply (data_pos all V)). assert (D0 : 0 < depth lens) by (unfold depth; cbn; lia).
  assert (D : depth lens = List.length all) by (apply map_length). assert (UL : List.length (map lv_unc all) = depth lens) by (now rewrite D, map_length).
  rewrite (link_spec lens pos (map lv_unc all) UL D0 V _ t T) in E by (unfold uncertain; exact U). cbn [rbind] in E. eexists _, t. split; [exact E|]. split; [exact T|]. split; [reflexivity|]. split; [reflexivity|]. cbn [en_weight en_in en_out]. split; [now rewrite map_length, seq_length|].
  pose proof (N_pos lens _ UL D0) as N0.
  assert (LI : forall x, x < nodes lens -> nth x (tr_inout t) 0 < List.length (win_of V all) /\ nth x (tr_inout t) 0 < List.length (wout_of V all)).
  { intros x X. destruct (node_surj lens _ x X) as (k & j & K0 & J & ->). assert (K : k <= depth lens) by lia. rewrite (nth_error_nth _ _ _ (it_inout _ _ _ T k j K J)). assert (G : forall f, (forall l, In l all -> List.length (f l) = lv_names l) -> inout_spec lens k j < List.length (repeat 0%Q V :: flat_map f all)).
    { intros f Hf. destruct k as [|k]; [cbn; lia|]. cbn [inout_spec]. assert (Hk : k < List.length all) by (rewrite <- D; lia). destruct (nth_error all k) as [l|] eqn:El; [|apply nth_error_None in El; lia]. rewrite (data_len all k l El). assert (LP : 0 < lv_names l) by (rewrite Forall_forall in F; apply (F l); eapply nth_error_In; eauto).
      apply nth_error_Some. rewrite (head_nth _ f all k l); [|apply Forall_forall; auto|auto|apply Nat.mod_upper_bound; lia]. apply nth_error_Some. rewrite Hf by (eapply nth_error_In; eauto). apply Nat.mod_upper_bound. lia. }
    split; apply G; intros l _; [unfold rows_in|unfold rows_out]; now rewrite map_length, seq_length. }
  assert (RI : forall x, x < nodes lens -> List.length (in_at all V t x) = V /\ List.length (out_at all V t x) = V).
  { intros x X. destruct (LI x X) as (A & B). split; [unfold in_at, win_of in *|unfold out_at, wout_of in *]; (eapply row_len; [|reflexivity|cbn [List.length] in *; lia]); intros l _; apply Forall_forall; intros r I; [unfold rows_in in I|unfold rows_out in I]; apply in_map_iff in I as (c & <- & _); unfold row_of; now rewrite map_length, seq_length. }
  assert (NM : forall (f : nat -> list Q) x, x < nodes lens -> nth_error (map f (seq 0 (nodes lens))) x = Some (f x)). { intros f x X. rewrite nth_error_map, (nth_error_nth' _ 0), seq_nth by (rewrite ?seq_length; auto). reflexivity. }
  split.
  - intros j i J I. destruct (RI j J) as (A & B). unfold entry_of, input_of, output_of. cbn [en_in en_out]. split.
    + rewrite (at_some _ _ _ (NM (in_at all V t) j J)), bind_ok. apply at_some. rewrite (nth_error_nth _ _ _ (NM (in_at all V t) j J)). apply nth_error_nth'. lia.
    + rewrite (at_some _ _ _ (NM (out_at all V t) j J)), bind_ok. apply at_some. rewrite (nth_error_nth _ _ _ (NM (out_at all V t) j J)). apply nth_error_nth'. lia.
  - intros i I. unfold input_of, output_of. cbn [en_in en_out]. rewrite (nth_error_nth _ _ _ (NM (in_at all V t) 0 N0)), (nth_error_nth _ _ _ (NM (out_at all V t) 0 N0)). unfold in_at, out_at. pose proof (it_inout _ _ _ T 0 0 ltac:(lia) ltac:(cbn; lia)) as X. change (node lens 0 0) with 0 in X. rewrite (nth_error_nth _ _ _ X). cbn [inout_spec win_of wout_of nth].
    split; apply List.nth_repeat.
Qed.

(** Entries of the linked lists. *)
Lemma fwd_bound t k j : is_tree lens (map lv_unc all) t -> 0 < k -> k <= depth lens -> j < width lens k ->
  fst (fwd_spec lens (map lv_unc all) k j) < node lens k j /\ snd (fwd_spec lens (map lv_unc all) k j) < 2.
Proof.
  intros T K KP J. assert (pos : Forall (fun n => 0 < n) lens) by (now apply (data_pos all V)). destruct k as [|k]; [lia|]. cbn [fwd_spec]. replace (S k) with (k + 1) in J by lia. destruct (child_of lens pos k j ltac:(lia) J) as (i & c & Hi & Hc & Ej & Dv & Md).
  rewrite Dv. destruct (_ || _); cbn [fst snd]; (split; [|lia]); unfold node; replace (S k) with (k + 1) by lia; rewrite off_S; lia.
Qed.
Lemma bwd_bound k j : 0 < k -> k <= depth lens -> j < width lens k ->
  bwd_spec lens k j = (node lens k j, 0) \/ node lens k j < fst (bwd_spec lens k j) < nodes lens /\ snd (bwd_spec lens k j) = 1.
Proof.
  intros K KP J. assert (pos : Forall (fun n => 0 < n) lens) by (now apply (data_pos all V)). unfold bwd_spec. destruct (Nat.ltb_spec k (depth lens)) as [L|L]; [|now left]. right. cbn [fst snd]. split; [|reflexivity]. pose proof (len_pos lens pos k L) as LP.
  pose proof (child_lt lens k j (len lens k - 1) J ltac:(lia)) as C. pose proof (node_nodes lens (k + 1) _ ltac:(lia) C) as B. unfold node in *. rewrite off_S in *. lia.
Qed.
Lemma no_marks t : is_tree lens (map lv_unc all) t -> Forall (fun l => lv_unc l = false) all -> marked lens t = [] /\ unmarked lens t = seq 1 (nodes lens - 1).
Proof.
  intros T NU. assert (D : depth lens = List.length all) by (apply map_length). assert (M : forall x, In x (seq 1 (nodes lens - 1)) -> mark t x = false).
  { intros x I. apply in_seq in I. destruct (node_surj lens (depth lens + 1) x) as (k & j & K0 & J & ->); [change (off lens (depth lens + 1)) with (nodes lens); lia|]. rewrite (mark_node lens _ t T) by (auto; lia). unfold uncertain. destruct (nth_in_or_default k (map lv_unc all) false) as [I'|E]; [|exact E]. apply in_map_iff in I' as (l & <- & I'). rewrite Forall_forall in NU. now apply NU. }
  unfold marked, unmarked. split.
  - rewrite (filter_ext_in _ (fun _ => false) _ M). generalize (seq 1 (nodes lens - 1)) as L. induction L; auto.
  - rewrite (filter_ext_in _ (fun _ => true)) by (intros x I; now rewrite (M x I)). generalize (seq 1 (nodes lens - 1)) as L. induction L as [|a L IH]; auto. cbn. now rewrite IH.
Qed.
Lemma nodes_two : 2 <= nodes lens.
Proof.
  assert (pos : Forall (fun n => 0 < n) lens) by (now apply (data_pos all V)). pose proof (node_nodes lens 1 0 ltac:(unfold depth; cbn; lia) (width_pos lens pos 1 ltac:(unfold depth; cbn; lia))) as H. unfold node in H. cbn [off width] in H. lia.
Qed.

Lemma tree_sound e t : en_links e = links_spec lens t (List.length (marked lens t) - 1) -> is_tree lens (map lv_unc all) t -> sz_vectors (en_sizes e) = V -> List.length (en_weight e) = nodes lens ->
  (forall j i, j < nodes lens -> i < V -> entry_of (en_in e) j i = Ok (input_of e i j) /\ entry_of (en_out e) j i = Ok (output_of e i j)) ->
  Forall (fun l => lv_unc l = false) all ->
  sound (tree_of e) (fwd_of e) (bwd_of e) (weight_of e) (fun j i => input_of e i j) (fun j i => output_of e i j).
Proof.
  intros EL T EV LW HIO NU. destruct (no_marks t T NU) as (M1 & M2). assert (pos : Forall (fun n => 0 < n) lens) by (now apply (data_pos all V)). pose proof nodes_two as N2. assert (D0 : 0 < depth lens) by (unfold depth; cbn; lia). assert (UL : List.length (map lv_unc all) = depth lens) by (unfold depth; now rewrite !map_length). assert (MM : List.length (marked lens t) <> 1) by (rewrite M1; cbn; lia).
  assert (NN : tm_nodes (tree_of e) = nodes lens) by (cbn [tree_of tm_nodes]; rewrite EL; cbn [lk_bal links_spec]; lia).
  assert (X : forall n, 1 <= n < nodes lens -> exists k j, 0 < k /\ k <= depth lens /\ j < width lens k /\ n = node lens k j).
  { intros n H. destruct (node_surj lens (depth lens + 1) n) as (k & j & K0 & J & ->); [change (off lens (depth lens + 1)) with (nodes lens); lia|]. exists k, j. sp; auto; [|lia]. destruct k; [|lia]. cbn in J. unfold node in H. cbn in H. lia. }
  constructor; rewrite ?NN.
  - exact N2.
  - intros n H. destruct (X n H) as (k & j & K & KP & J & ->). unfold fwd_of. cbn [tree_of tm_lleb]. rewrite EL. cbn [lk_ll1 links_spec]. rewrite (ll1_node lens _ UL D0 t T MM k j K KP J). split.
    + rewrite <- (ll1_node lens _ UL D0 t T MM k j K KP J) at 1. apply nth_error_nth'. unfold ll1_spec. cbn [List.length]. rewrite map_length, seq_length. lia.
    + now apply (fwd_bound t).
  - intros n H. destruct (X n H) as (k & j & K & KP & J & E). unfold bwd_of. cbn [tree_of tm_llea]. rewrite EL. cbn [lk_ll2 links_spec]. rewrite M2.
    assert (Y : nth_error ((0, (0, 0)) :: map (row2 t) (seq 1 (nodes lens - 1))) n = Some (row2 t n)). { destruct n as [|n]; [lia|]. cbn [nth_error]. rewrite nth_error_map, (nth_error_nth' _ 0), seq_nth by (rewrite ?seq_length; lia). reflexivity. }
    rewrite (nth_error_nth _ _ _ Y). unfold row2 in *. cbn [snd]. split; [exact Y|]. rewrite E. rewrite (nth_error_nth _ _ (0, 0) (it_bwd _ _ _ T k j K KP J)). now apply bwd_bound.
  - intros n H. unfold weight_of. cbn [tree_of tm_weight]. apply nth_error_nth'. lia.
  - intros j i H I. cbn [tree_of tm_in tm_trees] in *. apply HIO; auto. congruence.
  - intros j i H I. cbn [tree_of tm_out tm_trees] in *. apply HIO; auto. congruence.
Qed.

(** The equations of the tree for GLPK and those of the model with pyomo. *)
Lemma states_feasible e t s i : en_links e = links_spec lens t (List.length (marked lens t) - 1) -> is_tree lens (map lv_unc all) t -> Forall (fun l => lv_unc l = false) all ->
  input_of e i 0 = 0%Q -> output_of e i 0 = 0%Q ->
  sound (tree_of e) (fwd_of e) (bwd_of e) (weight_of e) (fun j i => input_of e i j) (fun j i => output_of e i j) ->
  (forall j, j < tm_nodes (tree_of e) -> (s (IT i, j) == input_of e i j)%Q /\ (s (OT i, j) == output_of e i j)%Q) ->
  tree_states (tree_of e) (fwd_of e) (bwd_of e) (weight_of e) (fun j i => input_of e i j) (fun j i => output_of e i j) s i <->
  EnergyTree.feasible (weight_of e) (input_of e i) (output_of e i) (en_links e) (fun n k => s (side i k, n)).
Proof.
  intros EL T NU I0 O0 SO HIO. destruct (no_marks t T NU) as (M1 & M2). pose proof nodes_two as N2.
  assert (NN : tm_nodes (tree_of e) = nodes lens) by (cbn [tree_of tm_nodes]; rewrite EL; cbn [lk_bal links_spec]; lia).
  assert (NB : lk_bal (en_links e) + 1 = nodes lens) by (rewrite EL; cbn [lk_bal links_spec]; lia).
  assert (NA : lk_agg (en_links e) + 1 = nodes lens) by (rewrite EL; cbn [lk_agg links_spec]; rewrite M2, seq_length; lia).
  assert (NC : lk_unc (en_links e) = 0) by (rewrite EL; cbn [lk_unc links_spec]; rewrite M1; reflexivity).
  assert (R0 : nth 0 (lk_ll1 (en_links e)) (0, 0) = (0, 0)) by (rewrite EL; reflexivity).
  assert (A0 : nth 0 (lk_ll2 (en_links e)) (0, (0, 0)) = (0, (0, 0))) by (rewrite EL; reflexivity).
  assert (AN : forall n, 1 <= n < nodes lens -> nth n (lk_ll2 (en_links e)) (0, (0, 0)) = (n, bwd_of e n)). { intros n H. rewrite <- NN in H. destruct (sd_bwd _ _ _ _ _ _ SO n H) as (Y & _). cbn [tree_of tm_llea] in Y. apply (nth_error_nth _ _ (0, (0, 0)) Y). }
  unfold tree_states, EnergyTree.feasible. rewrite NN in *. rewrite NB, NA, NC. unfold zero_rule, balance_rule, aggregate_rule. split.
  - intros (Z1 & Z2 & B & R). sp.
    + intros k H. destruct k as [|[|k]]; [exact Z1|exact Z2|lia].
    + intros n H. destruct n as [|n].
      * rewrite R0, I0, O0. cbn [fst snd]. ring.
      * change (nth (S n) (lk_ll1 (en_links e)) (0, 0)) with (fwd_of e (S n)). change (side i 0) with (PS i). apply R. lia.
    + intros n H. destruct n as [|n].
      * rewrite A0. cbn [fst snd]. rewrite R0. cbn [fst snd]. change (side i 1) with (TS i). change (side i 0) with (PS i). rewrite Z1, Z2. ring.
      * rewrite AN by lia. cbn [fst snd]. change (nth (S n) (lk_ll1 (en_links e)) (0, 0)) with (fwd_of e (S n)). change (side i 1) with (TS i). destruct (R (S n) ltac:(lia)) as (_ & ->). ring.
    + intros H. now destruct H.
    + intros n k H K. destruct (B n H) as (_ & _ & B1 & B2). destruct k as [|[|k]]; [exact B1|exact B2|lia].
  - intros (Z & B & A & _ & P). pose proof (Z 0 ltac:(lia)) as Z1. pose proof (Z 1 ltac:(lia)) as Z2. sp.
    + exact Z1.
    + exact Z2.
    + intros j H. destruct (HIO j H) as (X & Y). sp; auto; [exact (P j 0 H ltac:(lia))|exact (P j 1 H ltac:(lia))].
    + intros n H. specialize (B n ltac:(lia)). specialize (A n ltac:(lia)). rewrite AN in A by lia. cbn [fst snd] in A. change (nth n (lk_ll1 (en_links e)) (0, 0)) with (fwd_of e n) in *. change (side i 1) with (TS i) in A. change (side i 0) with (PS i) in B. split; [exact B|]. rewrite A. ring.
Qed.
End Data.
