(** Properties of the temporal energy tree. *)
From Coq Require Import List Bool Arith ZArith QArith Qfield Lia Lqa.
From Verif Require Import Base GraphData GraphDataProofs Cases CasesSpec CasesProofs CasesClusters EnergyTree EnergyTreeSpec EnergyTreeProofs EnergyTreeLinks EnergyTreeSoC EnergyTreeData.
Import ListNotations.
Open Scope nat_scope.
Open Scope list_scope.

Local Ltac sp := repeat match goal with |- _ /\ _ => split end.

(** ** Sizes and parents *)

Definition product (l : list nat) : nat := fold_right Nat.mul 1 l.
Definition total (l : list nat) : nat := fold_right Nat.add 0 l.
(** A number in an interval with both ends. *)
Definition inside (x : nat) (i : nat * nat) : Prop := fst i <= x <= snd i.

Lemma width_product lens k : k <= depth lens -> width lens k = product (firstn k lens).
Proof.
  unfold depth. revert k. induction lens as [|n l IH]; intros k K; [cbn in K; replace k with 0 by lia; reflexivity|]. destruct k as [|k]; [reflexivity|]. cbn [firstn product fold_right List.length] in *. fold (product (firstn k l)). rewrite <- IH by lia.
  clear IH K. induction k as [|k IH]; [cbn; unfold len; cbn; lia|]. cbn [width] in *. rewrite IH. unfold len. cbn [nth]. lia.
Qed.

Lemma off_total lens n : n <= depth lens + 1 -> off lens n = total (map (fun k => product (firstn k lens)) (seq 0 n)).
Proof.
  induction n as [|n IH]; intros H; [reflexivity|]. rewrite <- Nat.add_1_r, seq_snoc, map_app, off_S, IH, width_product by lia. unfold total. rewrite fold_right_app. cbn [map fold_right Nat.add]. rewrite Nat.add_0_r.
  generalize (product (firstn n lens)) (map (fun k => product (firstn k lens)) (seq 0 n)). intros p l. induction l as [|x l IHl]; cbn [fold_right]; lia.
Qed.

(** C57: for data of any depth the tree has one node for each prefix of intervals; the levels are successive intervals of nodes; each node but the first
    is after exactly one node, of the previous level, found in the array of nodes before; in each level each scenario is in exactly one node,
    and the scenarios of a node are scenarios of the node before. *)
Theorem C57_tree : forall d data, Forall (fun l => 0 < lv_names l) (d :: data) ->
  let lens := map lv_names (d :: data) in let P := List.length (d :: data) in
  exists sz t, measure (d :: data) = Ok sz /\ connect sz (map lv_unc (d :: data)) = Ok t /\
  sz_nodes sz = total (map (fun k => product (firstn k lens)) (seq 0 (P + 1))) /\ sz_scenarios sz = product lens /\
  (forall x, x < sz_nodes sz -> exists! k, exists i, nth_error (tr_time t) k = Some i /\ inside x i) /\
  (forall x, 1 <= x < sz_nodes sz -> exists p, nth_error (tr_parent t) x = Some p /\
     (forall q, (exists i, nth_error (tr_after t) q = Some i /\ inside x i) <-> q = p) /\
     exists k i i', nth_error (tr_time t) k = Some i /\ nth_error (tr_time t) (k + 1) = Some i' /\ inside p i /\ inside x i') /\
  (forall k i s, nth_error (tr_time t) k = Some i -> s < sz_scenarios sz -> exists! x, inside x i /\ exists r, nth_error (tr_scenarios t) x = Some r /\ inside s r) /\
  (forall x p s r, 1 <= x -> nth_error (tr_parent t) x = Some p -> nth_error (tr_scenarios t) x = Some r -> inside s r ->
     exists r', nth_error (tr_scenarios t) p = Some r' /\ inside s r').
Proof.
  intros d data F lens P. assert (pos : Forall (fun n => 0 < n) lens) by (apply Forall_map; exact F). assert (D : depth lens = P) by (unfold depth, lens; apply map_length). assert (D0 : 0 < depth lens) by (rewrite D; unfold P; cbn; lia).
  destruct (connect_spec lens pos (rows (lv_inputs d)) (base lens P) (map lv_unc (d :: data)) ltac:(rewrite map_length; auto) D0) as (t & E & T). exists (sz_of lens (rows (lv_inputs d)) (base lens P)), t.
  split; [apply measure_spec|]. split; [exact E|]. cbn [sz_nodes sz_scenarios sz_of]. rewrite D.
  assert (TM : forall k i, nth_error (tr_time t) k = Some i -> k <= P /\ i = (off lens k, off lens (k + 1) - 1)).
  { intros k i H. assert (k < List.length (tr_time t)) by (apply nth_error_Some; congruence). destruct (it_len _ _ _ T) as (_ & _ & _ & _ & _ & _ & _ & LT). assert (K : k <= depth lens) by lia. rewrite (it_time _ _ _ T k K) in H. split; [lia|congruence]. }
  assert (IN : forall k j, k <= P -> j < width lens k -> inside (node lens k j) (off lens k, off lens (k + 1) - 1)).
  { intros k j K J. unfold inside, node. cbn [fst snd]. rewrite off_S. lia. }
  assert (NI : forall k x, k <= P -> inside x (off lens k, off lens (k + 1) - 1) -> exists j, j < width lens k /\ x = node lens k j).
  { intros k x K [A B]. cbn [fst snd] in *. rewrite off_S in B. pose proof (width_pos lens pos k ltac:(lia)) as W. exists (x - off lens k). unfold node. split; lia. }
  assert (SU : forall x, x < off lens (P + 1) -> exists k j, k <= P /\ j < width lens k /\ x = node lens k j).
  { intros x X. destruct (node_surj lens _ x X) as (k & j & K & J & H). exists k, j. sp; auto. lia. }
  sp.
  - apply off_total. lia.
  - rewrite <- D, width_product by lia. unfold depth. now rewrite firstn_all.
  - intros x X. destruct (SU x X) as (k & j & K & J & ->). exists k. split.
    + exists (off lens k, off lens (k + 1) - 1). split; [apply (it_time _ _ _ T); lia|]. now apply IN.
    + intros k' (i & Hi & In). destruct (TM k' i Hi) as [K' ->]. destruct (NI k' _ K' In) as (j' & J' & E'). apply node_inj in E'; tauto.
  - intros x [X1 X2]. destruct (SU x X2) as (k & j & K & J & ->). destruct k as [|k]; [cbn in J; unfold node in X1; cbn in X1; lia|]. replace (S k) with (k + 1) in * by lia.
    destruct (child_of lens pos k j ltac:(lia) J) as (i & c & Hi & Hc & Ej & Dv & Md). assert (KD : k < depth lens) by lia. exists (node lens k i). split; [|split].
    + rewrite (it_parent _ _ _ T (k + 1) j ltac:(lia) J). rewrite Nat.add_1_r. cbn [parent_spec]. now rewrite Dv.
    + intros q. split.
      * intros (r & Hr & In). assert (Q : q < off lens (P + 1)). { assert (L : q < List.length (tr_after t)) by (apply nth_error_Some; congruence). destruct (it_len _ _ _ T) as (_ & _ & LA & _). rewrite LA in L. unfold nodes in L. now rewrite D in L. }
        destruct (SU q Q) as (k' & j' & K' & J' & ->). destruct (Nat.eq_dec k' P) as [->|Ne].
        -- assert (J2 : j' < width lens (depth lens)) by (now rewrite D). pose proof (it_leaf _ _ _ T j' J2) as LF. rewrite D in LF. rewrite LF in Hr. inversion Hr; subst r. unfold inside in In. cbn [fst snd] in In. unfold node in *. pose proof (off_pos lens (k + 1) ltac:(lia)). lia.
        -- assert (KD' : k' < depth lens) by lia. rewrite (it_after _ _ _ T k' j' KD' J') in Hr. inversion Hr; subst r. unfold inside, after_spec in In. cbn [fst snd] in In.
           pose proof (len_pos lens pos k' KD') as LP. set (c' := node lens (k + 1) j - node lens (k' + 1) (j' * len lens k')) in *.
           assert (E' : node lens (k + 1) j = node lens (k' + 1) (j' * len lens k' + c')) by (unfold c', node in *; lia). assert (C' : c' < len lens k') by (unfold c', node in *; lia).
           apply node_inj in E' as [Ek Ej']; auto using child_lt. assert (k' = k) by lia. subst k'. f_equal. rewrite <- Dv, Ej'. destruct (child_div lens k j' c' C') as [U _]. symmetry. exact U.
      * intros ->. exists (after_spec lens k i). split; [now apply (it_after _ _ _ T)|]. unfold inside, after_spec. cbn [fst snd]. subst j. unfold node. lia.
    + exists k, (off lens k, off lens (k + 1) - 1), (off lens (k + 1), off lens (k + 1 + 1) - 1). sp; try (apply (it_time _ _ _ T); lia); try (apply IN; auto; lia).
  - intros k i s Hi S. destruct (TM k i Hi) as [K ->]. rewrite <- D in S. pose proof (width_dvd lens pos k ltac:(lia)) as WD. pose proof (share_pos lens pos k ltac:(lia)) as SP.
    assert (J : s / share lens k < width lens k) by (apply Nat.div_lt_upper_bound; lia). exists (node lens k (s / share lens k)). split.
    + split; [now apply IN|]. exists (scen_spec lens k (s / share lens k)). split; [apply (it_scen _ _ _ T); auto; lia|]. unfold inside, scen_spec. cbn [fst snd]. pose proof (Nat.div_mod s (share lens k) ltac:(lia)). pose proof (Nat.mod_upper_bound s (share lens k) ltac:(lia)). split; nia.
    + intros x [In (r & Hr & Ir)]. destruct (NI k x K In) as (j & Jj & ->). rewrite (it_scen _ _ _ T k j ltac:(lia) Jj) in Hr. inversion Hr; subst r. unfold inside, scen_spec in Ir. cbn [fst snd] in Ir. f_equal. symmetry. apply Nat.div_unique with (r := s - j * share lens k); nia.
  - intros x p s r X1 Hp Hr Ir. assert (X : x < off lens (P + 1)). { assert (L : x < List.length (tr_parent t)) by (apply nth_error_Some; congruence). destruct (it_len _ _ _ T) as (_ & _ & _ & _ & _ & _ & LP & _). rewrite LP in L. unfold nodes in L. now rewrite D in L. }
    destruct (SU x X) as (k & j & K & J & ->). destruct k as [|k]; [cbn in J; unfold node in X1; cbn in X1; lia|]. replace (S k) with (k + 1) in * by lia. rewrite (it_parent _ _ _ T (k + 1) j ltac:(lia) J) in Hp. rewrite (it_scen _ _ _ T (k + 1) j ltac:(lia) J) in Hr. inversion Hr; subst r. inversion Hp; subst p.
    destruct (child_of lens pos k j ltac:(lia) J) as (i & c & Hi & Hc & Ej & Dv & Md). exists (scen_spec lens k i). replace (k + 1) with (S k) by lia. cbn [parent_spec]. rewrite Dv. split; [apply (it_scen _ _ _ T); auto; lia|].
    unfold inside, scen_spec in *. cbn [fst snd] in *. pose proof (width_dvd lens pos k ltac:(lia)) as W1. pose proof (width_dvd lens pos (k + 1) ltac:(lia)) as W2. rewrite width_S in W2. pose proof (width_pos lens pos k ltac:(lia)) as WP. pose proof (share_pos lens pos (k + 1) ltac:(lia)) as SP.
    assert (SH : share lens k = len lens k * share lens (k + 1)) by nia. rewrite SH. subst j. split; nia.
Qed.
Print Assumptions C57_tree.

Definition ex_level (n : nat) (u : bool) : level := mkLevel n (repeat 1%Q n) (Mat [repeat 1%Q n]) (Mat [repeat 0%Q n]) u.
Example C57_witness : Forall (fun l => 0 < lv_names l) [ex_level 2 false; ex_level 1 true; ex_level 3 false] /\
  (match measure [ex_level 2 false; ex_level 1 true; ex_level 3 false] with
   | Ok sz => sz_nodes sz = 11 /\ sz_scenarios sz = 6 /\
       match connect sz [false; true; false] with
       | Ok t => tr_parent t = [0; 0; 0; 1; 2; 3; 3; 3; 4; 4; 4] /\ nth_error (tr_scenarios t) 4 = Some (3, 5) /\ tr_time t = [(0, 0); (1, 2); (3, 4); (5, 10)]
       | Err _ => False end
   | Err _ => False end).
Proof. split; [repeat constructor|]. vm_compute. auto. Qed.

(** ** Data of the nodes *)

Lemma initialise_spec d data : let all := d :: data in let V := rows (lv_inputs d) in Forall (level_ok V) all ->
  exists t, is_tree (map lv_names all) (map lv_unc all) t /\
    initialise all = (do lk <- link (sz_of (map lv_names all) V (base (map lv_names all) (List.length all))) t (map lv_unc all);
      Ok (mkEnergy (sz_of (map lv_names all) V (base (map lv_names all) (List.length all))) t lk (map (in_at all V t) (seq 0 (nodes (map lv_names all)))) (map (out_at all V t) (seq 0 (nodes (map lv_names all)))) (map (weight_at all t) (seq 0 (nodes (map lv_names all)))))).
Proof.
  intros all V F. assert (pos : Forall (fun n => 0 < n) (map lv_names all)) by (now apply (data_pos all V)). assert (D0 : 0 < depth (map lv_names all)) by (unfold depth, all; cbn; lia).
  destruct (connect_spec (map lv_names all) pos V (base (map lv_names all) (List.length all)) (map lv_unc all) ltac:(unfold depth; rewrite !map_length; auto) D0) as (t & E & T). exists t. split; auto.
  unfold initialise, all. rewrite measure_spec. cbn [rbind]. fold all. fold V. rewrite process_spec by auto. cbn [rbind]. rewrite E. cbn [rbind]. rewrite (parameters_spec all V F (map lv_unc all) t T) by auto. reflexivity.
Qed.

(** C83: every node has the weight, the inputs and the outputs of its interval: those of position c for the nodes with c nodes before them after the same
    node, taken from the rows of the vectors if there is a matrix. *)
Theorem C83_data : forall d data, let all := d :: data in let V := rows (lv_inputs d) in let lens := map lv_names all in
  Forall (level_ok V) all -> lv_unc d = false ->
  exists e, initialise all = Ok e /\
    forall k l j c, nth_error all k = Some l -> j < product (firstn k lens) -> c < lv_names l ->
      let x := total (map (fun i => product (firstn i lens)) (seq 0 (k + 1))) + (j * lv_names l + c) in
      nth_error (en_weight e) x = nth_error (lv_weights l) c /\
      forall v, v < V -> exists row row', nth_error (en_in e) x = Some row /\ nth_error (en_out e) x = Some row' /\
        nth_error row v = Some (reads V (lv_inputs l) v c) /\ nth_error row' v = Some (reads V (lv_outputs l) v c).
Proof.
  intros d data all V lens F U. destruct (initialise_spec d data F) as (t & T & E). fold all in E, T. fold V in E. fold lens in E, T. assert (pos : Forall (fun n => 0 < n) lens) by (now apply (data_pos all V)). assert (D0 : 0 < depth lens) by (unfold depth, lens, all; cbn; lia).
  assert (D : depth lens = List.length all) by (apply map_length). assert (UL : List.length (map lv_unc all) = depth lens) by (now rewrite D, map_length).
  rewrite (link_spec lens pos (map lv_unc all) UL D0 V _ t T) in E by (unfold uncertain; exact U). cbn [rbind] in E. eexists. split; [exact E|]. intros k l j c H J C x. cbn [en_weight en_in en_out].
  assert (K : k < depth lens) by (rewrite D; apply nth_error_Some; congruence). rewrite <- width_product in J by lia. assert (L : len lens k = lv_names l) by (now apply data_len).
  assert (X : x = node lens (k + 1) (j * len lens k + c)). { unfold x, node. rewrite <- off_total by lia. rewrite L. reflexivity. }
  assert (JW : j * len lens k + c < width lens (k + 1)) by (apply child_lt; auto; lia). pose proof (node_nodes lens (k + 1) (j * len lens k + c) ltac:(lia) JW) as XN. rewrite <- X in XN.
  destruct (node_data all V F (map lv_unc all) t T k (j * len lens k + c) l c H JW) as (A & B & W). { rewrite <- L. symmetry. apply child_div. lia. } fold lens in A, B, W. rewrite <- X in A, B, W.
  assert (NM : forall A (f : nat -> A), nth_error (map f (seq 0 (nodes lens))) x = Some (f x)). { intros A0 f. rewrite nth_error_map, (nth_error_nth' _ 0), seq_nth by (rewrite ?seq_length; auto). reflexivity. }
  rewrite !NM, W. assert (OK : level_ok V l) by (rewrite Forall_forall in F; eapply F, nth_error_In; eauto). destruct OK as (LW & _). split; [symmetry; apply nth_error_nth'; lia|].
  intros v Hv. rewrite A, B. eexists _, _. sp; try reflexivity; unfold row_of; rewrite nth_error_map, (nth_error_nth' _ 0), seq_nth by (rewrite ?seq_length; auto); reflexivity.
Qed.
Print Assumptions C83_data.

Definition ex_data : list level :=
  [mkLevel 2 [1; 2]%Q (Mat [[5; 6]; [7; 8]])%Q (Mat [[0; 1]; [0; 0]])%Q false;
   mkLevel 2 [3; 4]%Q (Mat [[0; 9]; [1; 0]])%Q (Mat [[0; 0]; [0; 0]])%Q true].
Example C83_witness : Forall (level_ok 2) ex_data /\ (match initialise ex_data with
  | Ok e => en_weight e = [1; 1; 2; 3; 4; 3; 4]%Q /\ nth_error (en_in e) 6 = Some [9; 0]%Q /\ nth_error (en_in e) 2 = Some [6; 8]%Q
  | Err _ => False end).
Proof.
  split; [|vm_compute; auto]. apply Forall_forall. intros l [<-|[<-|[]]]; unfold level_ok; cbn; sp; auto; intros r [<-|[<-|[]]]; cbn; lia.
Qed.

(** C84 (a list of inputs gives each interval its input) is false for the first level: with several intervals, the list is read
    as as many vectors, each with the same input in all intervals. *)
Theorem C84_refuted : forall n q weights outs, 2 <= n -> List.length q = n -> List.length outs = n -> List.length weights = n ->
  exists e, initialise [mkLevel n weights (Vec q) (Vec outs) false] = Ok e /\ sz_vectors (en_sizes e) = n /\
    forall c v, c < n -> v < n -> exists row, nth_error (en_in e) (1 + c) = Some row /\ nth_error row v = nth_error q v.
Proof.
  intros n q weights outs N2 Lq Lo Lw. set (l := mkLevel n weights (Vec q) (Vec outs) false). assert (NE : (List.length q =? 1) = false) by (apply Nat.eqb_neq; lia).
  assert (OK : Forall (level_ok (rows (lv_inputs l))) [l]). { constructor; auto. unfold level_ok. cbn [lv_weights lv_names lv_inputs lv_outputs l is_vec rows shaped]. rewrite NE. sp; auto; lia. }
  destruct (C83_data l [] OK eq_refl) as (e & E & H). exists e. split; auto. split.
  - destruct (initialise_spec l [] OK) as (t & T & E'). rewrite E' in E. destruct (link _ _ _); [|discriminate]. cbn [rbind] in E. inversion E. cbn. auto.
  - intros c v C Hv. cbn zeta in H. specialize (H 0 l 0 c eq_refl). cbn [firstn product fold_right map seq Nat.add total Nat.mul] in H. destruct (H ltac:(lia) C) as [_ G]. destruct (G v) as (row & row' & A & _ & B & _); [cbn; lia|]. exists row. cbn [lv_names l] in *. replace (1 + c) with (S c) by lia. cbn [Nat.add] in A. split; auto.
    rewrite B. unfold reads. cbn [lv_inputs l rows]. rewrite NE. symmetry. apply nth_error_nth'. lia.
Qed.
Print Assumptions C84_refuted.

(** C85 (uncertainty can be given for the intervals of any level) is false: with uncertainty at the first level the linked list is one
    row short, for all data. *)
Theorem C85_refuted : forall d data, Forall (level_ok (rows (lv_inputs d))) (d :: data) -> lv_unc d = true -> initialise (d :: data) = Err IndexError.
Proof.
  intros d data F U. destruct (initialise_spec d data F) as (t & T & E). rewrite E. assert (pos : Forall (fun n => 0 < n) (map lv_names (d :: data))) by (eapply data_pos; eauto).
  rewrite (link_fails (map lv_names (d :: data)) pos (map lv_unc (d :: data))) with (t := t); auto; [|unfold depth; now rewrite !map_length|unfold depth; cbn; lia|unfold uncertain; exact U|exact T] || rewrite (link_fails (map lv_names (d :: data)) pos (map lv_unc (d :: data)) ltac:(unfold depth; now rewrite !map_length) ltac:(unfold depth; cbn; lia) _ _ t T U). reflexivity.
Qed.
Print Assumptions C85_refuted.

Example C85_witness : Forall (level_ok 1) [ex_level 2 true; ex_level 3 false] /\ lv_unc (ex_level 2 true) = true.
Proof. split; auto. apply Forall_forall. intros l [<-|[<-|[]]]; unfold level_ok; cbn; sp; auto; intros r [<-|[]]; cbn; lia. Qed.

(** ** States of charge *)

Lemma count_levels lens (pos : Forall (fun n => 0 < n) lens) unc t (T : is_tree lens unc t) n : n <= depth lens + 1 ->
  List.length (filter (mark t) (seq 0 (off lens n))) = total (map (fun k => if uncertain unc k then width lens k else 0) (seq 0 n)).
Proof.
  induction n as [|n IH]; intros H; [reflexivity|]. rewrite <- (Nat.add_1_r n), off_S, seq_app, filter_app, app_length, IH, seq_snoc, map_app by lia. unfold total. rewrite fold_right_app. cbn [map fold_right Nat.add].
  assert (E : List.length (filter (mark t) (seq (off lens n) (width lens n))) = if uncertain unc n then width lens n else 0).
  { assert (G : forall x, In x (seq (off lens n) (width lens n)) -> mark t x = uncertain unc n). { intros x I. apply in_seq in I. replace x with (node lens n (x - off lens n)) by (unfold node; lia). apply (mark_node lens unc t T); lia. }
    rewrite (filter_ext_in _ (fun _ => uncertain unc n) _ G). destruct (uncertain unc n).
    - rewrite <- (seq_length (width lens n) (off lens n)) at 2. f_equal. generalize (seq (off lens n) (width lens n)). intros s. induction s; cbn; congruence.
    - generalize (seq (off lens n) (width lens n)). intros s. induction s; cbn; auto. }
  rewrite E, Nat.add_0_r. generalize (map (fun k => if uncertain unc k then width lens k else 0) (seq 0 n)). intros s. induction s as [|x s IHs]; cbn [fold_right]; lia.
Qed.

(** Number of nodes followed by alternatives. *)
Definition uncertain_nodes (data : list level) : nat :=
  total (map (fun k => if lv_unc (nth k data (mkLevel 0 [] (Vec []) (Vec []) false)) then product (firstn k (map lv_names data)) else 0) (seq 0 (List.length data))).

Lemma uncertain_nodes_marked d data t : let all := d :: data in Forall (fun l => 0 < lv_names l) all -> is_tree (map lv_names all) (map lv_unc all) t -> lv_unc d = false ->
  List.length (marked (map lv_names all) t) = uncertain_nodes all.
Proof.
  intros all F T U. set (lens := map lv_names all) in *. assert (pos : Forall (fun n => 0 < n) lens) by (apply Forall_map; exact F). assert (D : depth lens = List.length all) by (apply map_length).
  pose proof (count_levels lens pos _ t T (depth lens + 1) ltac:(lia)) as E. assert (N0 : 0 < off lens (depth lens + 1)) by (apply off_pos; lia).
  unfold marked, nodes. replace (off lens (depth lens + 1)) with (1 + (off lens (depth lens + 1) - 1)) in E by lia. cbn [seq Nat.add filter] in E.
  assert (M0 : mark t 0 = false). { change 0 with (node lens 0 0). rewrite (mark_node lens _ t T) by (cbn; lia). unfold uncertain. exact U. } rewrite M0 in E. rewrite E, seq_snoc, map_app. cbn [Nat.add].
  unfold total, uncertain_nodes. rewrite fold_right_app. cbn [map fold_right]. unfold uncertain at 1. rewrite nth_overflow by (rewrite map_length; lia). cbn [Nat.add].
  rewrite D. unfold total. f_equal. apply map_ext_in. intros k I. apply in_seq in I. unfold uncertain. rewrite (nth_indep (map lv_unc all) false (lv_unc (mkLevel 0 [] (Vec []) (Vec []) false))) by (rewrite map_length; lia). rewrite map_nth. rewrite width_product by lia. reflexivity.
Qed.

(** C58, as it holds: for any weights, inputs and outputs, a state that meets the constraints ends with the sum of all inputs less outputs,
    each multiplied by the weights of its node and of the nodes before it; and the end of any node is the state it starts
    from and what the node and the nodes after it contribute.  Not covered: a single node followed by alternatives (C86). *)
Theorem C58_levels_partial : forall d data, let all := d :: data in let lens := map lv_names all in let P := List.length all in
  Forall (level_ok (rows (lv_inputs d))) all -> lv_unc d = false -> uncertain_nodes all <> 1 ->
  exists e, initialise all = Ok e /\ forall weight input output v, feasible weight input output (en_links e) v ->
    (v (lv_names d) 1%nat == sumf (fun i => sumf (fun j => path_weight lens weight (1 + i) j * (input (node lens (1 + i) j) - output (node lens (1 + i) j))) (width lens (1 + i))) P)%Q /\
    forall k j, 0 < k -> k <= P -> j < width lens k ->
      (v (node lens k j) 1%nat == v (fst (fwd_spec lens (map lv_unc all) k j)) (snd (fwd_spec lens (map lv_unc all) k j)) + net lens weight input output (P - k) k j)%Q.
Proof.
  intros d data all lens P F U S. destruct (initialise_spec d data F) as (t & T & E). fold all in E, T. fold lens in E, T. assert (pos : Forall (fun n => 0 < n) lens) by (eapply data_pos; eauto). assert (D0 : 0 < depth lens) by (unfold depth, lens, all; cbn; lia).
  assert (D : depth lens = P) by (apply map_length). assert (UL : List.length (map lv_unc all) = depth lens) by (now rewrite D, map_length).
  assert (M : List.length (marked lens t) <> 1). { change (List.length (marked (map lv_names (d :: data)) t) <> 1). rewrite (uncertain_nodes_marked d data t); auto. eapply Forall_impl; [|exact F]. intros l (_ & H & _). exact H. }
  rewrite (link_spec lens pos (map lv_unc all) UL D0 _ _ t T) in E by (unfold uncertain; exact U). cbn [rbind] in E. eexists. split; [exact E|]. cbn [en_links]. intros weight input output v Fv. split.
  - pose proof (final_sum lens pos (map lv_unc all) UL D0 U t T weight input output v M Fv) as X. rewrite D in X. rewrite <- X. replace (node lens 1 (len lens 0) - 1) with (lv_names d); [reflexivity|]. unfold node. cbn [off width]. change (len lens 0) with (lv_names d). lia.
  - intros k j K KP J. rewrite <- D in *. apply (levels lens pos (map lv_unc all) UL D0 t T weight input output v M Fv); auto.
Qed.
Print Assumptions C58_levels_partial.

Definition ex_input (x : nat) : Q := match x with 0 => 0%Q | _ => 1%Q end.

Definition ex_tree : list level := [ex_level 2 false; ex_level 2 true; ex_level 1 false].
(** The states of the example tree: both alternatives start from the same state and each adds to the end of the node before. *)
Definition ex_soc : nat -> nat -> Q := fun x p => inject_Z (Z.of_nat (match x, p with
  | 1, 0 => 1 | 1, 1 => 5 | 2, 0 => 6 | 2, 1 => 10
  | 3, 0 => 2 | 3, 1 => 3 | 4, 0 => 2 | 4, 1 => 3 | 5, 0 => 7 | 5, 1 => 8 | 6, 0 => 7 | 6, 1 => 8
  | 7, _ => 3 | 8, _ => 3 | 9, _ => 8 | 10, _ => 8 | _, _ => 0 end)).
Example C58_witness : Forall (level_ok 1) ex_tree /\ uncertain_nodes ex_tree = 2 /\
  exists e, initialise ex_tree = Ok e /\ feasible (fun _ => 1%Q) ex_input (fun _ => 0%Q) (en_links e) ex_soc.
Proof.
  split; [apply Forall_forall; intros l [<-|[<-|[<-|[]]]]; unfold level_ok; cbn; sp; auto; intros r [<-|[]]; cbn; lia|]. split; [reflexivity|].
  destruct (initialise ex_tree) as [e|] eqn:E; [|vm_compute in E; discriminate]. exists e. split; [reflexivity|]. vm_compute in E. inversion E; subst e. clear E. unfold feasible. cbn [en_links lk_bal lk_agg lk_unc]. sp.
  - intros x X. do 2 (destruct x as [|x]; [reflexivity|]). lia.
  - intros x X. do 11 (destruct x as [|x]; [reflexivity|]). lia.
  - intros x X. do 9 (destruct x as [|x]; [reflexivity|]). lia.
  - intros _ x X. do 2 (destruct x as [|x]; [reflexivity|]). lia.
  - intros x q X Q. do 2 (destruct q as [|q]; [do 11 (destruct x as [|x]; [vm_compute; discriminate|]); lia|]). lia.
Qed.

(** C58 (the state at the end of a leaf is the sum along the path from the root to the leaf) is false: intervals of one level follow
    one another, so the second of two intervals ends with the inputs of both. *)
Theorem C58_refuted : exists e, initialise [ex_level 2 false] = Ok e /\ tr_parent (en_tree e) = [0; 0; 0] /\
  (exists v, feasible (fun _ => 1%Q) ex_input (fun _ => 0%Q) (en_links e) v) /\
  forall v, feasible (fun _ => 1%Q) ex_input (fun _ => 0%Q) (en_links e) v -> ~ (v 2%nat 1%nat == ex_input 0 + ex_input 2)%Q.
Proof.
  destruct (initialise [ex_level 2 false]) as [e|] eqn:E; [|vm_compute in E; discriminate]. exists e. vm_compute in E. inversion E; subst e. clear E. split; [reflexivity|]. split; [reflexivity|]. cbn [en_links]. split.
  - exists (fun x p => inject_Z (Z.of_nat (match x, p with 1, _ => 1 | 2, _ => 2 | _, _ => 0 end))). unfold feasible. cbn [lk_bal lk_agg lk_unc]. sp.
    + intros x X. do 2 (destruct x as [|x]; [reflexivity|]). lia.
    + intros x X. do 3 (destruct x as [|x]; [reflexivity|]). lia.
    + intros x X. do 3 (destruct x as [|x]; [reflexivity|]). lia.
    + intros N. now destruct N.
    + intros x q X Q. do 3 (destruct x as [|x]; [vm_compute; discriminate|]). lia.
  - intros v (Z0 & B & A & _). cbn [lk_bal lk_agg] in B, A. pose proof (Z0 0 ltac:(lia)) as z. pose proof (B 1 ltac:(lia)) as b1. pose proof (B 2 ltac:(lia)) as b2. pose proof (A 1 ltac:(lia)) as a1. pose proof (A 2 ltac:(lia)) as a2.
    unfold zero_rule, balance_rule, aggregate_rule in *. cbn [lk_ll1 lk_ll2 nth fst snd ex_input] in *. lra.
Qed.
Print Assumptions C58_refuted.

(** C86 (the constraints determine the state at the end) is false: with a single node followed by alternatives the constraint of this node is not built, and
    any state at its end, without any input, meets the constraints. *)
Theorem C86_refuted : exists e, initialise [ex_level 1 false; ex_level 2 true] = Ok e /\ uncertain_nodes [ex_level 1 false; ex_level 2 true] = 1 /\
  forall q, (0 <= q)%Q -> exists v, feasible (fun _ => 1%Q) ex_input (fun _ => 0%Q) (en_links e) v /\ v 1%nat 1%nat = q.
Proof.
  destruct (initialise [ex_level 1 false; ex_level 2 true]) as [e|] eqn:E; [|vm_compute in E; discriminate]. exists e. vm_compute in E. inversion E; subst e. clear E. split; [reflexivity|]. split; [reflexivity|]. cbn [en_links].
  intros q H. exists (fun x p => match x, p with 1, 0 => 1%Q | 1, 1 => q | 2, _ => 2%Q | 3, _ => 2%Q | _, _ => 0%Q end). split; [|reflexivity]. unfold feasible. cbn [lk_bal lk_agg lk_unc]. sp.
  - intros x X. do 2 (destruct x as [|x]; [reflexivity|]). lia.
  - intros x X. do 4 (destruct x as [|x]; [reflexivity|]). lia.
  - intros x X. do 3 (destruct x as [|x]; [unfold aggregate_rule; cbn [lk_ll1 lk_ll2 nth fst snd]; lra|]). lia.
  - intros N. now destruct N.
  - intros x p X Hp. do 2 (destruct p as [|p]; [do 4 (destruct x as [|x]; [cbn; lra|]); lia|]). lia.
Qed.
Print Assumptions C86_refuted.

Example C84_witness : match initialise [mkLevel 2 [1; 1]%Q (Vec [5; 6]%Q) (Vec [0; 0]%Q) false] with
  | Ok e => en_in e = [[0; 0]; [5; 6]; [5; 6]]%Q
  | Err _ => False end.
Proof. vm_compute. auto. Qed.
