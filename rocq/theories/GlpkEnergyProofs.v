(** The energy tree built with GLPK: what the commands state. *)
From Coq Require Import List String Bool Arith ZArith QArith Lia Lqa.
From Verif Require Import Base Cases Network GraphData ClusteringProofs HydroTables EnergyTree Glpk GlpkSpec GlpkProofs GlpkEnergy.
Import ListNotations.
Open Scope nat_scope.
Open Scope list_scope.
Local Ltac sp := repeat match goal with |- _ /\ _ => split end.

(** Data of a tree without uncertainty: [fwd] and [bwd] are the linked lists. *)
Record sound (m : tree_model) (fwd bwd : nat -> nat * nat) (w : nat -> Q) (inp out : nat -> nat -> Q) : Prop := {
  sd_nodes : 2 <= tm_nodes m;
  sd_fwd : forall n, 1 <= n < tm_nodes m -> nth_error (tm_lleb m) n = Some (fwd n) /\ fst (fwd n) < n /\ snd (fwd n) < 2;
  sd_bwd : forall n, 1 <= n < tm_nodes m -> nth_error (tm_llea m) n = Some (n, bwd n) /\ (bwd n = (n, 0) \/ n < fst (bwd n) < tm_nodes m /\ snd (bwd n) = 1);
  sd_w : forall n, 1 <= n < tm_nodes m -> nth_error (tm_weight m) n = Some (w n);
  sd_in : forall j i, j < tm_nodes m -> i < tm_trees m -> entry_of (tm_in m) j i = Ok (inp j i);
  sd_out : forall j i, j < tm_nodes m -> i < tm_trees m -> entry_of (tm_out m) j i = Ok (out j i) }.

Section Energy.
Variables (m : tree_model) (fwd bwd : nat -> nat * nat) (w : nat -> Q) (inp out : nat -> nat -> Q).
Hypothesis OKm : sound m fwd bwd w inp out.
Notation N := (tm_nodes m).
Notation V := (tm_trees m).

Definition bounds_p (i : nat) : list cmd := [ColBnd (PS i) 0 (Fixed 0); ColBnd (TS i) 0 (Fixed 0)] ++ flat_map (fun j => [ColBnd (IT i) j (Fixed (inp j i)); ColBnd (OT i) j (Fixed (out j i))]) (seq 0 N).
Definition bal_p (i n : nat) : list cmd :=
  [Entry (TB i) (n - 1) (PS i) n 1; Entry (TB i) (n - 1) (side i (snd (fwd n))) (fst (fwd n)) (- (1)); Entry (TB i) (n - 1) (IT i) n (- (1)); Entry (TB i) (n - 1) (OT i) n 1].
Definition agg_p (i n : nat) : list cmd :=
  [Entry (TA i) (n - 1) (TS i) n 1; Entry (TA i) (n - 1) (side i (snd (bwd n))) (fst (bwd n)) (- w n)] ++
  (if Qeq_bool (1 - w n) 0 then [] else [Entry (TA i) (n - 1) (side i (snd (fwd n))) (fst (fwd n)) (- (1 - w n))]).
Definition loop (f : nat -> nat -> list cmd) : list cmd := flat_map (fun i => flat_map (f i) (seq 1 (N - 1))) (seq 0 V).
Definition var_l : list cmd := add_cols (tree_cols m) ++ flat_map bounds_p (seq 0 V).
Definition bal_l : list cmd := add_rows (tree_rows m TB) ++ loop bal_p ++ row_limits m TB.
Definition agg_l : list cmd := add_rows (tree_rows m TA) ++ loop agg_p ++ row_limits m TA.

Lemma variables_l : variables_em m = Ok var_l.
Proof.
  unfold variables_em. rewrite (mapM_pure _ bounds_p).
  - rewrite bind_ok. unfold var_l. now rewrite flat_map_concat_map.
  - intros i I. apply in_seq in I. unfold tree_bounds. rewrite (mapM_pure _ (fun j => [ColBnd (IT i) j (Fixed (inp j i)); ColBnd (OT i) j (Fixed (out j i))])).
    + rewrite bind_ok. unfold bounds_p. now rewrite flat_map_concat_map.
    + intros j J. apply in_seq in J. unfold node_bounds. rewrite (sd_in _ _ _ _ _ _ OKm) by lia. rewrite bind_ok, (sd_out _ _ _ _ _ _ OKm) by lia. reflexivity.
Qed.
Lemma all_nodes_l f g : (forall i n, i < V -> 1 <= n < N -> f i n = Ok (g i n)) -> all_nodes m f = Ok (loop g).
Proof.
  intros H. unfold all_nodes. rewrite (mapM_pure _ (fun i => flat_map (g i) (seq 1 (N - 1)))).
  - rewrite bind_ok. unfold loop. now rewrite flat_map_concat_map.
  - intros i I. apply in_seq in I. rewrite (mapM_pure _ (g i)); [rewrite bind_ok; now rewrite flat_map_concat_map|]. intros n J. apply in_seq in J. apply H; lia.
Qed.
Lemma at_some {A} (l : list A) i a : nth_error l i = Some a -> at_ l i = Ok a.
Proof. unfold at_. now intros ->. Qed.
Lemma balance_l : energy_balance m = Ok bal_l.
Proof.
  unfold energy_balance. rewrite (all_nodes_l _ bal_p); [reflexivity|]. intros i n _ H. unfold balance_row. rewrite (at_some _ _ _ (proj1 (sd_fwd _ _ _ _ _ _ OKm n H))). reflexivity.
Qed.
Lemma aggregation_l : aggregation m = Ok agg_l.
Proof.
  unfold aggregation. rewrite (all_nodes_l _ agg_p); [reflexivity|]. intros i n _ H. unfold aggregation_row. rewrite (at_some _ _ _ (proj1 (sd_bwd _ _ _ _ _ _ OKm n H))), bind_ok. cbn [fst snd]. rewrite (at_some _ _ _ (sd_w _ _ _ _ _ _ OKm n H)), bind_ok.
  unfold agg_p. destruct (Qeq_bool (1 - w n) 0); [reflexivity|]. rewrite (at_some _ _ _ (proj1 (sd_fwd _ _ _ _ _ _ OKm n H))). reflexivity.
Qed.

(** ** Blocks *)

Lemma in_tree_cols n k : In (n, k) (tree_cols m) <-> k = N /\ exists i, i < V /\ (n = PS i \/ n = TS i \/ n = IT i \/ n = OT i).
Proof.
  unfold tree_cols. rewrite in_flat_map. split.
  - intros (f & F & I). apply in_map_iff in I as (i & E & I). apply in_seq in I. injection E as <- <-. split; auto. exists i. split; [lia|]. cbn in F. destruct F as [<-|[<-|[<-|[<-|[]]]]]; auto.
  - intros (-> & i & L & H). assert (I : In i (seq 0 V)) by (apply in_seq; lia). destruct H as [->|[->|[->| ->]]]; [exists PS|exists TS|exists IT|exists OT]; cbn; (split; [tauto|]); apply in_map_iff; exists i; auto.
Qed.
Lemma in_tree_rows f n k : In (n, k) (tree_rows m f) <-> k = N - 1 /\ exists i, i < V /\ n = f i.
Proof.
  unfold tree_rows. rewrite in_map_iff. split.
  - intros (i & E & I). apply in_seq in I. injection E as <- <-. split; auto. exists i. split; auto. lia.
  - intros (-> & i & L & ->). exists i. split; auto. apply in_seq. lia.
Qed.
Lemma tree_cols_nodup : NoDup (map fst (tree_cols m)).
Proof.
  unfold tree_cols. cbn [flat_map]. rewrite app_nil_r, !map_app, !map_map. cbn [fst].
  assert (X : forall f : nat -> name, (forall a b, f a = f b -> a = b) -> NoDup (map (fun i => f i) (seq 0 V))) by (intros f Hf; apply NoDup_map_in; [apply seq_NoDup|auto]).
  assert (D : forall x (f : nat -> name), In x (map (fun i => f i) (seq 0 V)) -> exists i, x = f i) by (intros x f I; apply in_map_iff in I as (i & <- & _); eauto).
  repeat apply NoDup_app'; try (apply X; intros a b E; injection E; auto); intros x I J; repeat (apply in_app_or in J as [J|J]); apply D in I as (i & ->); apply D in J as (j & E); discriminate E.
Qed.
Lemma tree_rows_nodup f : (forall a b, f a = f b -> a = b) -> NoDup (map fst (tree_rows m f)).
Proof. intros H. unfold tree_rows. rewrite map_map. apply NoDup_map_in; [apply seq_NoDup|auto]. Qed.

Lemma uses_bounds : forall c, In c (flat_map bounds_p (seq 0 V)) -> uses [] (tree_cols m) c.
Proof.
  pose proof (sd_nodes _ _ _ _ _ _ OKm) as N2. intros c I. apply in_flat_map in I as (i & J & I). apply in_seq in J. assert (X : forall n j, n = PS i \/ n = TS i \/ n = IT i \/ n = OT i -> j < N -> inside (tree_cols m) (n, j)).
  { intros n j Hn L. exists N. split; auto. apply in_tree_cols. split; auto. exists i. split; [lia|auto]. }
  apply in_app_or in I as [[<-|[<-|[]]]|I]; cbn [uses]; [apply X; auto; lia|apply X; auto; lia|]. apply in_flat_map in I as (j & K & I). apply in_seq in K. destruct I as [<-|[<-|[]]]; cbn [uses]; apply X; auto; lia.
Qed.
Lemma inside_side i s n : i < V -> n < N -> inside (tree_cols m) (side i s, n).
Proof. intros L H. exists N. split; auto. apply in_tree_cols. split; auto. exists i. split; auto. unfold side. cbn [fst]. destruct (s =? 0); auto. Qed.
Lemma inside_col i n c : i < V -> n < N -> c = PS i \/ c = TS i \/ c = IT i \/ c = OT i -> inside (tree_cols m) (c, n).
Proof. intros L H E. exists N. split; auto. apply in_tree_cols. split; auto. exists i. split; auto. Qed.
Lemma inside_row f i n : i < V -> 1 <= n < N -> inside (tree_rows m f) (f i, n - 1).
Proof. intros L H. exists (N - 1). split; [|cbn; lia]. apply in_tree_rows. split; auto. exists i. auto. Qed.
Lemma in_loop g c : In c (loop g) <-> exists i n, i < V /\ 1 <= n < N /\ In c (g i n).
Proof.
  unfold loop. rewrite in_flat_map. split.
  - intros (i & I & J). apply in_flat_map in J as (n & J & K). apply in_seq in I, J. exists i, n. sp; auto; lia.
  - intros (i & n & L & H & K). exists i. split; [apply in_seq; lia|]. apply in_flat_map. exists n. split; auto. apply in_seq. lia.
Qed.
Lemma in_limits f c : In c (row_limits m f) <-> exists i n, i < V /\ 1 <= n < N /\ c = RowBnd (f i) (n - 1) (Fixed 0).
Proof.
  unfold row_limits. rewrite in_flat_map. split.
  - intros (i & I & J). apply in_map_iff in J as (n & <- & J). apply in_seq in I, J. exists i, n. sp; auto; lia.
  - intros (i & n & L & H & ->). exists i. split; [apply in_seq; lia|]. apply in_map_iff. exists n. split; auto. apply in_seq. lia.
Qed.
Lemma uses_limits R C f : (forall p, inside (tree_rows m f) p -> inside R p) -> forall c, In c (row_limits m f) -> uses R C c.
Proof. intros H c I. apply in_limits in I as (i & n & L & J & ->). cbn [uses]. apply H. now apply inside_row. Qed.
Lemma uses_bal R C : (forall p, inside (tree_rows m TB) p -> inside R p) -> (forall p, inside (tree_cols m) p -> inside C p) -> forall c, In c (loop bal_p) -> uses R C c.
Proof.
  intros H H' c I. apply in_loop in I as (i & n & L & J & I). pose proof (sd_fwd _ _ _ _ _ _ OKm n J) as (_ & F & _). pose proof (inside_row TB i n L J) as X.
  destruct I as [<-|[<-|[<-|[<-|[]]]]]; cbn [uses]; (split; [auto|apply H']); try (apply inside_side; auto; lia); apply (inside_col i); auto; lia.
Qed.
Lemma uses_agg R C : (forall p, inside (tree_rows m TA) p -> inside R p) -> (forall p, inside (tree_cols m) p -> inside C p) -> forall c, In c (loop agg_p) -> uses R C c.
Proof.
  intros H H' c I. apply in_loop in I as (i & n & L & J & I). pose proof (sd_fwd _ _ _ _ _ _ OKm n J) as (_ & F & _). pose proof (sd_bwd _ _ _ _ _ _ OKm n J) as (_ & B). pose proof (inside_row TA i n L J) as X.
  assert (Y : fst (bwd n) < N) by (destruct B as [->|B]; cbn; lia).
  unfold agg_p in I. apply in_app_or in I as [[<-|[<-|[]]]|I]; cbn [uses]; [split; [auto|apply H'; apply (inside_col i); auto; lia]|split; [auto|apply H'; apply inside_side; auto]|].
  destruct (Qeq_bool (1 - w n) 0); [destruct I|]. destruct I as [<-|[]]. cbn [uses]. split; [auto|apply H'; apply inside_side; auto; lia].
Qed.

(** Rows and columns of the parts. *)
Lemma var_rows : rows_of var_l = [].
Proof. unfold var_l. rewrite rows_app. unfold add_cols. rewrite rows_of_addcols. cbn [List.app]. apply (uses_rows _ _ _ uses_bounds). Qed.
Lemma var_cols : cols_of var_l = tree_cols m.
Proof. unfold var_l. rewrite cols_app. unfold add_cols. rewrite cols_of_adds, (uses_cols _ _ _ uses_bounds). apply app_nil_r. Qed.
Lemma bal_rows : rows_of bal_l = tree_rows m TB.
Proof.
  unfold bal_l. rewrite !rows_app. unfold add_rows. rewrite rows_of_adds. rewrite (uses_rows (tree_rows m TB) (tree_cols m) (loop bal_p)), (uses_rows (tree_rows m TB) (tree_cols m) (row_limits m TB)); [apply app_nil_r|apply uses_limits; auto|apply uses_bal; auto].
Qed.
Lemma bal_cols : cols_of bal_l = [].
Proof.
  unfold bal_l. rewrite !cols_app. unfold add_rows. rewrite cols_of_addrows. rewrite (uses_cols (tree_rows m TB) (tree_cols m) (loop bal_p)), (uses_cols (tree_rows m TB) (tree_cols m) (row_limits m TB)); [reflexivity|apply uses_limits; auto|apply uses_bal; auto].
Qed.
Lemma agg_rows : rows_of agg_l = tree_rows m TA.
Proof.
  unfold agg_l. rewrite !rows_app. unfold add_rows. rewrite rows_of_adds. rewrite (uses_rows (tree_rows m TA) (tree_cols m) (loop agg_p)), (uses_rows (tree_rows m TA) (tree_cols m) (row_limits m TA)); [apply app_nil_r|apply uses_limits; auto|apply uses_agg; auto].
Qed.
Lemma agg_cols : cols_of agg_l = [].
Proof.
  unfold agg_l. rewrite !cols_app. unfold add_rows. rewrite cols_of_addrows. rewrite (uses_cols (tree_rows m TA) (tree_cols m) (loop agg_p)), (uses_cols (tree_rows m TA) (tree_cols m) (row_limits m TA)); [reflexivity|apply uses_limits; auto|apply uses_agg; auto].
Qed.

(** The parts can be run, with other blocks there. *)
Lemma var_fine R C : NoDup (map fst (C ++ tree_cols m)) -> fine R C var_l.
Proof.
  intros ND. pose proof (sd_nodes _ _ _ _ _ _ OKm) as N2. unfold var_l. apply fine_app. split.
  - apply fine_cols; auto. intros n k I. apply in_tree_cols in I as (-> & _). lia.
  - apply fine_uses. intros c I. apply uses_bounds in I. unfold add_cols. rewrite cols_of_adds. destruct c; cbn [uses] in *; try tauto; try (now apply inside_app_r). all: try (destruct I as [(k & [] & _) _]). destruct I as (k & [] & _).
Qed.
Lemma bal_fine R C : NoDup (map fst (R ++ tree_rows m TB)) -> (forall p, inside (tree_cols m) p -> inside C p) -> fine R C bal_l.
Proof.
  intros ND H. pose proof (sd_nodes _ _ _ _ _ _ OKm) as N2. unfold bal_l. apply fine_app. unfold add_rows. rewrite rows_of_adds, cols_of_addrows, app_nil_r. split.
  - apply fine_rows; auto. intros n k I. apply in_tree_rows in I as (-> & _). lia.
  - apply fine_uses. intros c I. apply in_app_or in I as [I|I]; [apply uses_bal; auto|apply (uses_limits _ _ TB); auto]; intros p; apply inside_app_r.
Qed.
Lemma agg_fine R C : NoDup (map fst (R ++ tree_rows m TA)) -> (forall p, inside (tree_cols m) p -> inside C p) -> fine R C agg_l.
Proof.
  intros ND H. pose proof (sd_nodes _ _ _ _ _ _ OKm) as N2. unfold agg_l. apply fine_app. unfold add_rows. rewrite rows_of_adds, cols_of_addrows, app_nil_r. split.
  - apply fine_rows; auto. intros n k I. apply in_tree_rows in I as (-> & _). lia.
  - apply fine_uses. intros c I. apply in_app_or in I as [I|I]; [apply uses_agg; auto|apply (uses_limits _ _ TA); auto]; intros p; apply inside_app_r.
Qed.

(** ** Rows *)

Lemma entries_limits f : entries_of (row_limits m f) = [].
Proof.
  destruct (entries_of (row_limits m f)) as [|e r] eqn:E; [reflexivity|]. exfalso. assert (I : In e (entries_of (row_limits m f))) by (rewrite E; now left). apply entries_in, in_limits in I as (i & n & _ & _ & X). discriminate X.
Qed.
Lemma entries_var : entries_of var_l = [].
Proof.
  unfold var_l. rewrite entries_app. unfold add_cols. rewrite entries_of_addcols. cbn [List.app]. rewrite entries_flat. apply flat_map_nil. intros i _. unfold bounds_p. rewrite entries_app, entries_flat. cbn [entries_of flat_map List.app]. apply flat_map_nil. reflexivity.
Qed.
Lemma loop_row f g s i n : (forall a b, f a = f b -> a = b) -> (forall i n e, In e (entries_of (g i n)) -> fst (fst e) = (f i, n - 1)) -> i < V -> 1 <= n < N ->
  (row_sum (loop g) s (f i, (n - 1)%nat) == row_sum (g i n) s (f i, (n - 1)%nat))%Q.
Proof.
  intros INJ H L J. unfold loop. rewrite row_sum_flat. rewrite (qsum_single _ _ i); [|apply seq_NoDup|apply in_seq; lia|].
  - rewrite row_sum_flat. rewrite (qsum_single _ _ n); [reflexivity|apply seq_NoDup|apply in_seq; lia|]. intros k K Ne. apply in_seq in K. apply row_sum_0. intros e I E. rewrite (H _ _ _ I) in E. injection E as E. apply Ne. lia.
  - intros k K Ne. apply row_sum_0. intros e I E. rewrite entries_flat in I. apply in_flat_map in I as (n' & _ & I). rewrite (H _ _ _ I) in E. injection E as E _. apply INJ in E. contradiction.
Qed.
Lemma bal_entries i n e : In e (entries_of (bal_p i n)) -> fst (fst e) = (TB i, n - 1).
Proof. cbn. intros [<-|[<-|[<-|[<-|[]]]]]; reflexivity. Qed.
Lemma agg_entries i n e : In e (entries_of (agg_p i n)) -> fst (fst e) = (TA i, n - 1).
Proof. unfold agg_p. rewrite entries_app. intros I. apply in_app_or in I as [I|I]; [cbn in I; destruct I as [<-|[<-|[]]]; reflexivity|]. destruct (Qeq_bool (1 - w n) 0); [destruct I|]. destruct I as [<-|[]]. reflexivity. Qed.

Lemma bal_sum s i n : i < V -> 1 <= n < N -> (row_sum bal_l s (TB i, (n - 1)%nat) == s (PS i, n) - s (side i (snd (fwd n)), fst (fwd n)) - s (IT i, n) + s (OT i, n))%Q.
Proof.
  intros L J. unfold bal_l. rewrite !row_sum_app. unfold add_rows. rewrite (row_sum_none (map _ _)) by apply entries_of_addrows. rewrite (row_sum_none (row_limits m TB)) by apply entries_limits. rewrite (loop_row TB); auto; [|intros a b E; now injection E|apply bal_entries].
  unfold bal_p. rewrite !row_sum_cons, row_sum_nil. destruct (place_dec (TB i, n - 1) (TB i, n - 1)); [|congruence]. ring.
Qed.
Lemma agg_sum s i n : i < V -> 1 <= n < N -> (row_sum agg_l s (TA i, (n - 1)%nat) == s (TS i, n) - w n * s (side i (snd (bwd n)), fst (bwd n)) - (1 - w n) * s (side i (snd (fwd n)), fst (fwd n)))%Q.
Proof.
  intros L J. unfold agg_l. rewrite !row_sum_app. unfold add_rows. rewrite (row_sum_none (map _ _)) by apply entries_of_addrows. rewrite (row_sum_none (row_limits m TA)) by apply entries_limits. rewrite (loop_row TA); auto; [|intros a b E; now injection E|apply agg_entries].
  unfold agg_p. rewrite row_sum_app, !row_sum_cons, row_sum_nil. destruct (place_dec (TA i, n - 1) (TA i, n - 1)); [|congruence]. destruct (Qeq_bool (1 - w n) 0) eqn:E.
  - apply Qeq_bool_iff in E. rewrite row_sum_nil. rewrite E. ring.
  - rewrite row_sum_cons, row_sum_nil. destruct (place_dec (TA i, n - 1) (TA i, n - 1)); [|congruence]. ring.
Qed.
(** Other rows are not touched. *)
Lemma bal_other s p : (forall i, fst p <> TB i) -> (row_sum bal_l s p == 0)%Q.
Proof.
  intros H. apply row_sum_0. intros e I E. unfold bal_l in I. rewrite !entries_app in I. unfold add_rows in I. rewrite entries_of_addrows, entries_limits, app_nil_r in I. cbn [List.app] in I. apply entries_in, in_loop in I as (i & n & _ & _ & I).
  assert (X : fst (fst e) = (TB i, n - 1)) by (apply bal_entries; now apply entries_in). rewrite X in E. subst p. apply (H i). reflexivity.
Qed.
Lemma agg_other s p : (forall i, fst p <> TA i) -> (row_sum agg_l s p == 0)%Q.
Proof.
  intros H. apply row_sum_0. intros e I E. unfold agg_l in I. rewrite !entries_app in I. unfold add_rows in I. rewrite entries_of_addrows, entries_limits, app_nil_r in I. cbn [List.app] in I. apply entries_in, in_loop in I as (i & n & _ & _ & I).
  assert (X : fst (fst e) = (TA i, n - 1)) by (apply agg_entries; now apply entries_in). rewrite X in E. subst p. apply (H i). reflexivity.
Qed.

(** No place is used twice. *)
Lemma side_inj i s (a : nat) s' (b : nat) : s < 2 -> s' < 2 -> (side i s, a) = (side i s', b) -> s = s' /\ a = b.
Proof. unfold side. intros A B E. destruct (Nat.eqb_spec s 0), (Nat.eqb_spec s' 0); injection E; intros; try discriminate; split; try lia. Qed.
Lemma NoDup_loop f g : (forall a b, f a = f b -> a = b) -> (forall i n e, In e (entries_of (g i n)) -> fst (fst e) = (f i, n - 1)) -> (forall i n, i < V -> 1 <= n < N -> NoDup (keys (g i n))) -> NoDup (keys (loop g)).
Proof.
  intros INJ H D. assert (K : forall i n k, In k (keys (g i n)) -> fst k = (f i, n - 1)) by (intros i n k I; apply in_map_iff in I as (e & <- & I); eauto). unfold loop. rewrite keys_flat. apply NoDup_flat_map; [apply seq_NoDup| |].
  - intros i I. apply in_seq in I. rewrite keys_flat. apply NoDup_flat_map; [apply seq_NoDup| |].
    + intros n J. apply in_seq in J. apply D; lia.
    + intros a b x A B X Y. apply in_seq in A, B. assert (E : (f i, a - 1) = (f i, b - 1)) by (rewrite <- (K _ _ _ X); now rewrite <- (K _ _ _ Y)). injection E. lia.
  - intros a b x _ _ X Y. rewrite keys_flat in X, Y. apply in_flat_map in X as (n & _ & X). apply in_flat_map in Y as (n' & _ & Y). assert (E : (f a, n - 1) = (f b, n' - 1)) by (rewrite <- (K _ _ _ X); now rewrite <- (K _ _ _ Y)). injection E as E _. auto.
Qed.
Lemma bal_keys : NoDup (keys bal_l).
Proof.
  unfold bal_l. rewrite !keys_app. unfold keys at 1 3, add_rows. rewrite entries_of_addrows, entries_limits. cbn [map List.app]. rewrite app_nil_r. apply (NoDup_loop TB); [intros a b E; now injection E|apply bal_entries|]. intros i n L J. pose proof (sd_fwd _ _ _ _ _ _ OKm n J) as (_ & F & S2).
  unfold keys, bal_p. cbn [entries_of flat_map map fst List.app]. repeat constructor; cbn [In]; intros H; repeat destruct H as [H|H]; try tauto; try discriminate H.
  - injection H as H1 H2. assert (E : (side i (snd (fwd n)), fst (fwd n)) = (side i 0, n)) by (cbn [side Nat.eqb]; congruence). apply side_inj in E; lia.
  - injection H as H1 H2. unfold side in H1. destruct (snd (fwd n) =? 0); discriminate H1.
  - injection H as H1 H2. unfold side in H1. destruct (snd (fwd n) =? 0); discriminate H1.
Qed.
Lemma agg_keys : NoDup (keys agg_l).
Proof.
  unfold agg_l. rewrite !keys_app. unfold keys at 1 3, add_rows. rewrite entries_of_addrows, entries_limits. cbn [map List.app]. rewrite app_nil_r. apply (NoDup_loop TA); [intros a b E; now injection E|apply agg_entries|]. intros i n L J. pose proof (sd_fwd _ _ _ _ _ _ OKm n J) as (_ & F & S2). pose proof (sd_bwd _ _ _ _ _ _ OKm n J) as (_ & B).
  assert (B2 : snd (bwd n) < 2) by (destruct B as [->|B]; cbn; lia).
  assert (X1 : (TS i, n) <> (side i (snd (bwd n)), fst (bwd n))). { change (TS i) with (side i 1). intros E. apply side_inj in E; [|lia|auto]. destruct B as [E'|B]; [rewrite E' in E; cbn in E; lia|lia]. }
  assert (X2 : (TS i, n) <> (side i (snd (fwd n)), fst (fwd n))). { change (TS i) with (side i 1). intros E. apply side_inj in E; lia. }
  assert (X3 : (side i (snd (bwd n)), fst (bwd n)) <> (side i (snd (fwd n)), fst (fwd n))). { intros E. apply side_inj in E; auto. destruct B as [E'|B]; [rewrite E' in E; cbn in E; lia|lia]. }
  unfold keys, agg_p. rewrite entries_app, map_app. cbn [entries_of flat_map map fst List.app]. destruct (Qeq_bool (1 - w n) 0); cbn [flat_map map List.app fst]; repeat constructor; cbn [In]; intros H; repeat destruct H as [H|H]; try tauto; injection H as H1 H2; try (apply X1; congruence); try (apply X2; congruence); try (apply X3; congruence).
Qed.
Lemma bal_keys_row k : In k (keys bal_l) -> exists i, fst (fst k) = TB i.
Proof.
  unfold keys. intros I. apply in_map_iff in I as (e & <- & I). unfold bal_l in I. rewrite !entries_app in I. unfold add_rows in I. rewrite entries_of_addrows, entries_limits, app_nil_r in I. cbn [List.app] in I. apply entries_in, in_loop in I as (i & n & _ & _ & I). exists i.
  assert (X : fst (fst e) = (TB i, n - 1)) by (apply bal_entries; now apply entries_in). now rewrite X.
Qed.
Lemma agg_keys_row k : In k (keys agg_l) -> exists i, fst (fst k) = TA i.
Proof.
  unfold keys. intros I. apply in_map_iff in I as (e & <- & I). unfold agg_l in I. rewrite !entries_app in I. unfold add_rows in I. rewrite entries_of_addrows, entries_limits, app_nil_r in I. cbn [List.app] in I. apply entries_in, in_loop in I as (i & n & _ & _ & I). exists i.
  assert (X : fst (fst e) = (TA i, n - 1)) by (apply agg_entries; now apply entries_in). now rewrite X.
Qed.

(** ** Bounds *)

Lemma in_var_bound n o b : In (ColBnd n o b) var_l <-> exists i, i < V /\ ((n = PS i /\ o = 0 /\ b = Fixed 0) \/ (n = TS i /\ o = 0 /\ b = Fixed 0) \/ (n = IT i /\ o < N /\ b = Fixed (inp o i)) \/ (n = OT i /\ o < N /\ b = Fixed (out o i))).
Proof.
  unfold var_l. split.
  - intros I. apply in_app_or in I as [I|I]; [apply in_map_iff in I as (x & E & _); discriminate E|]. apply in_flat_map in I as (i & J & I). apply in_seq in J. exists i. split; [lia|]. apply in_app_or in I as [[E|[E|[]]]|I].
    + injection E as <- <- <-. auto.
    + injection E as <- <- <-. auto.
    + apply in_flat_map in I as (j & K & I). apply in_seq in K. destruct I as [E|[E|[]]]; injection E as <- <- <-; [right; right; left|right; right; right]; sp; auto; lia.
  - intros (i & L & H). apply in_or_app. right. apply in_flat_map. exists i. split; [apply in_seq; lia|]. unfold bounds_p. apply in_or_app. destruct H as [(-> & -> & ->)|[(-> & -> & ->)|[(-> & L' & ->)|(-> & L' & ->)]]].
    + left. now left.
    + left. right. now left.
    + right. apply in_flat_map. exists o. split; [apply in_seq; lia|now left].
    + right. apply in_flat_map. exists o. split; [apply in_seq; lia|right; now left].
Qed.
Lemma var_bound n o : inside (tree_cols m) (n, o) -> exists i, i < V /\ o < N /\
  ((n = PS i /\ col_bound var_l (n, o) = if o =? 0 then Fixed 0 else Lower 0) \/ (n = TS i /\ col_bound var_l (n, o) = if o =? 0 then Fixed 0 else Lower 0) \/
   (n = IT i /\ col_bound var_l (n, o) = Fixed (inp o i)) \/ (n = OT i /\ col_bound var_l (n, o) = Fixed (out o i))).
Proof.
  intros (k & I & L). apply in_tree_cols in I as (-> & i & Li & H). cbn [fst snd] in *. exists i. sp; auto. destruct H as [->|[->|[->| ->]]]; [left|right; left|right; right; left|right; right; right]; (split; [reflexivity|]).
  - destruct (Nat.eqb_spec o 0) as [->|Ne].
    + apply col_bound_in; [apply in_var_bound; exists i; split; auto; left; auto|]. intros b' I. apply in_var_bound in I as (i' & _ & I). destruct I as [(E & _ & ->)|[(E & _)|[(E & _)|(E & _)]]]; try discriminate E; auto.
    + apply col_bound_none. intros b I. apply in_var_bound in I as (i' & _ & I). destruct I as [(E & ? & _)|[(E & _)|[(E & _)|(E & _)]]]; try discriminate E; auto.
  - destruct (Nat.eqb_spec o 0) as [->|Ne].
    + apply col_bound_in; [apply in_var_bound; exists i; split; auto; right; left; auto|]. intros b' I. apply in_var_bound in I as (i' & _ & I). destruct I as [(E & _)|[(E & _ & ->)|[(E & _)|(E & _)]]]; try discriminate E; auto.
    + apply col_bound_none. intros b I. apply in_var_bound in I as (i' & _ & I). destruct I as [(E & _)|[(E & ? & _)|[(E & _)|(E & _)]]]; try discriminate E; auto.
  - apply col_bound_in; [apply in_var_bound; exists i; split; auto; right; right; left; auto|]. intros b' I. apply in_var_bound in I as (i' & _ & I). destruct I as [(E & _)|[(E & _)|[(E & _ & ->)|(E & _)]]]; try discriminate E. injection E as ->. reflexivity.
  - apply col_bound_in; [apply in_var_bound; exists i; split; auto; right; right; right; auto|]. intros b' I. apply in_var_bound in I as (i' & _ & I). destruct I as [(E & _)|[(E & _)|[(E & _)|(E & _ & ->)]]]; try discriminate E. injection E as ->. reflexivity.
Qed.
Lemma no_bound_bal n o b : ~ In (ColBnd n o b) bal_l.
Proof.
  unfold bal_l. intros I. apply in_app_or in I as [I|I]; [apply in_map_iff in I as (x & E & _); discriminate E|]. apply in_app_or in I as [I|I]; [|apply in_limits in I as (i & k & _ & _ & E); discriminate E]. apply in_loop in I as (i & k & _ & _ & I). cbn in I. destruct I as [E|[E|[E|[E|[]]]]]; discriminate E.
Qed.
Lemma no_bound_agg n o b : ~ In (ColBnd n o b) agg_l.
Proof.
  unfold agg_l. intros I. apply in_app_or in I as [I|I]; [apply in_map_iff in I as (x & E & _); discriminate E|]. apply in_app_or in I as [I|I]; [|apply in_limits in I as (i & k & _ & _ & E); discriminate E]. apply in_loop in I as (i & k & _ & _ & I). unfold agg_p in I. apply in_app_or in I as [[E|[E|[]]]|I]; try discriminate E.
  destruct (Qeq_bool (1 - w k) 0); [destruct I|]. destruct I as [E|[]]. discriminate E.
Qed.
Lemma in_bal_bound n o b : In (RowBnd n o b) bal_l <-> exists i k, i < V /\ 1 <= k < N /\ n = TB i /\ o = k - 1 /\ b = Fixed 0.
Proof.
  unfold bal_l. split.
  - intros I. apply in_app_or in I as [I|I]; [apply in_map_iff in I as (x & E & _); discriminate E|]. apply in_app_or in I as [I|I]; [apply in_loop in I as (i & k & _ & _ & I); cbn in I; destruct I as [E|[E|[E|[E|[]]]]]; discriminate E|]. apply in_limits in I as (i & k & L & J & E). injection E as -> -> ->. eauto 10.
  - intros (i & k & L & J & -> & -> & ->). apply in_or_app. right. apply in_or_app. right. apply in_limits. eauto.
Qed.
Lemma in_agg_bound n o b : In (RowBnd n o b) agg_l <-> exists i k, i < V /\ 1 <= k < N /\ n = TA i /\ o = k - 1 /\ b = Fixed 0.
Proof.
  unfold agg_l. split.
  - intros I. apply in_app_or in I as [I|I]; [apply in_map_iff in I as (x & E & _); discriminate E|]. apply in_app_or in I as [I|I].
    + apply in_loop in I as (i & k & _ & _ & I). unfold agg_p in I. apply in_app_or in I as [[E|[E|[]]]|I]; try discriminate E. destruct (Qeq_bool (1 - w k) 0); [destruct I|]. destruct I as [E|[]]. discriminate E.
    + apply in_limits in I as (i & k & L & J & E). injection E as -> -> ->. eauto 10.
  - intros (i & k & L & J & -> & -> & ->). apply in_or_app. right. apply in_or_app. right. apply in_limits. eauto.
Qed.
Lemma no_rowbound_var n o b : ~ In (RowBnd n o b) var_l.
Proof.
  unfold var_l. intros I. apply in_app_or in I as [I|I]; [apply in_map_iff in I as (x & E & _); discriminate E|]. apply in_flat_map in I as (i & J & I). apply in_app_or in I as [[E|[E|[]]]|I]; try discriminate E. apply in_flat_map in I as (j & K & I). destruct I as [E|[E|[]]]; discriminate E.
Qed.

(** ** What is stated *)

Definition tree_states (s : place -> Q) (i : nat) : Prop :=
  (s (PS i, 0%nat) == 0)%Q /\ (s (TS i, 0%nat) == 0)%Q /\
  (forall j, j < N -> (s (IT i, j) == inp j i)%Q /\ (s (OT i, j) == out j i)%Q /\ (0 <= s (PS i, j))%Q /\ (0 <= s (TS i, j))%Q) /\
  (forall n, 1 <= n < N -> (s (PS i, n) == s (side i (snd (fwd n)), fst (fwd n)) + inp n i - out n i)%Q /\
     (s (TS i, n) == w n * s (side i (snd (bwd n)), fst (bwd n)) + (1 - w n) * s (side i (snd (fwd n)), fst (fwd n)))%Q).

Definition all_l (o : list cmd) : list cmd := (var_l ++ bal_l ++ agg_l) ++ o.
Definition obj_l : list cmd := [Obj (PS 0) 1 1].

Lemma all_rows : rows_of (all_l obj_l) = tree_rows m TB ++ tree_rows m TA.
Proof. unfold all_l. rewrite !rows_app, var_rows, bal_rows, agg_rows. cbn [obj_l rows_of flat_map List.app]. apply app_nil_r. Qed.
Lemma all_cols : cols_of (all_l obj_l) = tree_cols m.
Proof. unfold all_l. rewrite !cols_app, var_cols, bal_cols, agg_cols. cbn [obj_l cols_of flat_map List.app]. now rewrite !app_nil_r. Qed.

Lemma all_fine : 0 < V -> fine [] [] (all_l obj_l).
Proof.
  intros V0. pose proof (sd_nodes _ _ _ _ _ _ OKm) as N2. unfold all_l. apply fine_app. rewrite !rows_app, !cols_app, var_rows, bal_rows, agg_rows, var_cols, bal_cols, agg_cols. cbn [List.app]. rewrite !app_nil_r. split.
  - apply fine_app. split; [apply var_fine; apply tree_cols_nodup|]. rewrite var_rows, var_cols. cbn [List.app]. apply fine_app. rewrite bal_rows, bal_cols. cbn [List.app]. rewrite app_nil_r. split.
    + apply bal_fine; auto. apply tree_rows_nodup. intros a b E; now injection E.
    + apply agg_fine; auto. rewrite map_app. apply NoDup_app'; [apply tree_rows_nodup; intros a b E; now injection E|apply tree_rows_nodup; intros a b E; now injection E|].
      intros x I J. apply in_map_iff in I as ((a & ka) & <- & I), J as ((b & kb) & E & J). apply in_tree_rows in I as (_ & i & _ & ->), J as (_ & j & _ & ->). discriminate E.
  - cbn [obj_l fine]. split; auto. apply (inside_col 0); auto.
Qed.
Lemma all_keys : NoDup (keys (var_l ++ bal_l ++ agg_l)).
Proof.
  rewrite !keys_app. unfold keys at 1. rewrite entries_var. cbn [map List.app]. apply NoDup_app'; [apply bal_keys|apply agg_keys|]. intros k A B. apply bal_keys_row in A as (i & A). apply agg_keys_row in B as (j & B). rewrite A in B. discriminate B.
Qed.

Lemma all_row_bound p : inside (rows_of (all_l obj_l)) p -> row_bound (all_l obj_l) p = Fixed 0 /\ exists i n, i < V /\ 1 <= n < N /\ (p = (TB i, n - 1) \/ p = (TA i, n - 1)).
Proof.
  rewrite all_rows. destruct p as [r o]. intros (k & I & L). cbn [fst snd] in *.
  assert (U : forall b', In (RowBnd r o b') (all_l obj_l) -> b' = Fixed 0).
  { intros b' J. unfold all_l in J. apply in_app_or in J as [J|[E|[]]]; [|discriminate E]. apply in_app_or in J as [J|J]; [now apply no_rowbound_var in J|]. apply in_app_or in J as [J|J]; [apply in_bal_bound in J as (? & ? & _ & _ & _ & _ & ->)|apply in_agg_bound in J as (? & ? & _ & _ & _ & _ & ->)]; reflexivity. }
  apply in_app_or in I as [I|I]; apply in_tree_rows in I as (-> & i & Li & ->); (split; [|exists i, (o + 1); sp; [auto|lia|lia|]; replace (o + 1 - 1) with o by lia; auto]); apply row_bound_in; auto; unfold all_l; apply in_or_app; left; apply in_or_app; right; apply in_or_app.
  - left. apply in_bal_bound. exists i, (o + 1). sp; auto; lia.
  - right. apply in_agg_bound. exists i, (o + 1). sp; auto; lia.
Qed.
Lemma all_col_bound n o : col_bound (all_l obj_l) (n, o) = col_bound var_l (n, o).
Proof.
  unfold all_l. rewrite <- !app_assoc. apply col_bound_app_none. intros b I. apply in_app_or in I as [I|I]; [now apply no_bound_bal in I|]. apply in_app_or in I as [I|[E|[]]]; [now apply no_bound_agg in I|discriminate E].
Qed.
Lemma all_sum s p : (row_sum (all_l obj_l) s p == row_sum bal_l s p + row_sum agg_l s p)%Q.
Proof. unfold all_l. rewrite !row_sum_app. rewrite (row_sum_none var_l) by apply entries_var. rewrite (row_sum_none obj_l) by reflexivity. ring. Qed.

Theorem states_tree s : states (all_l obj_l) s <-> forall i, i < V -> tree_states s i.
Proof.
  unfold states. rewrite all_cols. assert (NB : forall i j, TB i <> TA j) by (intros i j E; discriminate E). assert (BN : forall i j, TA i <> TB j) by (intros i j E; discriminate E).
  assert (T : forall i n, i < V -> 1 <= n < N -> (row_sum (all_l obj_l) s (TB i, (n - 1)%nat) == s (PS i, n) - s (side i (snd (fwd n)), fst (fwd n)) - s (IT i, n) + s (OT i, n))%Q).
  { intros i n L J. rewrite all_sum, bal_sum, agg_other by (auto; intros j; apply NB). ring. }
  assert (A : forall i n, i < V -> 1 <= n < N -> (row_sum (all_l obj_l) s (TA i, (n - 1)%nat) == s (TS i, n) - w n * s (side i (snd (bwd n)), fst (bwd n)) - (1 - w n) * s (side i (snd (fwd n)), fst (fwd n)))%Q).
  { intros i n L J. rewrite all_sum, agg_sum, bal_other by (auto; intros j; apply BN). ring. }
  split.
  - intros (HC & HR) i L. pose proof (sd_nodes _ _ _ _ _ _ OKm) as N2.
    assert (C : forall n o, o < N -> (n = PS i \/ n = TS i \/ n = IT i \/ n = OT i) -> within (col_bound var_l (n, o)) (s (n, o))).
    { intros n o Lo E. rewrite <- all_col_bound. apply HC. now apply (inside_col i). }
    assert (CS : forall n o, o < N -> (n = PS i \/ n = TS i) -> (0 <= s (n, o))%Q /\ (o = 0 -> (s (n, o) == 0)%Q)).
    { intros n o Lo E. specialize (C n o Lo ltac:(tauto)). destruct (var_bound n o) as (i' & _ & _ & [(-> & X)|[(-> & X)|[(-> & X)|(-> & X)]]]); [apply (inside_col i); auto; tauto|..]; rewrite X in C.
      - destruct (Nat.eqb_spec o 0); cbn [within] in C; [split; [rewrite C; apply Qle_refl|auto]|split; [exact C|intros; contradiction]].
      - destruct (Nat.eqb_spec o 0); cbn [within] in C; [split; [rewrite C; apply Qle_refl|auto]|split; [exact C|intros; contradiction]].
      - destruct E as [E|E]; discriminate E.
      - destruct E as [E|E]; discriminate E. }
    assert (CI : forall o, o < N -> (s (IT i, o) == inp o i)%Q).
    { intros o Lo. specialize (C (IT i) o Lo ltac:(tauto)). destruct (var_bound (IT i) o) as (i' & _ & _ & [(E & X)|[(E & X)|[(E & X)|(E & X)]]]); [apply (inside_col i); auto; tauto|..]; try discriminate E. injection E as <-. rewrite X in C. exact C. }
    assert (CO : forall o, o < N -> (s (OT i, o) == out o i)%Q).
    { intros o Lo. specialize (C (OT i) o Lo ltac:(tauto)). destruct (var_bound (OT i) o) as (i' & _ & _ & [(E & X)|[(E & X)|[(E & X)|(E & X)]]]); [apply (inside_col i); auto; tauto|..]; try discriminate E. injection E as <-. rewrite X in C. exact C. }
    unfold tree_states. sp.
    + apply CS; auto. lia.
    + apply CS; auto. lia.
    + intros j Lj. sp; [now apply CI|now apply CO|apply CS; auto|apply CS; auto].
    + intros n J. assert (R : forall p, inside (rows_of (all_l obj_l)) p -> (row_sum (all_l obj_l) s p == 0)%Q). { intros p I. specialize (HR p I). destruct (all_row_bound p I) as (E & _). now rewrite E in HR. }
      pose proof (R (TB i, n - 1) ltac:(rewrite all_rows; apply inside_app_l; now apply inside_row)) as X. pose proof (R (TA i, n - 1) ltac:(rewrite all_rows; apply inside_app_r; now apply inside_row)) as Y.
      rewrite T in X by auto. rewrite A in Y by auto. rewrite CI, CO in X by lia. split; lra.
  - intros H. split.
    + intros [n o] I. rewrite all_col_bound. destruct (var_bound n o I) as (i & L & Lo & X). destruct (H i L) as (Z1 & Z2 & B & _). specialize (B o Lo) as (B1 & B2 & B3 & B4). destruct X as [(-> & ->)|[(-> & ->)|[(-> & ->)|(-> & ->)]]]; cbn [within]; auto; destruct (Nat.eqb_spec o 0) as [->|]; cbn [within]; auto.
    + intros p I. destruct (all_row_bound p I) as (-> & i & n & L & J & X). cbn [within]. destruct (H i L) as (_ & _ & B & R). destruct (R n J) as (R1 & R2). specialize (B n ltac:(lia)) as (B1 & B2 & _). destruct X as [->| ->]; [rewrite T by auto; rewrite B1, B2; lra|rewrite A by auto; lra].
Qed.

(** The problem is built and can be solved; its answers are what the equations of the tree state. *)
Theorem built_em : 0 < V -> exists S, optimisation_em m = Ok S /\ (forall x, feasible S x <-> forall i, i < V -> tree_states (view (all_l obj_l) x) i) /\
  (forall x i j f, (f = PS \/ f = TS \/ f = IT \/ f = OT) -> i < V -> j < N -> primal S x (f i) j = Ok (view (all_l obj_l) x (f i, j))) /\
  (forall s, exists x, forall i j f, (f = PS \/ f = TS \/ f = IT \/ f = OT) -> i < V -> j < N -> view (all_l obj_l) x (f i, j) = s (f i, j)).
Proof.
  intros V0. pose proof (all_fine V0) as F. destruct (run_ok (var_l ++ bal_l ++ agg_l) obj_l) as (S & E & B & M); [exact F|reflexivity|apply all_keys|]. change ((var_l ++ bal_l ++ agg_l) ++ obj_l) with (all_l obj_l) in B, M. exists S. sp.
  - unfold optimisation_em, definition_em. rewrite variables_l, bind_ok, balance_l, bind_ok, aggregation_l, bind_ok. unfold objective_em. rewrite (at_some _ _ 0) by (rewrite (nth_error_nth' _ 0), seq_nth by (rewrite ?seq_length; lia); reflexivity). rewrite !bind_ok. change ([Obj (PS 0) 1 1]) with obj_l. rewrite E, bind_ok. unfold simplex.
    assert (SO : solvable S = true). { apply (solvable_proper _ _ B). split; intros p I; [destruct (all_row_bound p I) as (-> & _); reflexivity|]. rewrite all_cols in I. destruct p as [n o]. rewrite all_col_bound. destruct (var_bound n o I) as (i & _ & _ & [(_ & ->)|[(_ & ->)|[(_ & ->)|(_ & ->)]]]); try reflexivity; destruct (o =? 0); reflexivity. }
    rewrite SO. reflexivity.
  - intros x. rewrite (feasible_states _ _ x B M F). apply states_tree.
  - intros x i j f Hf L J. apply primal_view; auto. apply (inside_in _ (f i, j)). rewrite all_cols. apply (inside_col i); auto. destruct Hf as [->|[->|[->| ->]]]; auto.
  - intros s. exists (fun a => s (locate (cols_of (all_l obj_l)) a)). intros i j f Hf L J. apply view_locate; [apply (bl_nc _ _ B)|]. rewrite all_cols. apply (inside_col i); auto. destruct Hf as [->|[->|[->| ->]]]; auto.
Qed.
End Energy.
