(** The data of the nodes: weights, inputs and outputs of their interval. *)
From Coq Require Import List Bool Arith ZArith QArith Lia.
From Verif Require Import Base GraphData GraphDataProofs Cases CasesSpec CasesProofs CasesClusters EnergyTree EnergyTreeSpec EnergyTreeProofs EnergyTreeLinks.
Import ListNotations.
Open Scope nat_scope.
Open Scope list_scope.

Local Ltac sp := repeat match goal with |- _ /\ _ => split end.

(** Value of a vector in an interval: a matrix has a row for each vector; a list has the intervals of the only vector or the vectors of all
    intervals. *)
Definition reads (V : nat) (a : array) (v c : nat) : Q :=
  match a with Mat m => nth c (nth v m []) 0%Q | Vec l => if V =? 1 then nth c l 0%Q else nth v l 0%Q end.
Definition shaped (V n : nat) (a : array) : Prop :=
  match a with Mat m => V <= List.length m /\ (forall r, In r m -> n <= List.length r) | Vec l => if V =? 1 then n <= List.length l else V <= List.length l end.
Definition level_ok (V : nat) (l : level) : Prop :=
  List.length (lv_weights l) = lv_names l /\ 0 < lv_names l /\ is_vec (lv_inputs l) = is_vec (lv_outputs l) /\ shaped V (lv_names l) (lv_inputs l) /\ shaped V (lv_names l) (lv_outputs l).

Definition row_of (V : nat) (a : array) (c : nat) : list Q := map (fun v => reads V a v c) (seq 0 V).
Definition rows_in (V : nat) (l : level) : list (list Q) := map (row_of V (lv_inputs l)) (seq 0 (lv_names l)).
Definition rows_out (V : nat) (l : level) : list (list Q) := map (row_of V (lv_outputs l)) (seq 0 (lv_names l)).

Lemma put_put {A} (l : list A) i a b : put (put l i a) i b = put l i b.
Proof. revert i. induction l as [|x l IH]; intros [|i]; cbn [put]; auto. now rewrite IH. Qed.

Lemma put_same {A} (l : list A) i a : nth_error l i = Some a -> put l i a = l.
Proof. revert i. induction l as [|x l IH]; intros [|i]; cbn [put nth_error]; intros H; try congruence. now rewrite IH. Qed.

Definition read_as (V : nat) (vec : bool) (a : array) (x2 xv : nat) : res Q :=
  if V =? 1 then (if vec then entry1 a x2 else entry2 a 0 x2) else (if vec then entry1 a xv else entry2 a xv x2).

Lemma read_ok V n a x2 xv : shaped V n a -> x2 < n -> xv < V -> read_as V (is_vec a) a x2 xv = Ok (reads V a xv x2).
Proof.
  intros S X2 XV. unfold read_as, reads, shaped, entry1, entry2 in *. destruct a as [l|m]; cbn [is_vec].
  - destruct (V =? 1); apply at_nth, nth_error_nth'; lia.
  - destruct S as [L R]. assert (G : forall y, y < V -> (do r <- at_ m y; at_ r x2) = Ok (nth x2 (nth y m []) 0%Q)).
    { intros y Y. rewrite (proj2 (at_nth m y (nth y m []))) by (apply nth_error_nth'; lia). cbn [rbind]. apply at_nth, nth_error_nth'. pose proof (R (nth y m []) (@nth_In _ y m [] ltac:(lia))). lia. }
    destruct (Nat.eqb_spec V 1); [|now apply G]. subst V. replace xv with 0 by lia. apply G. lia.
Qed.

Lemma aset2_ok m i r j x v : nth_error m i = Some r -> r = x -> j < List.length x -> aset2 m i j v = Ok (put m i (put x j v)).
Proof.
  intros H -> J. unfold aset2. rewrite (proj2 (at_nth _ _ _) H). cbn [rbind]. rewrite aset_ok by auto. cbn [rbind]. apply aset_ok. apply nth_error_Some. congruence.
Qed.

Lemma nth_put {A} (l : list A) i v : i < List.length l -> nth_error (put l i v) i = Some v.
Proof. intros H. rewrite put_at, Nat.eqb_refl by auto. reflexivity. Qed.

Lemma interval_spec V n l acu win wout wght x2 : level_ok V l -> n = lv_names l -> x2 < n -> acu + x2 < List.length wght ->
  nth_error win (acu + x2) = Some (repeat 0%Q V) -> nth_error wout (acu + x2) = Some (repeat 0%Q V) ->
  process_interval V l acu (win, wout, wght) x2 = Ok (put win (acu + x2) (row_of V (lv_inputs l) x2), put wout (acu + x2) (row_of V (lv_outputs l) x2), put wght (acu + x2) (nth x2 (lv_weights l) 0%Q)).
Proof.
  intros (LW & LP & VE & SI & SO) En X2 Lw Hi Ho. subst n. unfold process_interval. rewrite (proj2 (at_nth _ _ (nth x2 (lv_weights l) 0%Q))) by (apply nth_error_nth'; lia). cbn [rbind]. rewrite aset_ok by auto. cbn [rbind].
  assert (Li : acu + x2 < List.length win) by (apply nth_error_Some; congruence). assert (Lo : acu + x2 < List.length wout) by (apply nth_error_Some; congruence).
  match goal with |- context [for_range V ?f ?s] => destruct (range_inv V f (fun xv s1 => s1 = (put win (acu + x2) (map (fun v => reads V (lv_inputs l) v x2) (seq 0 xv) ++ repeat 0%Q (V - xv)), put wout (acu + x2) (map (fun v => reads V (lv_outputs l) v x2) (seq 0 xv) ++ repeat 0%Q (V - xv)))) s) as (st & E & H) end.
  - cbn [seq map List.app]. rewrite Nat.sub_0_r, !put_same by auto. reflexivity.
  - intros xv s XV ->. cbn beta zeta. cbn [fst snd]. fold (read_as V (is_vec (lv_inputs l)) (lv_inputs l) x2 xv). fold (read_as V (is_vec (lv_inputs l)) (lv_outputs l) x2 xv). rewrite (read_ok V (lv_names l)) by auto. cbn [rbind].
    erewrite aset2_ok; [|apply nth_put; auto|reflexivity|rewrite app_length, map_length, seq_length, repeat_length; lia]. cbn [rbind]. rewrite VE, (read_ok V (lv_names l)) by auto. cbn [rbind].
    erewrite aset2_ok; [|apply nth_put; auto|reflexivity|rewrite app_length, map_length, seq_length, repeat_length; lia]. cbn [rbind]. eexists. split; [reflexivity|]. rewrite !put_put. replace (V - xv) with (V - (xv + 1) + 1) by lia. rewrite !put_repeat by (now rewrite map_length, seq_length). now rewrite seq_snoc, !map_app.
  - rewrite E, H. cbn [rbind fst snd]. rewrite Nat.sub_diag. cbn [repeat]. rewrite !List.app_nil_r. reflexivity.
Qed.

Lemma nth_repeat_app {A} (l : list A) d r i : i = List.length l -> nth_error (l ++ repeat d (r + 1)) i = Some d.
Proof. intros ->. rewrite nth_error_app2, Nat.sub_diag, Nat.add_1_r by lia. reflexivity. Qed.

Lemma level_spec V l A B C R : level_ok V l -> List.length A = List.length C -> List.length B = List.length C -> lv_names l <= R ->
  for_range (List.length (lv_weights l)) (process_interval V l (List.length C)) (A ++ repeat (repeat 0%Q V) R, B ++ repeat (repeat 0%Q V) R, C ++ repeat 1%Q R)
  = Ok ((A ++ rows_in V l) ++ repeat (repeat 0%Q V) (R - lv_names l), (B ++ rows_out V l) ++ repeat (repeat 0%Q V) (R - lv_names l), (C ++ lv_weights l) ++ repeat 1%Q (R - lv_names l)).
Proof.
  intros OK LA LB LR. pose proof OK as (LW & _). rewrite LW.
  match goal with |- for_range _ ?f ?s = _ => destruct (range_inv (lv_names l) f (fun x2 s1 => s1 = ((A ++ map (row_of V (lv_inputs l)) (seq 0 x2)) ++ repeat (repeat 0%Q V) (R - x2), (B ++ map (row_of V (lv_outputs l)) (seq 0 x2)) ++ repeat (repeat 0%Q V) (R - x2), (C ++ map (fun i => nth i (lv_weights l) 0%Q) (seq 0 x2)) ++ repeat 1%Q (R - x2))) s) as (st & E & H) end.
  - cbn [seq map]. now rewrite !List.app_nil_r, !Nat.sub_0_r.
  - intros x2 s X2 ->. replace (R - x2) with (R - (x2 + 1) + 1) by lia. rewrite (interval_spec V (lv_names l)); auto.
    + eexists. split; [reflexivity|]. rewrite !put_repeat by (rewrite app_length, map_length, seq_length; lia). rewrite seq_snoc, !map_app, <- !app_assoc. reflexivity.
    + rewrite !app_length, map_length, seq_length, repeat_length. lia.
    + apply nth_repeat_app. rewrite app_length, map_length, seq_length. lia.
    + apply nth_repeat_app. rewrite app_length, map_length, seq_length. lia.
  - rewrite E, H. unfold rows_in, rows_out. assert (EW : map (fun i => nth i (lv_weights l) 0%Q) (seq 0 (lv_names l)) = lv_weights l).
    { rewrite <- LW. clear. induction (lv_weights l) as [|w ws IH]; [reflexivity|]. cbn [List.length seq map nth]. rewrite <- seq_shift, map_map. cbn [nth]. now rewrite IH. }
    now rewrite EW.
Qed.

Lemma process_loop V : forall data A B C R, Forall (level_ok V) data -> List.length A = List.length C -> List.length B = List.length C -> fold_right Nat.add 0 (map lv_names data) = R ->
  foldM (fun (st : nat * (list (list Q) * list (list Q) * list Q)) l =>
            do s <- for_range (List.length (lv_weights l)) (process_interval V l (fst st)) (snd st);
            Ok (fst st + List.length (lv_weights l), s)) data (List.length C, (A ++ repeat (repeat 0%Q V) R, B ++ repeat (repeat 0%Q V) R, C ++ repeat 1%Q R))
  = Ok (List.length C + R, (A ++ flat_map (rows_in V) data, B ++ flat_map (rows_out V) data, C ++ flat_map lv_weights data)).
Proof.
  induction data as [|l data IH]; intros A B C R F LA LB ER; cbn [foldM flat_map map fold_right] in *.
  - subst R. cbn [repeat]. now rewrite Nat.add_0_r, !List.app_nil_r.
  - inversion F as [|? ? OK F']; subst. cbn [fst snd]. rewrite level_spec by (auto; lia). cbn [rbind]. pose proof OK as (LW & _). replace (lv_names l + fold_right Nat.add 0 (map lv_names data) - lv_names l) with (fold_right Nat.add 0 (map lv_names data)) by lia.
    replace (List.length C + List.length (lv_weights l)) with (List.length (C ++ lv_weights l)) by (now rewrite app_length). rewrite IH; auto.
    + rewrite app_length, LW, <- !app_assoc. f_equal. f_equal. lia.
    + unfold rows_in. rewrite !app_length, map_length, seq_length. lia.
    + unfold rows_out. rewrite !app_length, map_length, seq_length. lia.
Qed.

Lemma base_cons n lens k : base (n :: lens) (S k) = n + base lens k.
Proof. induction k as [|k IH]; [cbn; lia|]. cbn [base] in *. rewrite IH. unfold len. cbn [nth]. lia. Qed.

Lemma base_sum lens : base lens (depth lens) = 1 + fold_right Nat.add 0 lens.
Proof. induction lens as [|n l IH]; [reflexivity|]. unfold depth in *. cbn [List.length]. rewrite base_cons, IH. cbn. lia. Qed.

Definition win_of (V : nat) (data : list level) : list (list Q) := repeat 0%Q V :: flat_map (rows_in V) data.
Definition wout_of (V : nat) (data : list level) : list (list Q) := repeat 0%Q V :: flat_map (rows_out V) data.
Definition wght_of (data : list level) : list Q := 1%Q :: flat_map lv_weights data.

Lemma process_spec V data : Forall (level_ok V) data ->
  process (sz_of (map lv_names data) V (base (map lv_names data) (List.length data))) data = Ok (win_of V data, wout_of V data, wght_of data).
Proof.
  intros F. unfold process. cbn [sz_vectors sz_sum sz_of]. replace (List.length data) with (depth (map lv_names data)) by (unfold depth; apply map_length). rewrite base_sum. cbn [Nat.add repeat].
  pose proof (process_loop V data [repeat 0%Q V] [repeat 0%Q V] [1%Q] (fold_right Nat.add 0 (map lv_names data)) F eq_refl eq_refl eq_refl) as E. cbn [List.length List.app] in E. rewrite E. reflexivity.
Qed.

Lemma flat_nth {A} (f : level -> list A) : forall data k l c, Forall (fun l => List.length (f l) = lv_names l) data -> nth_error data k = Some l -> c < lv_names l ->
  nth_error (flat_map f data) (base (map lv_names data) k - 1 + c) = nth_error (f l) c.
Proof.
  induction data as [|l0 data IH]; intros k l c F H C; [destruct k; discriminate|]. inversion F as [|? ? L0 F']; subst. cbn [flat_map map]. destruct k as [|k].
  - cbn in H. inversion H; subst. cbn [base]. replace (1 - 1 + c) with c by lia. apply nth_error_app1. lia.
  - cbn [nth_error] in H. rewrite base_cons. pose proof (IH k l c F' H C) as E. assert (B : 1 <= base (map lv_names data) k) by (clear; induction k; cbn [base]; lia).
    rewrite nth_error_app2 by lia. replace (lv_names l0 + base (map lv_names data) k - 1 + c - List.length (f l0)) with (base (map lv_names data) k - 1 + c) by lia. exact E.
Qed.

Lemma head_nth {A} (h : A) (f : level -> list A) data k l c : Forall (fun l => List.length (f l) = lv_names l) data -> nth_error data k = Some l -> c < lv_names l ->
  nth_error (h :: flat_map f data) (base (map lv_names data) k + c) = nth_error (f l) c.
Proof.
  intros F H C. rewrite <- (flat_nth f data k l c F H C). assert (B : 1 <= base (map lv_names data) k) by (clear; induction k; cbn [base]; lia). destruct (base (map lv_names data) k) as [|b]; [lia|]. cbn [Nat.add nth_error]. now replace (S b - 1 + c) with (b + c) by lia.
Qed.

Lemma mapM_row (r : list Q) V : List.length r = V -> mapM (fun xv => at_ r xv) (seq 0 V) = Ok r.
Proof.
  intros <-. rewrite (mapM_map _ (fun i => nth i r 0%Q)) by (intros i I; apply in_seq in I; apply at_nth, nth_error_nth'; lia). f_equal. induction r as [|x r IH]; [reflexivity|]. cbn [List.length seq map nth]. rewrite <- seq_shift, map_map. cbn [nth]. now rewrite IH.
Qed.

Section Params.
Variable data : list level.
Variable V : nat.
Hypothesis ok : Forall (level_ok V) data.
Notation lens := (map lv_names data).
Variable unc : list bool.
Variable t : tree.
Hypothesis T : is_tree lens unc t.
Notation N := (nodes lens).

Lemma data_pos : Forall (fun n => 0 < n) lens.
Proof. apply Forall_map. eapply Forall_impl; [|exact ok]. intros l (_ & H & _). exact H. Qed.

Lemma data_depth : depth lens = List.length data.
Proof. apply map_length. Qed.

Lemma data_len k l : nth_error data k = Some l -> len lens k = lv_names l.
Proof. intros H. unfold len. apply nth_error_nth. now rewrite nth_error_map, H. Qed.

(** Entries of a node. *)
Definition in_at (x : nat) : list Q := nth (nth x (tr_inout t) 0) (win_of V data) [].
Definition out_at (x : nat) : list Q := nth (nth x (tr_inout t) 0) (wout_of V data) [].
Definition weight_at (x : nat) : Q := nth (nth x (tr_inout t) 0) (wght_of data) 0%Q.

Lemma node_data k j l c : nth_error data k = Some l -> j < width lens (k + 1) -> c = j mod lv_names l ->
  in_at (node lens (k + 1) j) = row_of V (lv_inputs l) c /\ out_at (node lens (k + 1) j) = row_of V (lv_outputs l) c /\ weight_at (node lens (k + 1) j) = nth c (lv_weights l) 0%Q.
Proof.
  intros H J ->. assert (K : k < depth lens) by (rewrite data_depth; apply nth_error_Some; congruence). pose proof (it_inout _ _ _ T (k + 1) j ltac:(lia) J) as E. rewrite inout_S, (data_len k l H) in E.
  assert (OK : level_ok V l) by (rewrite Forall_forall in ok; eapply ok, nth_error_In; eauto). destruct OK as (LW & LP & _). pose proof (Nat.mod_upper_bound j (lv_names l) ltac:(lia)) as C. set (c := j mod lv_names l) in *.
  assert (FI : Forall (fun l => List.length (rows_in V l) = lv_names l) data) by (apply Forall_forall; intros x _; unfold rows_in; now rewrite map_length, seq_length).
  assert (FO : Forall (fun l => List.length (rows_out V l) = lv_names l) data) by (apply Forall_forall; intros x _; unfold rows_out; now rewrite map_length, seq_length).
  assert (FW : Forall (fun l => List.length (lv_weights l) = lv_names l) data) by (eapply Forall_impl; [|exact ok]; intros x (X & _); exact X).
  unfold in_at, out_at, weight_at. rewrite (nth_error_nth _ _ 0 E). sp.
  - apply nth_error_nth. unfold win_of. rewrite (head_nth _ _ data k l c FI H C). unfold rows_in. rewrite nth_error_map, (nth_error_nth' _ 0), seq_nth by (rewrite ?seq_length; auto). reflexivity.
  - apply nth_error_nth. unfold wout_of. rewrite (head_nth _ _ data k l c FO H C). unfold rows_out. rewrite nth_error_map, (nth_error_nth' _ 0), seq_nth by (rewrite ?seq_length; auto). reflexivity.
  - apply nth_error_nth. unfold wght_of. rewrite (head_nth _ _ data k l c FW H C). apply nth_error_nth'. lia.
Qed.

Lemma root_data : 0 < depth lens -> in_at 0 = repeat 0%Q V /\ out_at 0 = repeat 0%Q V /\ weight_at 0 = 1%Q.
Proof. intros D. pose proof (it_inout _ _ _ T 0 0 ltac:(lia) ltac:(cbn; lia)) as E. unfold in_at, out_at, weight_at. change (node lens 0 0) with 0 in E. rewrite (nth_error_nth _ _ 0 E). cbn. auto. Qed.

Lemma inout_bound x : 0 < depth lens -> x < N -> exists i, nth_error (tr_inout t) x = Some i /\ nth_error (wght_of data) i = Some (weight_at x) /\
  nth_error (win_of V data) i = Some (in_at x) /\ nth_error (wout_of V data) i = Some (out_at x) /\ List.length (in_at x) = V /\ List.length (out_at x) = V.
Proof.
  intros D X. destruct (node_surj lens (depth lens + 1) x X) as (k & j & K0 & J & ->). assert (K : k <= depth lens) by lia. destruct k as [|k].
  - cbn in J. replace j with 0 by lia. change (node lens 0 0) with 0. pose proof (it_inout _ _ _ T 0 0 ltac:(lia) ltac:(cbn; lia)) as E. change (node lens 0 0) with 0 in E. exists 0. cbn [inout_spec] in E. destruct (root_data D) as (A & B & C). rewrite A, B, C. sp; auto using repeat_length.
  - replace (S k) with (k + 1) in * by lia. destruct (nth_error data k) as [l|] eqn:H; [|apply nth_error_None in H; rewrite data_depth in K; lia].
    destruct (node_data k j l _ H J eq_refl) as (A & B & C). pose proof (it_inout _ _ _ T (k + 1) j K J) as E. exists (inout_spec lens (k + 1) j).
    assert (LN : forall A (h : A) f, Forall (fun l => List.length (f l) = lv_names l) data -> inout_spec lens (k + 1) j < List.length (h :: flat_map f data)).
    { intros A0 h f F. apply nth_error_Some. rewrite inout_S, (data_len k l H). assert (OK : level_ok V l) by (rewrite Forall_forall in ok; eapply ok, nth_error_In; eauto). destruct OK as (_ & LP & _).
      pose proof (Nat.mod_upper_bound j (lv_names l) ltac:(lia)) as C0. rewrite (head_nth _ _ data k l _ F H C0). apply nth_error_Some. rewrite Forall_forall in F. rewrite (F l); [lia|]. eapply nth_error_In; eauto. }
    unfold weight_at, in_at, out_at. rewrite (nth_error_nth _ _ 0 E). sp; auto.
    + apply nth_error_nth', LN. eapply Forall_impl; [|exact ok]; intros x (Y & _); exact Y.
    + apply nth_error_nth', LN. apply Forall_forall; intros x _; unfold rows_in; now rewrite map_length, seq_length.
    + apply nth_error_nth', LN. apply Forall_forall; intros x _; unfold rows_out; now rewrite map_length, seq_length.
    + unfold in_at in A. rewrite (nth_error_nth _ _ 0 E) in A. rewrite A. unfold row_of. now rewrite map_length, seq_length.
    + unfold out_at in B. rewrite (nth_error_nth _ _ 0 E) in B. rewrite B. unfold row_of. now rewrite map_length, seq_length.
Qed.

Lemma parameters_spec sumP : 0 < depth lens -> parameters (sz_of lens V sumP) t (win_of V data, wout_of V data, wght_of data) = Ok (map in_at (seq 0 N), map out_at (seq 0 N), map weight_at (seq 0 N)).
Proof.
  intros D. unfold parameters. cbn [sz_vectors sz_nodes sz_of]. change (off lens (depth lens + 1)) with N. rewrite (mapM_map _ (fun x => (in_at x, out_at x, weight_at x))).
  - cbn [rbind]. now rewrite !map_map.
  - intros x I. apply in_seq in I. destruct (inout_bound x D ltac:(lia)) as (i & E & Ew & Ei & Eo & Li & Lo). rewrite (proj2 (at_nth _ _ _) E). cbn [rbind]. rewrite (proj2 (at_nth _ _ _) Ew), (proj2 (at_nth _ _ _) Ei), (proj2 (at_nth _ _ _) Eo). cbn [rbind]. rewrite !mapM_row by auto. reflexivity.
Qed.
End Params.
