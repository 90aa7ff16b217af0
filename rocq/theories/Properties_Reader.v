(** Properties C36-C40 and C62: clustering of profiles, readers, and the way from bus data to a plan. *)
From Coq Require Import List String Ascii Bool Arith ZArith QArith Lia Permutation Sorted.
From Verif Require Import Base Container Graph GraphSpec GraphProofs GraphData GraphDataProofs Clustering ClusteringProofs.
From Verif Require Import Reader ReaderProofs NumeralSpec NumeralProofs Planner PlannerSpec PlannerMain GraphPlan Properties_Graph.
Import ListNotations.
Open Scope nat_scope.
Open Scope list_scope.

Local Ltac sp := repeat match goal with |- _ /\ _ => split end.

(* ------------------------------------------------------------------ *)
(** ** C36 *)

(** The values of a row that carry a label. *)
Definition labelled_values (labels : list nat) (row : list Q) (c : nat) : list Q :=
  flat_map (fun i => match nth_error labels i with Some c' => if c' =? c then [nth i row 0%Q] else [] | None => [] end) (seq 0 (List.length labels)).

Lemma labelled_carrying labels row c : List.length labels = List.length row -> labelled_values labels row c = carrying labels row c.
Proof.
  intros L. unfold labelled_values, carrying.
  assert (G : forall l r pl pr, List.length l = List.length r -> List.length pl = List.length pr ->
    flat_map (fun i => match nth_error (pl ++ l) i with Some c' => if c' =? c then [nth i (pr ++ r) 0%Q] else [] | None => [] end) (seq (List.length pl) (List.length l)) =
    map snd (filter (fun x => fst x =? c) (combine l r))).
  { induction l as [|a l IH]; intros [|v r] pl pr Ll Lp; simpl in Ll; try discriminate; auto. cbn [List.length seq flat_map combine filter fst].
    rewrite nth_error_app2, Nat.sub_diag by lia. cbn [nth_error].
    specialize (IH r (pl ++ [a]) (pr ++ [v])). rewrite !app_length, <- !app_assoc in IH. cbn [app List.length] in IH. rewrite Nat.add_1_r in IH. rewrite IH by lia.
    destruct (a =? c); auto. cbn [map snd app]. f_equal. rewrite Lp, app_nth2, Nat.sub_diag by lia. reflexivity. }
  exact (G labels row [] [] L eq_refl).
Qed.

(** One time step: with labels 0..k-1, all used, every value becomes the mean of the values with
    its label; the sum is kept; equal labels give equal results. *)
Theorem C36_centroids_are_means : forall labels row,
  List.length labels = List.length row -> (forall c c', In c labels -> c' < c -> In c' labels) ->
  exists out, step_centroids labels row = Ok out /\ List.length out = List.length row /\
    (forall i c v, nth_error labels i = Some c -> nth_error out i = Some v -> is_mean v (labelled_values labels row c)) /\
    (fold_right Qplus 0 out == fold_right Qplus 0 row)%Q /\
    (forall i j c v w, nth_error labels i = Some c -> nth_error labels j = Some c -> nth_error out i = Some v -> nth_error out j = Some w -> v = w).
Proof.
  intros labels row L G. eexists. split; [now apply step_ok|]. sp.
  - now rewrite map_length.
  - intros i c v Ec Ev. rewrite (map_nth_error _ _ _ Ec) in Ev. injection Ev as <-. rewrite labelled_carrying by auto.
    assert (N : carrying labels row c <> []) by (apply carrying_nonempty; auto; eapply nth_error_In; exact Ec). split; auto. now apply mean_spec.
  - now apply centroid_sum.
  - intros i j c v w Ei Ej Ev Ew. rewrite (map_nth_error _ _ _ Ei) in Ev. rewrite (map_nth_error _ _ _ Ej) in Ew. congruence.
Qed.
Print Assumptions C36_centroids_are_means.

(** The whole table: every time step is treated on its own. *)
Theorem C36_every_time_step : forall labels rows out, List.length labels = List.length rows -> centroids labels rows = Ok out ->
  List.length out = List.length rows /\
  forall i ls row, nth_error labels i = Some ls -> nth_error rows i = Some row -> exists o, nth_error out i = Some o /\ step_centroids ls row = Ok o.
Proof.
  intros labels rows out L E. unfold centroids in E. apply mapM_Ok in E. split.
  - apply Forall2_length in E. rewrite combine_length in E. lia.
  - clear L. revert rows out E. induction labels as [|l ls IH]; intros [|r rs] out E i ls' row El Er; try (destruct i; discriminate).
    cbn [combine] in E. inversion E as [|? o ? os H1 H2]; subst. destruct i as [|i]; simpl in *; [|eauto]. injection El as <-. injection Er as <-. eauto.
Qed.
Print Assumptions C36_every_time_step.

(** A gap in the labels - scikit-learn does not exclude it - raises IndexError. *)
Theorem C36_gap_raises : forall labels row c c', List.length labels = List.length row ->
  In c labels -> c' < c -> ~ In c' labels -> step_centroids labels row = Err IndexError.
Proof. intros labels row c c' L I LT N. now apply (step_gap labels row c c'). Qed.
Print Assumptions C36_gap_raises.

Example C36_witness : (forall c c', In c [1; 0; 1] -> c' < c -> In c' [1; 0; 1]) /\
  match step_centroids [1; 0; 1] [4; 5; 8]%Q with Ok [a; b; c] => (a == 6 /\ b == 5 /\ c == 6)%Q | _ => False end /\
  step_centroids [0; 2; 2] [4; 5; 8]%Q = Err IndexError.
Proof. sp; [intros c c' I L; simpl in *; lia|vm_compute; auto|reflexivity]. Qed.

(* ------------------------------------------------------------------ *)
(** ** C37 *)

(** A profile with [k] rows per requested period becomes, column by column, the means of
    consecutive blocks of [k] rows, and keeps its column averages. *)
Theorem C37_blocks_are_averaged : forall size k p, 0 < size -> 1 < k -> List.length (pp_rows p) = size * k ->
  exists p', adjust size p = Ok p' /\ pp_width p' = pp_width p /\ List.length (pp_rows p') = size /\
    (forall i j row, nth_error (pp_rows p') i = Some row -> j < pp_width p ->
       exists v, nth_error row j = Some v /\ is_mean v (map (fun t => nth j (nth (i * k + t) (pp_rows p) []) 0%Q) (seq 0 k))) /\
    (forall j m, j < pp_width p -> is_mean m (map (fun r => nth j r 0%Q) (pp_rows p)) -> is_mean m (map (fun r => nth j r 0%Q) (pp_rows p'))).
Proof.
  intros size k p LS LK E. destruct (adjust_multiple size k p LS ltac:(lia) E) as (p' & EA & W & R & _). specialize (R LK). exists p'. sp; auto.
  - rewrite R, map_length. apply seq_length.
  - intros i j row Er Lj. rewrite R in Er. assert (Li : i < size).
    { assert (H : i < List.length (map (fun i => block_mean (pp_width p) (firstn k (skipn (i * k) (pp_rows p)))) (seq 0 size))) by (apply nth_error_Some; congruence).
      rewrite map_length, seq_length in H. exact H. }
    assert (ES : nth_error (seq 0 size) i = Some i) by (rewrite (nth_error_nth' _ 0) by (rewrite seq_length; lia); now rewrite seq_nth).
    rewrite (map_nth_error _ _ _ ES) in Er. injection Er as <-. unfold block_mean.
    assert (EJ : nth_error (seq 0 (pp_width p)) j = Some j) by (rewrite (nth_error_nth' _ 0) by (rewrite seq_length; lia); now rewrite seq_nth).
    eexists. split; [apply map_nth_error; exact EJ|].
    set (B := firstn k (skipn (i * k) (pp_rows p))). assert (LB : List.length B = k) by (now apply (block_length _ k i size)).
    assert (EB : map (fun r => nth j r 0%Q) B = map (fun t => nth j (nth (i * k + t) (pp_rows p) []) 0%Q) (seq 0 k)).
    { apply nth_error_ext. intros t. destruct (Nat.lt_ge_cases t k) as [Lt|Ge].
      - assert (EB : nth_error B t = Some (nth (i * k + t) (pp_rows p) [])).
        { unfold B. rewrite block_nth by auto. apply nth_error_nth'. rewrite E. nia. }
        rewrite (map_nth_error _ _ _ EB). assert (ET : nth_error (seq 0 k) t = Some t) by (rewrite (nth_error_nth' _ 0) by (rewrite seq_length; lia); now rewrite seq_nth).
        now rewrite (map_nth_error _ _ _ ET).
      - rewrite !(proj2 (nth_error_None _ _)); auto; rewrite map_length, ?seq_length; lia. }
    rewrite <- EB. split; [destruct B; [simpl in LB; lia|discriminate]|]. apply mean_spec. destruct B; [simpl in LB; lia|discriminate].
  - intros j m Lj [NM HM]. split; [rewrite R; destruct size; [lia|discriminate]|]. rewrite map_length in *.
    assert (LP : List.length (pp_rows p') = size) by (rewrite R, map_length; apply seq_length). rewrite LP. rewrite E in HM.
    fold (qsum (map (fun r => nth j r 0%Q) (pp_rows p))) in HM. fold (qsum (map (fun r => nth j r 0%Q) (pp_rows p'))).
    rewrite (sum_blocks _ k size) in HM by exact E.
    assert (EQ : (qsum (map (fun r => nth j r 0) (pp_rows p')) * inject_Z (Z.of_nat k) ==
      qsum (map (fun i => qsum (map (fun r => nth j r 0) (firstn k (skipn (i * k) (pp_rows p))))) (seq 0 size)))%Q).
    { rewrite R, map_map. assert (G : forall is, (forall i, In i is -> i < size) ->
        (qsum (map (fun x => nth j (block_mean (pp_width p) (firstn k (skipn (x * k) (pp_rows p)))) 0) is) * inject_Z (Z.of_nat k) ==
         qsum (map (fun i => qsum (map (fun r => nth j r 0) (firstn k (skipn (i * k) (pp_rows p))))) is))%Q).
      { induction is as [|i is IH]; intros Hi; [unfold qsum; simpl; ring|]. unfold qsum in *. cbn [map fold_right]. rewrite Qmult_plus_distr_l, IH by (intros; apply Hi; now right).
        apply Qplus_comp; [|reflexivity]. set (B := firstn k (skipn (i * k) (pp_rows p))).
        assert (LB : List.length B = k) by (apply (block_length _ k i size); auto; apply Hi; now left).
        unfold block_mean. rewrite (nth_indep _ 0%Q (mean (map (fun r => nth (pp_width p) r 0%Q) B))) by (rewrite map_length, seq_length; lia).
        rewrite (map_nth (fun j => mean (map (fun r => nth j r 0%Q) B)) (seq 0 (pp_width p)) (pp_width p)), seq_nth by lia. cbn [Nat.add].
        rewrite <- LB at 1. rewrite <- (map_length (fun r => nth j r 0%Q) B) at 1. apply mean_spec. destruct B; [simpl in LB; lia|discriminate]. }
      apply G. intros i I. apply in_seq in I. lia. }
    rewrite <- EQ, Nat2Z.inj_mul, inject_Z_mult in HM. apply (Qmult_inj_r _ _ (inject_Z (Z.of_nat k))).
    + unfold Qeq. simpl. lia.
    + rewrite <- HM. ring.
Qed.
Print Assumptions C37_blocks_are_averaged.

(** Equal lengths: nothing changes.  Any other length: ValueError. *)
Theorem C37_other_lengths : forall size p, 0 < size ->
  (List.length (pp_rows p) = size -> adjust size p = Ok p) /\
  ((forall k, 1 <= k -> List.length (pp_rows p) <> size * k) -> adjust size p = Err ValueError).
Proof.
  intros size p L. split; [apply adjust_equal|]. intros H. apply adjust_other; auto.
  destruct (Nat.eq_dec (List.length (pp_rows p)) 0) as [|N]; auto. left. intros M. apply Nat.mod_divides in M as [k E]; [|lia]. apply (H k); auto. destruct k; lia.
Qed.
Print Assumptions C37_other_lengths.

(** Several profiles: the first one that does not fit makes the whole reading fail. *)
Theorem C37_all_profiles : forall size ps out, adjust_all size ps = Ok out ->
  List.length out = List.length ps /\ forall i p q, nth_error ps i = Some p -> nth_error out i = Some q -> adjust size p = Ok q.
Proof.
  intros size ps out E. apply mapM_Ok in E. split; [now apply Forall2_length in E|].
  induction E as [|a b l l' H F IH]; intros i p q E1 E2; [destruct i; discriminate|]. destruct i as [|i]; simpl in *; [congruence|eauto].
Qed.
Print Assumptions C37_all_profiles.

Example C37_witness : match adjust 2 (mkPP 2 [[1; 10]; [3; 20]; [5; 0]; [7; 4]]%Q) with
  | Ok (mkPP 2 [[a; b]; [c; d]]) => (a == 2 /\ b == 15 /\ c == 6 /\ d == 2)%Q
  | _ => False end /\ adjust 3 (mkPP 1 [[1]; [2]; [3]; [4]]%Q) = Err ValueError /\ adjust 5 (mkPP 1 [[1]]%Q) = Err ValueError.
Proof. sp; [vm_compute; auto|reflexivity|reflexivity]. Qed.

(* ------------------------------------------------------------------ *)
(** ** C38 *)

Definition column (fr : frame) (c : string) (r : frow) : Q :=
  match position c (f_cols fr) with Some i => nth i (fr_vals r) 0%Q | None => 0%Q end.

(** Total apparent power of a scenario in a year; [sq] is the square root. *)
Definition total (sq : Q -> Q) (fr : frame) (s y : Z) : Q :=
  fold_right Qplus 0%Q (map (fun r => sq (column fr "p_mw" r * column fr "p_mw" r + column fr "q_mvar" r * column fr "q_mvar" r)%Q)
    (filter (fun r => Z.eqb (fr_scenario r) s && Z.eqb (fr_year r) y) (f_rows fr))).

Definition scenario_in (fr : frame) (s : Z) : Prop := exists r, In r (f_rows fr) /\ fr_scenario r = s.
Definition year_in (fr : frame) (y : Z) : Prop := exists r, In r (f_rows fr) /\ fr_year r = y.
Definition earliest (fr : frame) (y : Z) : Prop := year_in fr y /\ forall y', year_in fr y' -> (y <= y')%Z.
Definition has_powers (fr : frame) : Prop := In "p_mw"%string (f_cols fr) /\ In "q_mvar"%string (f_cols fr).

Lemma has_position c l : In c l -> exists i, position c l = Some i.
Proof.
  induction l as [|x l IH]; intros I; [destruct I|]. simpl. destruct (String.eqb_spec x c); [eauto|]. destruct I as [|I]; [congruence|].
  destruct (IH I) as [i ->]. simpl. eauto.
Qed.

Lemma total_eq sq fr ip iq s y : position "p_mw" (f_cols fr) = Some ip -> position "q_mvar" (f_cols fr) = Some iq ->
  total sq fr s y = qsum (map (powers sq ip iq) (filter (at_sy s y) (f_rows fr))).
Proof. intros EP EQ. unfold total, column. rewrite EP, EQ. reflexivity. Qed.

Lemma earliest_first fr y : earliest fr y -> first_year fr y.
Proof. intros [A B]. split; [now apply ys_In|]. intros y' I. apply B. now apply ys_In. Qed.

(** Bus data whose first-year totals agree gives a table over the sorted years and the
    scenarios, holding the ratios to the first-year total. *)
Theorem C38_growth_is_ratio_to_first_year : forall sq frames fr y0,
  l_get "buses"%string frames = Some fr -> has_powers fr -> f_rows fr <> [] -> earliest fr y0 ->
  (forall s s', scenario_in fr s -> scenario_in fr s' -> (total sq fr s y0 == total sq fr s' y0)%Q) ->
  exists c, growth_profile sq frames = Ok c /\
    NoDup (cp_columns c) /\ (forall s, In s (cp_columns c) <-> scenario_in fr s) /\
    StronglySorted Z.lt (cp_index c) /\ (forall y, In y (cp_index c) <-> year_in fr y) /\
    List.length (pr_rows (cp_profile c)) = List.length (cp_index c) /\
    Forall (fun row => List.length row = List.length (cp_columns c)) (pr_rows (cp_profile c)) /\
    (forall i j y s row v, nth_error (cp_index c) i = Some y -> nth_error (cp_columns c) j = Some s ->
       nth_error (pr_rows (cp_profile c)) i = Some row -> nth_error row j = Some v ->
       forall s0, scenario_in fr s0 -> (v == total sq fr s y / total sq fr s0 y0)%Q) /\
    (forall row v, nth_error (pr_rows (cp_profile c)) 0 = Some row -> In v row ->
       (forall s0, scenario_in fr s0 -> ~ (total sq fr s0 y0 == 0)%Q) -> (v == 1)%Q).
Proof.
  intros sq frames fr y0 EF [IP IQ] NE FY EQT. destruct (has_position _ _ IP) as [ip EP]. destruct (has_position _ _ IQ) as [iq EQ].
  destruct (growth_ok sq fr ip iq EP EQ NE frames y0 EF (earliest_first _ _ FY)) as (c & E & A1 & A2 & A3 & A4 & A5 & A6 & A7).
  { intros s s' I I'. rewrite <- !(total_eq sq fr ip iq) by auto. apply EQT; now apply ss_In. }
  assert (V : forall i j y s row v, nth_error (cp_index c) i = Some y -> nth_error (cp_columns c) j = Some s ->
       nth_error (pr_rows (cp_profile c)) i = Some row -> nth_error row j = Some v -> forall s0, scenario_in fr s0 -> (v == total sq fr s y / total sq fr s0 y0)%Q).
  { intros i j y s row v H1 H2 H3 H4 s0 I0. rewrite !(total_eq sq fr ip iq) by auto. apply (A7 i j y s row v); auto. now apply ss_In. }
  exists c. sp; auto.
  - intros s. rewrite A2. apply ss_In.
  - intros y. rewrite A4. apply ys_In.
  - intros row v Er Iv NZ. apply In_nth_error in Iv as [j Ej].
    assert (Lj : j < List.length (cp_columns c)) by (rewrite Forall_forall in A6; rewrite <- (A6 row) by (eapply nth_error_In; exact Er); apply nth_error_Some; congruence).
    destruct (nth_error (cp_columns c) j) as [s|] eqn:Es; [|apply nth_error_None in Es; lia].
    assert (Is : scenario_in fr s) by (apply ss_In, A2; eapply nth_error_In; exact Es).
    destruct (nth_error (cp_index c) 0) as [y|] eqn:Ey.
    + assert (y = y0) as ->.
      { destruct (cp_index c) as [|y1 l]; [discriminate|]. injection Ey as ->. inversion A3 as [|? ? _ F]; subst. destruct FY as [IY0 MIN].
        assert (I1 : year_in fr y) by (apply ys_In, A4; now left). assert (I0 : In y0 (y :: l)) by (apply A4; now apply ys_In).
        specialize (MIN y I1). destruct I0 as [|I0]; auto. rewrite Forall_forall in F. specialize (F y0 I0). lia. }
      rewrite (V 0 j y0 s row v Ey Es Er Ej s Is). field. now apply NZ.
    + apply nth_error_None in Ey. rewrite <- A5 in Ey. assert (0 < List.length (pr_rows (cp_profile c))) by (apply nth_error_Some; congruence). lia.
Qed.
Print Assumptions C38_growth_is_ratio_to_first_year.

(** Different first-year totals are rejected. *)
Theorem C38_unequal_first_year_rejected : forall sq frames fr y0 s s',
  l_get "buses"%string frames = Some fr -> has_powers fr -> earliest fr y0 -> scenario_in fr s -> scenario_in fr s' ->
  ~ (total sq fr s y0 == total sq fr s' y0)%Q -> growth_profile sq frames = Err ValueError.
Proof.
  intros sq frames fr y0 s s' EF [IP IQ] FY Is Is' N. destruct (has_position _ _ IP) as [ip EP]. destruct (has_position _ _ IQ) as [iq EQ].
  apply (growth_rejects sq fr ip iq EP EQ) with (y0 := y0) (s := s) (s' := s'); auto.
  - destruct Is as (r & I & _). intros E. rewrite E in I. destruct I.
  - now apply earliest_first.
  - now apply ss_In.
  - now apply ss_In.
  - now rewrite <- !(total_eq sq fr ip iq) by auto.
Qed.
Print Assumptions C38_unequal_first_year_rejected.

(** Two scenarios, two years, given out of order; [|p| + ...] is irrelevant, so any [sq] serves: here the identity. *)
Definition bus_table : frame := mkFrame ["p_mw"; "q_mvar"]%string
  [mkFRow 2 2040 7 [6; 0]%Q; mkFRow 2 2030 7 [2; 0]%Q; mkFRow 1 2030 7 [2; 0]%Q; mkFRow 1 2040 7 [3; 4]%Q].
Example C38_witness : has_powers bus_table /\ earliest bus_table 2030 /\
  (forall s s', scenario_in bus_table s -> scenario_in bus_table s' -> (total (fun x => x) bus_table s 2030 == total (fun x => x) bus_table s' 2030)%Q) /\
  match growth_profile (fun x => x) [("buses"%string, bus_table)] with
  | Ok (mkClustered (mkProfile _ _ [[a; b]; [c; d]]) [2; 1] [2030; 2040])%Z => (a == 1 /\ b == 1 /\ c == 9 /\ d == 25 / 4)%Q
  | _ => False
  end.
Proof.
  sp; [split; simpl; auto| | |vm_compute; auto].
  - split; [exists (mkFRow 2 2030 7 [2; 0]%Q); simpl; auto|]. intros y (r & I & <-). simpl in I. intuition (subst; simpl; lia).
  - intros s s' (r & I & <-) (r' & I' & <-). simpl in I, I'. intuition (subst; reflexivity).
Qed.

(* ------------------------------------------------------------------ *)
(** ** C39 *)

(** A numeral without exponent is read correctly whatever separators follow it; a numeral with an
    exponent is read correctly when nothing follows (missing for a full proof of C39: an exponent
    followed by ';' or ','; false, see below). *)
Theorem C39_numerals_are_read_partial : forall n suffix, numeral_ok n ->
  Forall (fun a => In a [";"; ","; "]"; " "]%char) suffix -> (nu_exp n = None \/ suffix = []) ->
  exists v, get_digit (numeral_text n ++ suffix) = Ok (Some v) /\ (v == numeral_value n)%Q.
Proof.
  intros n suffix OK FS ES. unfold numeral_text. rewrite <- app_assoc.
  destruct (read_number n (if nu_neg n then ["-"%char] else []) suffix OK) as (v & E & H); auto.
  - destruct (nu_neg n); constructor; [|constructor]. split; [reflexivity|split; discriminate].
  - apply Forall_forall. intros a I. rewrite Forall_forall in FS. specialize (FS a I). simpl in FS.
    destruct FS as [<-|[<-|[<-|[<-|[]]]]]; split; try reflexivity; split; discriminate.
  - exists v. split; auto. rewrite H. unfold numeral_value. destruct (nu_neg n); reflexivity.
Qed.
Print Assumptions C39_numerals_are_read_partial.

(** Every numeral with an exponent directly followed by a separator raises ValueError. *)
Theorem C39_exponent_with_separator_refuted : (forall n suffix, numeral_ok n -> nu_exp n <> None -> suffix <> [] ->
    Forall (fun a => In a [";"; ","; "]"; " "]%char) suffix -> get_digit (numeral_text n ++ suffix) = Err ValueError) /\
  exists n, numeral_ok n /\ numeral_text n = ["1"; "e"; "-"; "5"]%char /\ nu_exp n <> None.
Proof.
  split.
  - intros n suffix OK NE NS FS. unfold numeral_text. rewrite <- app_assoc. apply read_exponent_suffix; auto.
    + destruct (nu_neg n); constructor; [|constructor]. split; [reflexivity|split; discriminate].
    + apply Forall_forall. intros a I. rewrite Forall_forall in FS. specialize (FS a I). simpl in FS. destruct FS as [<-|[<-|[<-|[<-|[]]]]]; reflexivity.
  - exists (mkNum false [1] None (Some (true, [5]))). sp; try reflexivity; [|discriminate].
    split; simpl; try (repeat constructor; lia); [discriminate|]. intros b e E. injection E as _ <-. split; [repeat constructor; lia|discriminate].
Qed.
Print Assumptions C39_exponent_with_separator_refuted.

Example C39_witness : let n := mkNum true [1; 2] (Some [5]) (Some (true, [0; 2])) in
  numeral_ok n /\ numeral_text n = ["-"; "1"; "2"; "."; "5"; "e"; "-"; "0"; "2"]%char /\ (numeral_value n == - (125 # 1000))%Q.
Proof.
  intros n. sp; try reflexivity. split; simpl; try (repeat constructor; lia); [discriminate|].
  intros b e E. injection E as _ <-. split; [repeat constructor; lia|discriminate].
Qed.

(* ------------------------------------------------------------------ *)
(** ** C40 *)

(** A leading bracket is harmless for numerals without a sign (missing for a full proof of C40:
    negative numerals; false, see below). *)
Theorem C40_bracket_before_unsigned_partial : forall n, numeral_ok n -> nu_neg n = false ->
  exists v w, get_digit (numeral_text n) = Ok (Some v) /\ get_digit ("["%char :: numeral_text n) = Ok (Some w) /\ (v == w)%Q.
Proof.
  intros n OK NN. unfold numeral_text. rewrite NN. cbn [app].
  destruct (read_number n [] [] OK) as (v & E & H); auto. destruct (read_number n ["["%char] [] OK) as (w & E' & H'); auto.
  { constructor; [|constructor]. split; [reflexivity|split; discriminate]. }
  rewrite List.app_nil_r in *. exists v, w. sp; auto. rewrite H, H'. reflexivity.
Qed.
Print Assumptions C40_bracket_before_unsigned_partial.

Example C40_witness : numeral_ok (mkNum false [7] None None).
Proof. split; simpl; try (repeat constructor; lia); discriminate. Qed.

(** Before a negative numeral it makes the reader lose the sign: the opposite value is read. *)
Theorem C40_bracket_loses_sign_refuted : (forall n, numeral_ok n -> nu_neg n = true ->
    exists v w, get_digit (numeral_text n) = Ok (Some v) /\ get_digit ("["%char :: numeral_text n) = Ok (Some w) /\ (w == - v)%Q) /\
  (exists n v w, numeral_ok n /\ get_digit (numeral_text n) = Ok (Some v) /\ get_digit ("["%char :: numeral_text n) = Ok (Some w) /\ ~ (v == w)%Q).
Proof.
  split.
  - intros n OK NN. unfold numeral_text. rewrite NN. cbn [app].
    destruct (read_number n ["-"%char] [] OK) as (v & E & H); auto. { constructor; [|constructor]. split; [reflexivity|split; discriminate]. }
    destruct (read_number n ["["; "-"]%char [] OK) as (w & E' & H'); auto. { repeat constructor; try reflexivity; discriminate. }
    rewrite List.app_nil_r in *. exists v, w. sp; auto. rewrite H, H'. change (Ascii.eqb "-" "-") with true. change (Ascii.eqb "[" "-") with false. cbv iota. ring.
  - exists (mkNum true [5] None None). eexists. eexists. sp; [|vm_compute; reflexivity|vm_compute; reflexivity|intros H; vm_compute in H; discriminate].
    split; simpl; try (repeat constructor; lia); discriminate.
Qed.
Print Assumptions C40_bracket_loses_sign_refuted.

(* ------------------------------------------------------------------ *)
(** ** C62 *)

(** From bus data to plans.  Take any table of bus loads covering at least two years in which all
    scenarios have the same non-zero total in the first year, and any clustering whose labels are
    gapless.  Then the growth profile is read and clustered, the control tree is created, the
    years of data and discounting agree at every stage, and the search runs without raising. *)
Theorem C62_from_bus_data_to_plans : forall sq frames fr y0 y1 birch ord fuel rate pool opf,
  NoDup (map fst frames) -> In ("buses"%string, fr) frames -> has_powers fr ->
  earliest fr y0 -> year_in fr y1 -> y1 <> y0 ->
  (forall s s', scenario_in fr s -> scenario_in fr s' -> (total sq fr s y0 == total sq fr s' y0)%Q /\ ~ (total sq fr s y0 == 0)%Q) ->
  (forall row, List.length (birch row) = List.length row /\ forall c c', In c (birch row) -> c' < c -> In c' (birch row)) ->
  enumerates ord -> ~ (1 - rate / 100 == 0)%Q -> NoDup (map fst pool) ->
  (forall c, growth_profile sq frames = Ok c -> List.length (cp_index c) + 1 <= fuel) ->
  exists g c ct b st, growth_profile sq frames = Ok g /\ cluster_profile birch g = Ok c /\
    create_control ord fuel [c] true frames = Ok ct /\
    (forall i : nat, py_index (cp_index c) (Z.of_nat i) = py_index (ct_years ct) (Z.of_nat i)) /\
    solve (problem_of ct rate pool opf) (List.length (cp_index c)) (start 0) = Ok (b, st).
Proof.
  intros sq frames fr y0 y1 birch ord fuel rate pool opf ND IF HP FY IY1 NY EQT BI ORD NR NP LF.
  assert (EF : l_get "buses"%string frames = Some fr).
  { clear - ND IF. induction frames as [|[k f] l IH]; [destruct IF|]. inversion ND as [|? ? N1 N2]; subst. simpl. destruct IF as [E|I].
    - injection E as -> ->. reflexivity.
    - destruct (String.eqb_spec k "buses") as [->|]; auto. exfalso. apply N1. now apply (in_map fst) in I. }
  assert (NE : f_rows fr <> []) by (destruct IY1 as (r & I & _); intros E; rewrite E in I; destruct I).
  destruct (C38_growth_is_ratio_to_first_year sq frames fr y0 EF HP NE FY) as (g & EG & A1 & A2 & A3 & A4 & A5 & A6 & _ & A8); [intros; now apply EQT|].
  assert (ST : forall row, step_centroids (birch row) row = Ok (map (fun c => mean (carrying (birch row) row c)) (birch row))) by (intros row; destruct (BI row); apply step_ok; auto).
  set (f := fun row => map (fun c => mean (carrying (birch row) row c)) (birch row)) in *.
  assert (EC : forall rs, centroids (map birch rs) rs = Ok (map f rs)).
  { clear - ST. intros rs. unfold centroids. apply mapM_Ok. induction rs as [|r rs IH]; simpl; constructor; [apply ST|apply IH]. }
  set (c := mkClustered (mkProfile (pr_type (cp_profile g)) (pr_var (cp_profile g)) (map f (pr_rows (cp_profile g)))) (cp_columns g) (cp_index g)).
  assert (E2 : cluster_profile birch g = Ok c) by (unfold cluster_profile; rewrite EC; reflexivity).
  assert (LI : 2 <= List.length (cp_index g)).
  { assert (I0 : In y0 (cp_index g)) by (apply A4; apply FY). assert (I1 : In y1 (cp_index g)) by (now apply A4).
    destruct (cp_index g) as [|a [|b l]]; simpl in *; try tauto; lia. }
  assert (U : usable c).
  { split; cbn [cp_profile cp_columns cp_index pr_rows c]; rewrite ?map_length; try lia.
    - unfold rectangular. cbn [pr_rows]. apply Forall_forall. intros row I. apply in_map_iff in I as (r & <- & I). unfold f. rewrite map_length.
      destruct (BI r) as [-> _]. rewrite Forall_forall in A6. now apply A6.
    - destruct FY as [(r & I & _) _]. assert (J : In (fr_scenario r) (cp_columns g)) by (apply A2; exists r; auto). destruct (cp_columns g); [destruct J|simpl; lia].
    - intros row v E I.
      destruct (nth_error (pr_rows (cp_profile g)) 0) as [r|] eqn:Er; [|apply nth_error_None in Er; rewrite A5 in Er; lia].
      rewrite (map_nth_error _ _ _ Er) in E. injection E as <-.
      assert (ONE : forall x, In x r -> (x == 1)%Q) by (intros x Ix; apply (A8 r x eq_refl Ix); intros s0 Is0; now apply (EQT s0 s0)).
      destruct (step_equal (birch r) r (f r) 1%Q) as [LN H]; [apply BI|apply ST|exact ONE|].
      rewrite (H v I). destruct (f r) as [|h t]; [destruct I|]. simpl. symmetry. apply H. now left. }
  assert (BF : bus_frames frames).
  { split; auto. intros fr' I'. assert (fr' = fr) as ->; [|exact HP]. clear - ND IF I'. induction frames as [|[k f'] l IH]; [destruct IF|].
    inversion ND as [|? ? N1 N2]; subst. destruct IF as [E|I], I' as [E'|I']; auto; [congruence| |].
    - injection E as -> ->. exfalso. apply N1. now apply (in_map fst) in I'.
    - injection E' as -> ->. exfalso. apply N1. now apply (in_map fst) in I. }
  assert (NF : frames <> []) by (intros ->; destruct IF).
  assert (LR : List.length (pr_rows (cp_profile c)) = List.length (cp_index c)) by (cbn [cp_profile cp_index pr_rows c]; now rewrite map_length).
  assert (LF' : List.length (pr_rows (cp_profile c)) + 1 <= fuel) by (rewrite LR; exact (LF g EG)).
  destruct (C61_planning_on_the_created_tree ord fuel c frames rate pool opf ORD U BF NF LF' NR NP) as (ct & b & st & E3 & E4 & _).
  destruct (C35_years_agree_iff_ascending_partial ord fuel c frames ORD U BF NF LF') as (ct' & E3' & H). rewrite E3 in E3'. injection E3' as <-.
  exists g, c, ct, b, st. sp; auto.
  - apply H. cbn [cp_index c]. clear - A3. induction A3 as [|y l S IH F]; constructor; auto. eapply Forall_impl; [|exact F]. simpl. intros; lia.
  - now rewrite <- LR.
Qed.
Print Assumptions C62_from_bus_data_to_plans.

Example C62_witness : has_powers bus_table /\ earliest bus_table 2030 /\ year_in bus_table 2040 /\
  (forall s s', scenario_in bus_table s -> scenario_in bus_table s' ->
     (total (fun x => x) bus_table s 2030 == total (fun x => x) bus_table s' 2030)%Q /\ ~ (total (fun x => x) bus_table s 2030 == 0)%Q) /\
  (let birch := map (fun _ : Q => 0) in forall row, List.length (birch row) = List.length row /\ forall c c', In c (birch row) -> c' < c -> In c' (birch row)).
Proof.
  destruct C38_witness as (A & B & _). sp; auto.
  - exists (mkFRow 2 2040 7 [6; 0]%Q). simpl. auto.
  - intros s s' (r & I & <-) (r' & I' & <-). split; simpl in I, I'; intuition (subst; try reflexivity; vm_compute in *; discriminate).
  - intros birch row. split; [apply map_length|]. intros c c' I L. apply in_map_iff in I as (x & <- & _). lia.
Qed.
