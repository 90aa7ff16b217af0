(** Lemmas about the readers. *)
From Coq Require Import List String Ascii Bool Arith ZArith QArith Lia Permutation Sorted.
From Verif Require Import Base Container Graph GraphData GraphDataProofs Clustering ClusteringProofs Reader.
Import ListNotations.
Open Scope nat_scope.
Open Scope list_scope.

Local Ltac sp := repeat match goal with |- _ /\ _ => split end.

(** ** Blocks *)

Lemma adjust_equal size p : List.length (pp_rows p) = size -> adjust size p = Ok p.
Proof. intros <-. unfold adjust. now rewrite Nat.ltb_irrefl. Qed.

Lemma adjust_multiple size k p : 0 < size -> 1 <= k -> List.length (pp_rows p) = size * k ->
  exists p', adjust size p = Ok p' /\ pp_width p' = pp_width p /\ (1 < k -> pp_rows p' = map (fun i => block_mean (pp_width p) (firstn k (skipn (i * k) (pp_rows p)))) (seq 0 size)) /\
    (k = 1 -> p' = p).
Proof.
  intros L K E. destruct (Nat.eq_dec k 1) as [->|NK].
  - exists p. rewrite adjust_equal by lia. sp; auto. lia.
  - unfold adjust. destruct (Nat.ltb_spec size (List.length (pp_rows p))); [|nia]. unfold recalculate. destruct size as [|m]; [lia|].
    replace (S m * k) with (k * S m) in E by lia. rewrite E. rewrite Nat.mod_mul by lia. rewrite Nat.eqb_refl. eexists. split; [reflexivity|]. cbn [pp_width pp_rows]. sp; auto; [|lia].
    intros _. now rewrite Nat.div_mul by lia.
Qed.

Lemma adjust_other size p : 0 < size -> List.length (pp_rows p) mod size <> 0 \/ List.length (pp_rows p) = 0 -> adjust size p = Err ValueError.
Proof.
  intros L H. unfold adjust. destruct (Nat.ltb_spec size (List.length (pp_rows p))).
  - unfold recalculate. destruct size as [|m]; [lia|]. destruct H as [H|H]; [|lia]. now apply Nat.eqb_neq in H as ->.
  - destruct (Nat.ltb_spec (List.length (pp_rows p)) size); auto. destruct H as [H|H]; [|lia].
    assert (List.length (pp_rows p) = size) as E by lia. rewrite E, Nat.mod_same in H; lia.
Qed.

Lemma nth_error_firstn_lt {A} : forall (l : list A) k t, t < k -> nth_error (firstn k l) t = nth_error l t.
Proof. induction l as [|a l IH]; intros [|k] [|t] L; simpl; auto; try lia. apply IH. lia. Qed.

Lemma nth_error_skipn_add {A} : forall k (l : list A) t, nth_error (skipn k l) t = nth_error l (k + t).
Proof. induction k as [|k IH]; intros [|a l] t; simpl; auto. now destruct t. Qed.

Lemma block_nth {A} (l : list A) k i t : t < k -> nth_error (firstn k (skipn (i * k) l)) t = nth_error l (i * k + t).
Proof. intros L. rewrite nth_error_firstn_lt by lia. apply nth_error_skipn_add. Qed.

Lemma block_length {A} (l : list A) k i n : List.length l = n * k -> i < n -> List.length (firstn k (skipn (i * k) l)) = k.
Proof. intros E L. rewrite firstn_length, skipn_length. rewrite E. nia. Qed.

Lemma skipn_add {A} : forall k i (l : list A), skipn i (skipn k l) = skipn (k + i) l.
Proof. induction k as [|k IH]; intros i [|a l]; simpl; auto. now destruct i. Qed.

(** The sum over all rows is the sum over the blocks. *)
Lemma sum_blocks {A} (f : A -> Q) k : forall n (l : list A), List.length l = n * k ->
  (qsum (map f l) == qsum (map (fun i => qsum (map f (firstn k (skipn (i * k) l)))) (seq 0 n)))%Q.
Proof.
  induction n as [|n IH]; intros l E.
  - destruct l; [reflexivity|simpl in E; discriminate].
  - rewrite <- (firstn_skipn k l) at 1. rewrite map_app, qsum_app. cbn [seq map]. unfold qsum at 3. cbn [fold_right]. fold (qsum (map (fun i => qsum (map f (firstn k (skipn (i * k) l)))) (seq 1 n))).
    cbn [Nat.mul]. rewrite skipn_O. apply Qplus_comp; [reflexivity|].
    rewrite (IH (skipn k l)) by (rewrite skipn_length; simpl in E; lia).
    rewrite <- seq_shift, map_map. assert (G : forall is, qsum (map (fun i => qsum (map f (firstn k (skipn (i * k) (skipn k l))))) is) = qsum (map (fun x => qsum (map f (firstn k (skipn (S x * k) l)))) is)).
    { intros is. f_equal. apply map_ext. intros i. rewrite skipn_add. replace (k + i * k) with (S i * k) by (simpl; lia). reflexivity. }
    rewrite G. reflexivity.
Qed.

(** ** Growth profiles *)

Definition powers (sq : Q -> Q) (ip iq : nat) (r : frow) : Q := sq (nth ip (fr_vals r) 0 * nth ip (fr_vals r) 0 + nth iq (fr_vals r) 0 * nth iq (fr_vals r) 0)%Q.
Definition at_sy (s y : Z) (r : frow) : bool := Z.eqb (fr_scenario r) s && Z.eqb (fr_year r) y.

Lemma system_power_ok sq fr s y ip iq : position "p_mw" (f_cols fr) = Some ip -> position "q_mvar" (f_cols fr) = Some iq ->
  exists t, system_power sq fr s y = Ok t /\ (t == qsum (map (powers sq ip iq) (filter (at_sy s y) (f_rows fr))))%Q.
Proof.
  intros EP EQ. unfold system_power. fold (at_sy s y).
  assert (G : forall rows acc, exists t, foldM (fun acc r => do p <- col_of fr "p_mw" r; do q <- col_of fr "q_mvar" r; Ok (acc + sq (p * p + q * q))%Q) rows acc = Ok t /\
    (t == acc + qsum (map (powers sq ip iq) rows))%Q).
  { induction rows as [|r rows IH]; intros acc; [exists acc; split; [reflexivity|unfold qsum; simpl; ring]|]. cbn [foldM]. unfold col_of. rewrite EP, EQ. cbn [rbind].
    unfold col_of in IH. rewrite EP, EQ in IH. destruct (IH (acc + powers sq ip iq r)%Q) as (t & E & H). exists t. split; [exact E|]. rewrite H. unfold qsum. cbn [map fold_right]. ring. }
  destruct (G (filter (at_sy s y) (f_rows fr)) 0%Q) as (t & E & H). exists t. split; [exact E|]. rewrite H. ring.
Qed.

Lemma qunique_gen : forall l acc, ForallOrdPairs (fun a b => ~ (a == b)%Q) acc ->
  let r := fold_left (fun acc q => if existsb (Qeq_bool q) acc then acc else acc ++ [q]) l acc in
  ForallOrdPairs (fun a b => ~ (a == b)%Q) r /\ (forall q, In q r -> In q acc \/ In q l) /\ (forall q, In q acc \/ In q l -> exists q', In q' r /\ (q == q')%Q).
Proof.
  induction l as [|q l IH]; intros acc F; simpl.
  - sp; auto. intros q [I|[]]. exists q. split; auto. reflexivity.
  - destruct (existsb (Qeq_bool q) acc) eqn:E.
    + destruct (IH acc F) as (A & B & C). sp; auto.
      * intros x I. apply B in I. tauto.
      * intros x [I|[<-|I]]; [apply C; auto| |apply C; auto]. apply existsb_exists in E as (y & Iy & Ey). apply Qeq_bool_eq in Ey.
        destruct (C y (or_introl Iy)) as (z & Iz & Ez). exists z. split; auto. now rewrite Ey.
    + assert (F' : ForallOrdPairs (fun a b => ~ (a == b)%Q) (acc ++ [q])).
      { clear IH. assert (N : forall a, In a acc -> ~ (a == q)%Q).
        { intros a I H. assert (T : existsb (Qeq_bool q) acc = true) by (apply existsb_exists; exists a; split; auto; apply Qeq_bool_iff; now symmetry). congruence. }
        clear E. induction F as [|a acc F1 F2 IH]; simpl; [repeat constructor|]. constructor; [|apply IH; intros; apply N; now right].
        apply Forall_app. split; auto. constructor; auto. apply N. now left. }
      destruct (IH _ F') as (A & B & C). sp; auto.
      * intros x I. apply B in I as [I|I]; auto. apply in_app_iff in I as [I|[<-|[]]]; auto.
      * intros x [I|[<-|I]]; apply C; auto; left; apply in_app_iff; simpl; auto.
Qed.

Lemma qunique_single l : List.length (qunique l) <= 1 <-> forall a b, In a l -> In b l -> (a == b)%Q.
Proof.
  destruct (qunique_gen l [] (FOP_nil _)) as (A & B & C). fold (qunique l) in *. split.
  - intros L a b Ia Ib. destruct (C a (or_intror Ia)) as (a' & Ia' & Ea). destruct (C b (or_intror Ib)) as (b' & Ib' & Eb).
    destruct (qunique l) as [|x [|y r]]; simpl in *; try lia; try tauto. destruct Ia' as [<-|[]], Ib' as [<-|[]]. now rewrite Ea, Eb.
  - intros H. destruct (qunique l) as [|x [|y r]] eqn:E; simpl; try lia. exfalso. inversion A as [|? ? A1 A2]; subst. inversion A1 as [|? ? A3 A4]; subst.
    apply A3. destruct (B x) as [[]|Ix]; [now left|]. destruct (B y) as [[]|Iy]; [right; now left|]. now apply H.
Qed.

Lemma zmin_spec l : l <> [] -> exists m, zmin l = Ok m /\ In m l /\ forall z, In z l -> (m <= z)%Z.
Proof.
  destruct l as [|a l]; [congruence|]. intros _. simpl. eexists. split; [reflexivity|].
  assert (G : forall l a, In (fold_left Z.min l a) (a :: l) /\ forall z, In z (a :: l) -> (fold_left Z.min l a <= z)%Z).
  { clear. induction l as [|b l IH]; intros a; [simpl; split; auto; intros z [<-|[]]; lia|]. cbn [fold_left]. destruct (IH (Z.min a b)) as [A B]. split.
    - destruct A as [A|A]; [|simpl; auto]. rewrite <- A. destruct (Z.min_spec a b) as [[_ ->]|[_ ->]]; simpl; auto.
    - intros z I. assert (M : (fold_left Z.min l (Z.min a b) <= Z.min a b)%Z) by (apply B; now left). destruct I as [<-|[<-|I]]; try lia. apply B. now right. }
  apply G.
Qed.

Lemma qmin_In l : l <> [] -> exists q, qmin l = Ok q /\ In q l.
Proof.
  destruct l as [|a l]; [congruence|]. intros _. simpl. eexists. split; [reflexivity|]. revert a.
  induction l as [|b l IH]; intros a; [simpl; auto|]. cbn [fold_left]. destruct (IH (if Qle_bool a b then a else b)) as [E|I]; [|simpl; auto].
  rewrite <- E. destruct (Qle_bool a b); simpl; auto.
Qed.

Definition pairs (ss ys : list Z) : list (Z * Z) := flat_map (fun s => map (fun y => (s, y)) ys) ss.

Lemma pairs_In ss ys s y : In (s, y) (pairs ss ys) <-> In s ss /\ In y ys.
Proof.
  unfold pairs. rewrite in_flat_map. split.
  - intros (s' & Is & I). apply in_map_iff in I as (y' & E & Iy). injection E as -> ->. auto.
  - intros [Is Iy]. exists s. split; auto. apply in_map_iff. eauto.
Qed.

Lemma filter_none {A} (f : A -> bool) l : (forall a, In a l -> f a = false) -> filter f l = [].
Proof. induction l as [|a l IH]; intros H; simpl; auto. rewrite (H a) by (now left). apply IH. intros; apply H; now right. Qed.

Lemma filter_pair ss ys s y : NoDup ss -> NoDup ys -> In s ss -> In y ys ->
  filter (fun p => Z.eqb (snd p) y && Z.eqb (fst p) s) (pairs ss ys) = [(s, y)].
Proof.
  intros NS NY Is Iy. unfold pairs. induction NS as [|a ss Na NS IH]; [destruct Is|]. cbn [flat_map]. rewrite filter_app.
  assert (M : filter (fun p => Z.eqb (snd p) y && Z.eqb (fst p) s) (map (fun y => (a, y)) ys) = if Z.eqb a s then [(a, y)] else []).
  { clear IH. induction NY as [|b ys Nb NY IH]; [destruct Iy|]. cbn [map filter fst snd]. destruct (Z.eqb_spec a s) as [E|NE].
    - destruct (Z.eqb_spec b y) as [->|NB]; cbn [andb].
      + f_equal. apply filter_none. intros p Ip. apply in_map_iff in Ip as (y' & <- & Iy'). simpl. destruct (Z.eqb_spec y' y); auto. congruence.
      + destruct Iy as [|Iy]; [congruence|]. auto.
    - rewrite andb_false_r. apply filter_none. intros p Ip. apply in_map_iff in Ip as (y' & <- & Iy'). simpl. destruct (Z.eqb_spec a s); [congruence|]. apply andb_false_r. }
  rewrite M. destruct (Z.eqb_spec a s) as [->|NE].
  - cbn [app]. f_equal. apply filter_none. intros [s' y'] Ip. apply (pairs_In ss ys) in Ip as [I _]. simpl. destruct (Z.eqb_spec s' s); [subst; tauto|]. apply andb_false_r.
  - destruct Is as [|Is]; [congruence|]. auto.
Qed.

Lemma filter_map {A B} (f : A -> B) (P : B -> bool) l : filter P (map f l) = map f (filter (fun a => P (f a)) l).
Proof. induction l as [|a l IH]; simpl; auto. destruct (P (f a)); simpl; now rewrite IH. Qed.

Lemma normalise_eq t : t <> [] -> normalise t =
    do m <- zmin (map po_year t);
    let first := map po_mva (filter (fun r => Z.eqb (po_year r) m) t) in
    if 1 <? List.length (qunique first) then Err ValueError
    else do s <- qmin first; Ok (map (fun r => (r, (po_mva r / s)%Q)) t).
Proof. destruct t; [congruence|reflexivity]. Qed.

Section Growth.
Variables (sq : Q -> Q) (fr : frame) (ip iq : nat).
Hypothesis EP : position "p_mw" (f_cols fr) = Some ip.
Hypothesis EQ : position "q_mvar" (f_cols fr) = Some iq.
Hypothesis NE : f_rows fr <> [].
Let T s y := qsum (map (powers sq ip iq) (filter (at_sy s y) (f_rows fr))).
Let ss := unique (map fr_scenario (f_rows fr)).
Let ys := unique (map fr_year (f_rows fr)).
Definition t_of s y := match system_power sq fr s y with Ok t => t | Err _ => 0%Q end.

Lemma t_of_spec s y : system_power sq fr s y = Ok (t_of s y) /\ (t_of s y == T s y)%Q.
Proof. destruct (system_power_ok sq fr s y ip iq EP EQ) as (t & E & H). unfold t_of. rewrite E. auto. Qed.

Lemma power_table_eq : power_table sq fr = Ok (map (fun sy => mkP (fst sy) (snd sy) (t_of (fst sy) (snd sy))) (pairs ss ys)).
Proof.
  unfold power_table. fold ss ys. fold (pairs ss ys). apply mapM_Ok. induction (pairs ss ys) as [|[s y] l IH]; simpl; constructor; auto.
  cbn [fst snd]. destruct (t_of_spec s y) as [-> _]. reflexivity.
Qed.

Lemma some_row : exists r, In r (f_rows fr).
Proof. destruct (f_rows fr) as [|r l]; [congruence|]. exists r. now left. Qed.

Lemma ss_In s : In s ss <-> exists r, In r (f_rows fr) /\ fr_scenario r = s.
Proof. unfold ss. rewrite unique_In, in_map_iff. split; intros (r & A & B); eauto. Qed.
Lemma ys_In y : In y ys <-> exists r, In r (f_rows fr) /\ fr_year r = y.
Proof. unfold ys. rewrite unique_In, in_map_iff. split; intros (r & A & B); eauto. Qed.

Definition first_year (y0 : Z) : Prop := In y0 ys /\ forall y, In y ys -> (y0 <= y)%Z.

Lemma table_first : exists y0, first_year y0 /\
  let t := map (fun sy => mkP (fst sy) (snd sy) (t_of (fst sy) (snd sy))) (pairs ss ys) in
  t <> [] /\ zmin (map po_year t) = Ok y0 /\ forall q, In q (map po_mva (filter (fun r => Z.eqb (po_year r) y0) t)) <-> exists s, In s ss /\ q = t_of s y0.
Proof.
  destruct some_row as [r Ir]. assert (Is : In (fr_scenario r) ss) by (apply ss_In; eauto). assert (Iy : In (fr_year r) ys) by (apply ys_In; eauto).
  set (t := map _ _). assert (NT : t <> []).
  { intros N. unfold t in N. apply map_eq_nil in N. assert (J : In (fr_scenario r, fr_year r) (pairs ss ys)) by (now apply pairs_In). rewrite N in J. destruct J. }
  destruct (zmin_spec (map po_year t)) as (m & E & I & H). { destruct t; [congruence|discriminate]. }
  assert (YI : forall y, In y (map po_year t) <-> In y ys).
  { intros y. unfold t. rewrite map_map. cbn [po_year]. rewrite in_map_iff. split.
    - intros ([s y'] & <- & J). apply pairs_In in J. tauto.
    - intros J. exists (fr_scenario r, y). split; auto. now apply pairs_In. }
  exists m. cbv zeta. sp; auto.
  - split; [now apply YI|]. intros y J. apply H. now apply YI.
  - intros q. rewrite in_map_iff. split.
    + intros (x & <- & J). apply filter_In in J as [J Ey]. apply Z.eqb_eq in Ey. unfold t in J. apply in_map_iff in J as ([s y] & <- & J). simpl in *. subst y.
      apply pairs_In in J as [J _]. eauto.
    + intros (s & J & ->). exists (mkP s m (t_of s m)). split; auto. apply filter_In. split; [|simpl; apply Z.eqb_refl]. unfold t. apply in_map_iff.
      exists (s, m). split; auto. apply pairs_In. split; auto. now apply YI.
Qed.

Lemma growth_ok frames y0 : Container.l_get "buses" frames = Some fr -> first_year y0 ->
  (forall s s', In s ss -> In s' ss -> (T s y0 == T s' y0)%Q) ->
  exists c, growth_profile sq frames = Ok c /\ NoDup (cp_columns c) /\ (forall s, In s (cp_columns c) <-> In s ss) /\
    StronglySorted Z.lt (cp_index c) /\ (forall y, In y (cp_index c) <-> In y ys) /\
    List.length (pr_rows (cp_profile c)) = List.length (cp_index c) /\ Forall (fun row => List.length row = List.length (cp_columns c)) (pr_rows (cp_profile c)) /\
    (forall i j y s row v, nth_error (cp_index c) i = Some y -> nth_error (cp_columns c) j = Some s -> nth_error (pr_rows (cp_profile c)) i = Some row -> nth_error row j = Some v ->
       forall s0, In s0 ss -> (v == T s y / T s0 y0)%Q).
Proof.
  intros EF FY EQT. unfold growth_profile. rewrite EF, power_table_eq. cbn [rbind].
  destruct table_first as (y1 & FY1 & NT & ZM & FI). cbv zeta in NT, ZM, FI. set (t := map _ (pairs ss ys)) in *.
  assert (y1 = y0) as ->. { destruct FY as [A B], FY1 as [C D]. specialize (B _ C). specialize (D _ A). lia. }
  rewrite (normalise_eq t NT). rewrite ZM. cbn [rbind].
  set (first := map po_mva (filter _ t)) in *.
  assert (U : List.length (qunique first) <= 1).
  { apply qunique_single. intros a b Ia Ib. apply FI in Ia as (s & Is & ->). apply FI in Ib as (s' & Is' & ->).
    destruct (t_of_spec s y0) as [_ ->]. destruct (t_of_spec s' y0) as [_ ->]. auto. }
  destruct (Nat.ltb_spec 1 (List.length (qunique first))); [lia|].
  destruct some_row as [r Ir]. assert (Is : In (fr_scenario r) ss) by (apply ss_In; eauto). assert (Iy : In (fr_year r) ys) by (apply ys_In; eauto).
  destruct (qmin_In first) as (q & EQM & IQ). { assert (J : In (t_of (fr_scenario r) y0) first) by (apply FI; eauto). intros N. rewrite N in J. destruct J. }
  rewrite EQM. cbn [rbind]. set (n := map _ t).
  assert (EN : n = map (fun sy => (mkP (fst sy) (snd sy) (t_of (fst sy) (snd sy)), (t_of (fst sy) (snd sy) / q)%Q)) (pairs ss ys)) by (unfold n, t; now rewrite map_map).
  assert (CI : forall s, In s (unique (map (fun r => po_scenario (fst r)) n)) <-> In s ss).
  { intros s. rewrite unique_In, EN, map_map. cbn [fst po_scenario]. rewrite in_map_iff. split.
    - intros ([a b] & <- & J). apply pairs_In in J. tauto.
    - intros J. exists (s, fr_year r). split; auto. now apply pairs_In. }
  assert (YI : forall y, In y (zsort (unique (map (fun r => po_year (fst r)) n))) <-> In y ys).
  { intros y. transitivity (In y (unique (map (fun r => po_year (fst r)) n))).
    - split; apply Permutation_in; [|symmetry]; apply zsort_perm.
    - rewrite unique_In, EN, map_map. cbn [fst po_year]. rewrite in_map_iff. split.
      + intros ([a b] & <- & J). apply pairs_In in J. tauto.
      + intros J. exists (fr_scenario r, y). split; auto. now apply pairs_In. }
  assert (MU : forall s y, In s ss -> In y ys -> multiplier n s y = Ok (t_of s y / q)%Q).
  { intros s y J1 J2. unfold multiplier. rewrite EN, filter_map. cbn [fst po_year po_scenario].
    rewrite (filter_pair ss ys s y); auto; apply unique_NoDup. }
  set (cols := unique (map (fun r => po_scenario (fst r)) n)) in *. set (yrs := zsort _) in *.
  assert (RW : mapM (fun y => mapM (fun s => multiplier n s y) cols) yrs = Ok (map (fun y => map (fun s => (t_of s y / q)%Q) cols) yrs)).
  { apply mapM_Ok. assert (SB : forall y, In y yrs -> In y ys) by (intros; now apply YI). revert SB. generalize yrs. induction yrs0 as [|y l IH]; intros SB; simpl; constructor; [|apply IH; intros; apply SB; now right].
    apply mapM_Ok. assert (SC : forall s, In s cols -> In s ss) by (intros; now apply CI). revert SC. generalize cols. induction cols0 as [|s l' IH']; intros SC; simpl; constructor; [|apply IH'; intros; apply SC; now right].
    apply MU; [apply SC|apply SB]; now left. }
  rewrite RW. cbn [rbind]. eexists. split; [reflexivity|]. cbn [cp_columns cp_index cp_profile pr_rows]. sp.
  - apply unique_NoDup.
  - exact CI.
  - assert (SS : StronglySorted Z.le yrs) by apply zsort_sorted.
    assert (ND : NoDup yrs) by (apply (Permutation_NoDup (l := unique (map (fun r => po_year (fst r)) n))); [symmetry; apply zsort_perm|apply unique_NoDup]).
    clear - SS ND. induction SS as [|y l S IH F]; [constructor|]. inversion ND; subst. constructor; auto. rewrite Forall_forall in *. intros z Iz. specialize (F z Iz).
    assert (y <> z) by congruence. lia.
  - exact YI.
  - now rewrite map_length.
  - apply Forall_forall. intros row I. apply in_map_iff in I as (y & <- & _). now rewrite map_length.
  - intros i j y s row v Ey Es Er Ev s0 I0. rewrite (map_nth_error _ _ _ Ey) in Er. injection Er as <-. rewrite (map_nth_error _ _ _ Es) in Ev. injection Ev as <-.
    apply FI in IQ as (s1 & I1 & ->). destruct (t_of_spec s y) as [_ ->]. destruct (t_of_spec s1 y0) as [_ ->]. rewrite (EQT s1 s0); auto. reflexivity.
Qed.

Lemma growth_rejects frames y0 s s' : Container.l_get "buses" frames = Some fr -> first_year y0 -> In s ss -> In s' ss -> ~ (T s y0 == T s' y0)%Q ->
  growth_profile sq frames = Err ValueError.
Proof.
  intros EF FY Is Is' N. unfold growth_profile. rewrite EF, power_table_eq. cbn [rbind].
  destruct table_first as (y1 & FY1 & NT & ZM & FI). cbv zeta in NT, ZM, FI. set (t := map _ (pairs ss ys)) in *.
  assert (y1 = y0) as ->. { destruct FY as [A B], FY1 as [C D]. specialize (B _ C). specialize (D _ A). lia. }
  rewrite (normalise_eq t NT). rewrite ZM. cbn [rbind].
  set (first := map po_mva (filter _ t)) in *. destruct (Nat.ltb_spec 1 (List.length (qunique first))) as [|L]; [reflexivity|]. exfalso. apply N.
  pose proof (proj1 (qunique_single first) L) as H.
  specialize (H (t_of s y0) (t_of s' y0) (proj2 (FI _) (ex_intro _ s (conj Is eq_refl))) (proj2 (FI _) (ex_intro _ s' (conj Is' eq_refl)))).
  destruct (t_of_spec s y0) as [_ E]. destruct (t_of_spec s' y0) as [_ E']. now rewrite E, E' in H.
Qed.
End Growth.
