(** Lemmas about the computation of centroids. *)
From Coq Require Import List String Bool Arith ZArith QArith Lia Permutation Sorted.
From Verif Require Import Base Graph GraphData GraphDataProofs Clustering.
Import ListNotations.
Open Scope nat_scope.
Open Scope list_scope.

Local Ltac sp := repeat match goal with |- _ /\ _ => split end.

(** ** Stable sorting *)

Definition of_label (c : nat) (l : list (nat * nat)) : list (nat * nat) := filter (fun x => fst x =? c) l.

Lemma insert_perm x l : Permutation (insert_label x l) (x :: l).
Proof. induction l as [|y l IH]; simpl; auto. destruct (fst x <=? fst y); auto. rewrite IH. apply perm_swap. Qed.

Lemma sort_perm l : Permutation (sort_labels l) l.
Proof. induction l as [|x l IH]; simpl; auto. rewrite insert_perm. now constructor. Qed.

Lemma insert_sorted x l : StronglySorted (fun a b => fst a <= fst b) l -> StronglySorted (fun a b : nat * nat => fst a <= fst b) (insert_label x l).
Proof.
  induction 1 as [|y l S IH F]; simpl; [repeat constructor|]. destruct (Nat.leb_spec (fst x) (fst y)).
  - constructor; [constructor; auto|]. constructor; auto. eapply Forall_impl; [|exact F]. simpl. intros; lia.
  - constructor; auto. apply Forall_forall. intros z I. apply (Permutation_in _ (insert_perm x l)) in I as [<-|I]; [lia|].
    rewrite Forall_forall in F. now apply F.
Qed.

Lemma sort_sorted l : StronglySorted (fun a b : nat * nat => fst a <= fst b) (sort_labels l).
Proof. induction l as [|x l IH]; simpl; [constructor|]. now apply insert_sorted. Qed.

Lemma insert_blocks x F : forall n k, (forall c y, In y (F c) -> fst y = c) -> k <= fst x < k + n ->
  insert_label x (flat_map F (seq k n)) = flat_map (fun c => if fst x =? c then x :: F c else F c) (seq k n).
Proof.
  induction n as [|n IH]; intros k HF L; [lia|]. cbn [seq flat_map].
  assert (G : forall l r, Forall (fun y => fst y < fst x) l -> insert_label x (l ++ r) = l ++ insert_label x r).
  { clear. induction l as [|y l IH]; intros r F; simpl; auto. inversion F; subst. destruct (Nat.leb_spec (fst x) (fst y)); [lia|]. now rewrite IH. }
  destruct (Nat.eqb_spec (fst x) k) as [E|NE].
  - rewrite E.
    replace (flat_map (fun c => if k =? c then x :: F c else F c) (seq (S k) n)) with (flat_map F (seq (S k) n)).
    + assert (I : forall l, Forall (fun y => k <= fst y) l -> insert_label x l = x :: l).
      { clear - E. intros [|y l] Hl; auto. simpl. inversion Hl; subst. destruct (Nat.leb_spec (fst x) (fst y)); auto. lia. }
      rewrite I; auto. apply Forall_app. split; apply Forall_forall; intros y Iy.
      * apply HF in Iy. lia.
      * apply in_flat_map in Iy as (c & Ic & Iy). apply HF in Iy. apply in_seq in Ic. lia.
    + rewrite !flat_map_concat_map. f_equal. apply map_ext_in. intros c Ic. apply in_seq in Ic. destruct (Nat.eqb_spec k c); auto. lia.
  - rewrite G; [|apply Forall_forall; intros y Iy; apply HF in Iy; lia].
    rewrite IH; auto. lia.
Qed.

Lemma sort_blocks l n : (forall x, In x l -> fst x < n) -> sort_labels l = flat_map (fun c => of_label c l) (seq 0 n).
Proof.
  induction l as [|x l IH]; intros H; simpl.
  - symmetry. clear. generalize 0. induction n; intros k; simpl; auto.
  - rewrite IH by (intros; apply H; now right). rewrite insert_blocks.
    + rewrite !flat_map_concat_map. f_equal. 
    + intros c y I. apply filter_In in I as [_ I]. now apply Nat.eqb_eq in I.
    + split; [lia|]. apply H. now left.
Qed.

(** ** Grouping *)

Definition val (row : list Q) (x : nat * nat) : Q := nth (snd x) row 0%Q.

Lemma append_at_last : forall gs g v, append_at (gs ++ [g]) (List.length gs) v = Ok (gs ++ [g ++ [v]]).
Proof. induction gs as [|h gs IH]; intros g v; simpl; auto. now rewrite IH. Qed.

Lemma append_at_length : forall gs i v gs', append_at gs i v = Ok gs' -> List.length gs' = List.length gs.
Proof.
  induction gs as [|g gs IH]; intros [|i] v gs' E; simpl in E; try discriminate; [injection E as <-; reflexivity|].
  destruct (append_at gs i v) eqn:E'; [|discriminate]. cbn [rbind] in E. injection E as <-. simpl. f_equal. eauto.
Qed.

Definition step_of (row : list Q) := fun (st : list (list Q) * option nat) (el : nat * nat) =>
  do v <- py_index row (Z.of_nat (snd el)); add_scenario st (fst el) v.

Lemma foldM_app {A S} (f : S -> A -> res S) : forall l l' s, foldM f (l ++ l') s = do s' <- foldM f l s; foldM f l' s'.
Proof. induction l as [|a l IH]; intros l' s; simpl; auto. destruct (f s a); simpl; auto. Qed.

Lemma group_rest row c : forall xs gs g, (forall x, In x xs -> fst x = c /\ snd x < List.length row) -> List.length gs = c ->
  foldM (step_of row) xs (gs ++ [g], Some c) = Ok (gs ++ [g ++ map (val row) xs], Some c).
Proof.
  induction xs as [|x xs IH]; intros gs g H L; [simpl; now rewrite List.app_nil_r|]. destruct (H x (or_introl eq_refl)) as [E1 E2].
  cbn [foldM]. unfold step_of at 1. rewrite py_index_nat. rewrite (nth_error_nth' row 0%Q E2). cbn [rbind].
  unfold add_scenario. cbn [snd fst]. rewrite E1, Nat.eqb_refl.
  assert (EA : append_at (gs ++ [g]) c (nth (snd x) row 0%Q) = Ok (gs ++ [g ++ [val row x]])) by (rewrite <- L; apply append_at_last).
  rewrite EA. cbn [rbind].
  rewrite IH; auto; [|intros y Iy; apply H; now right]. cbn [map]. rewrite <- app_assoc. reflexivity.
Qed.

Lemma group_blocks row F : forall n k gs cur, (forall c x, k <= c < k + n -> In x (F c) -> fst x = c /\ snd x < List.length row) ->
  (forall c, k <= c < k + n -> F c <> []) -> List.length gs = k -> (forall c, cur = Some c -> c < k) ->
  exists cur', foldM (step_of row) (flat_map F (seq k n)) (gs, cur) = Ok (gs ++ map (fun c => map (val row) (F c)) (seq k n), cur').
Proof.
  induction n as [|n IH]; intros k gs cur H N L C; [exists cur; simpl; now rewrite List.app_nil_r|].
  cbn [seq flat_map]. rewrite foldM_app.
  destruct (F k) as [|x xs] eqn:EF; [destruct (N k); [lia|auto]|].
  assert (HX : forall y, In y (x :: xs) -> fst y = k /\ snd y < List.length row) by (intros y Iy; apply H; [lia|now rewrite EF]).
  assert (E : foldM (step_of row) (x :: xs) (gs, cur) = Ok (gs ++ [map (val row) (x :: xs)], Some k)).
  { destruct (HX x (or_introl eq_refl)) as [E1 E2]. cbn [foldM]. unfold step_of at 1. rewrite py_index_nat. rewrite (nth_error_nth' row 0%Q E2). cbn [rbind].
    unfold add_scenario. cbn [snd fst]. rewrite E1.
    assert (A : match cur with Some c => if k =? c then do g <- append_at gs c (nth (snd x) row 0%Q); Ok (g, Some c) else Ok (gs ++ [[nth (snd x) row 0%Q]], Some k)
       | None => Ok (gs ++ [[nth (snd x) row 0%Q]], Some k) end = Ok (gs ++ [[val row x]], Some k)).
    { destruct cur as [c|]; auto. specialize (C c eq_refl). destruct (Nat.eqb_spec k c); [lia|reflexivity]. }
    rewrite A. cbn [rbind]. rewrite group_rest; auto. intros y Iy. apply HX. now right. }
  rewrite E. cbn [rbind]. destruct (IH (S k) (gs ++ [map (val row) (x :: xs)]) (Some k)) as (cur' & E').
  - intros c y Lc Iy. apply H; auto. lia.
  - intros c Lc. apply N. lia.
  - rewrite app_length. simpl. lia.
  - intros c Ec. injection Ec as <-. lia.
  - exists cur'. rewrite E'. cbn [map]. rewrite EF. rewrite <- app_assoc. reflexivity.
Qed.

(** ** Labels used without gaps *)

Lemma enum_In labels x : In x (enumerate_labels labels) <-> nth_error labels (snd x) = Some (fst x).
Proof.
  unfold enumerate_labels. assert (G : forall (l : list nat) k c i, In (c, i) (combine l (seq k (List.length l))) <-> k <= i /\ nth_error l (i - k) = Some c).
  { induction l as [|a l IH]; intros k c i; simpl.
    - split; [tauto|]. intros [_ E]. destruct (i - k); discriminate.
    - rewrite IH. split.
      + intros [E|[L E]]; [injection E as -> ->; split; [lia|now rewrite Nat.sub_diag]|]. split; [lia|]. replace (i - k) with (S (i - S k)) by lia. exact E.
      + intros [L E]. destruct (Nat.eq_dec i k) as [->|NE]; [left; rewrite Nat.sub_diag in E; simpl in E; congruence|].
        right. split; [lia|]. replace (i - k) with (S (i - S k)) in E by lia. exact E. }
  destruct x as [c i]. rewrite G. simpl. rewrite Nat.sub_0_r. split; [tauto|]. intros H. split; [lia|exact H].
Qed.

Lemma enum_nth labels i : nth_error (enumerate_labels labels) i = option_map (fun c => (c, i)) (nth_error labels i).
Proof.
  unfold enumerate_labels. assert (G : forall (l : list nat) k, nth_error (combine l (seq k (List.length l))) i = option_map (fun c => (c, k + i)) (nth_error l i)).
  { revert i. induction i as [|i IH]; intros [|a l] k; simpl; auto; [now rewrite Nat.add_0_r|]. rewrite IH. destruct (nth_error l i); simpl; auto. do 2 f_equal. lia. }
  apply G.
Qed.

Lemma enum_length labels : List.length (enumerate_labels labels) = List.length labels.
Proof. unfold enumerate_labels. rewrite combine_length, seq_length. lia. Qed.

(** The values that carry label [c]. *)
Definition carrying (labels : list nat) (row : list Q) (c : nat) : list Q :=
  map snd (filter (fun x => fst x =? c) (combine labels row)).

Lemma carrying_eq labels row c : List.length labels = List.length row -> map (val row) (of_label c (enumerate_labels labels)) = carrying labels row c.
Proof.
  unfold carrying, of_label, enumerate_labels. intros L.
  assert (G : forall l r pre, List.length l = List.length r ->
    map (val (pre ++ r)) (filter (fun x => fst x =? c) (combine l (seq (List.length pre) (List.length l)))) = map snd (filter (fun x => fst x =? c) (combine l r))).
  { induction l as [|a l IH]; intros [|v r] pre L'; simpl in L'; try discriminate; auto. cbn [List.length seq combine filter fst].
    specialize (IH r (pre ++ [v])). rewrite <- app_assoc in IH. cbn [app] in IH. rewrite app_length in IH. simpl in IH. rewrite Nat.add_1_r in IH.
    destruct (Nat.eqb_spec a c); cbn [map]; rewrite IH by lia; auto. cbn [snd]. f_equal. unfold val. cbn [snd]. rewrite app_nth2 by lia. now rewrite Nat.sub_diag. }
  specialize (G labels row [] L). exact G.
Qed.

Definition gapless (labels : list nat) : Prop := forall c c', In c labels -> c' < c -> In c' labels.

Lemma gapless_bound labels : gapless labels -> exists n, forall c, In c labels <-> c < n.
Proof.
  intros G. exists (match labels with [] => 0 | _ => S (list_max labels) end). intros c. destruct labels as [|a l]; [simpl; lia|]. set (L := a :: l) in *.
  assert (M : In (list_max L) L).
  { assert (E : forall l, l <> [] -> In (list_max l) l). { clear. induction l as [|x l IH]; [congruence|]. intros _. simpl. destruct l as [|y l]; [left; simpl; lia|].
      specialize (IH ltac:(discriminate)). destruct (Nat.max_spec x (list_max (y :: l))) as [[_ ->]|[_ ->]]; auto. }
    apply E. discriminate. }
  split; intros H.
  - assert (c <= list_max L); [|lia]. assert (F : list_max L <= list_max L) by lia. apply list_max_le in F. rewrite Forall_forall in F. now apply F.
  - destruct (Nat.eq_dec c (list_max L)) as [->|NE]; auto. apply (G (list_max L)); auto. lia.
Qed.

Lemma of_label_nonempty labels c : In c labels -> of_label c (enumerate_labels labels) <> [].
Proof.
  intros I. apply In_nth_error in I as [i E]. intros N.
  assert (J : In (c, i) (of_label c (enumerate_labels labels))) by (apply filter_In; split; [apply enum_In; exact E|apply Nat.eqb_refl]).
  rewrite N in J. destruct J.
Qed.

Lemma values_ok labels row n : List.length labels = List.length row -> (forall c, In c labels <-> c < n) ->
  values_by_cluster (sort_labels (enumerate_labels labels)) row = Ok (map (carrying labels row) (seq 0 n)).
Proof.
  intros L H. rewrite (sort_blocks _ n) by (intros x I; apply enum_In, nth_error_In in I; now apply H).
  unfold values_by_cluster. fold (step_of row).
  destruct (group_blocks row (fun c => of_label c (enumerate_labels labels)) n 0 [] None) as (cur & E); auto.
  - intros c x _ I. apply filter_In in I as [I E]. apply Nat.eqb_eq in E. split; auto. apply enum_In in I. rewrite <- L. apply nth_error_Some. congruence.
  - intros c Lc. apply of_label_nonempty. apply H. lia.
  - intros c E. discriminate.
  - rewrite E. cbn [rbind fst app]. f_equal. apply map_ext. intros c. now apply carrying_eq.
Qed.

(** A step succeeds when the labels have no gap; every value is replaced by the mean of the values with its label. *)
Lemma step_ok labels row : List.length labels = List.length row -> gapless labels ->
  step_centroids labels row = Ok (map (fun c => mean (carrying labels row c)) labels).
Proof.
  intros L G. destruct (gapless_bound labels G) as [n H]. unfold step_centroids. rewrite (values_ok labels row n L H). cbn [rbind].
  unfold assign_centroids. apply mapM_Ok. rewrite map_map.
  assert (E : forall l k, (forall c, In c l -> c < n) -> Forall2 (fun el b => py_index (map (fun x => mean (carrying labels row x)) (seq 0 n)) (Z.of_nat (fst el)) = Ok b)
     (combine l (seq k (List.length l))) (map (fun c => mean (carrying labels row c)) l)).
  { induction l as [|c l IH]; intros k Hl; simpl; constructor; [|apply IH; intros; apply Hl; now right].
    rewrite py_index_nat. cbn [fst]. assert (E : nth_error (seq 0 n) c = Some c).
    { rewrite (nth_error_nth' _ 0) by (rewrite seq_length; apply Hl; now left). rewrite seq_nth by (apply Hl; now left). reflexivity. }
    now rewrite (map_nth_error _ _ _ E). }
  apply E. intros c I. now apply H.
Qed.

(** ** Labels with a gap *)

Lemma fold_gap row g : forall xs gs cur, StronglySorted (fun a b : nat * nat => fst a <= fst b) xs -> (forall x, In x xs -> fst x <> g) ->
  match cur with Some c => List.length gs <= S c /\ (g < c -> List.length gs <= c) /\ c <> g /\ (forall x, In x xs -> c <= fst x) | None => gs = [] end ->
  match foldM (step_of row) xs (gs, cur) with
  | Ok (gs', Some c') => List.length gs' <= S c' /\ (g < c' -> List.length gs' <= c') /\ (forall x, In x xs -> fst x <= c') /\ (forall c, cur = Some c -> c <= c') /\ (cur = Some c' \/ exists x, In x xs /\ fst x = c')
  | Ok (gs', None) => xs = [] /\ cur = None
  | Err e => e = IndexError
  end.
Proof.
  induction xs as [|x xs IH]; intros gs cur SS NG C.
  - simpl. destruct cur as [c|]; [|auto]. sp; try tauto; auto. intros c' E. injection E as <-. lia.
  - inversion SS as [|? ? S1 S2]; subst. cbn [foldM]. unfold step_of at 1. rewrite py_index_nat.
    destruct (nth_error row (snd x)) as [v|]; [|reflexivity]. cbn [rbind].
    assert (NX : fst x <> g) by (apply NG; now left). rewrite Forall_forall in S2.
    assert (GO : forall gs', List.length gs' <= S (fst x) -> (g < fst x -> List.length gs' <= fst x) -> (forall c, cur = Some c -> c <= fst x) ->
      match foldM (step_of row) xs (gs', Some (fst x)) with
      | Ok (gs'', Some c') => List.length gs'' <= S c' /\ (g < c' -> List.length gs'' <= c') /\ (forall y, In y (x :: xs) -> fst y <= c') /\ (forall c, cur = Some c -> c <= c') /\ (cur = Some c' \/ exists y, In y (x :: xs) /\ fst y = c')
      | Ok (gs'', None) => x :: xs = [] /\ cur = None
      | Err e => e = IndexError
      end).
    { intros gs' L1 L2 L3. specialize (IH gs' (Some (fst x)) S1 (fun y Iy => NG y (or_intror Iy))).
      destruct (foldM (step_of row) xs (gs', Some (fst x))) as [[gs'' [c'|]]|e]; [|destruct IH; [sp; auto|discriminate]|apply IH; sp; auto].
      destruct IH as (A & B & D & E & F); [sp; auto|]. sp; auto.
      - intros y [<-|Iy]; auto.
      - intros c Ec. specialize (L3 c Ec). specialize (E _ eq_refl). lia.
      - right. destruct F as [F|(y & Iy & Ey)]; [injection F as <-; exists x; simpl; auto|exists y; simpl; auto]. }
    unfold add_scenario. cbn [snd fst]. destruct cur as [c|].
    + destruct C as (C1 & C2 & C3 & C4). assert (CX : c <= fst x) by (apply C4; now left). destruct (Nat.eqb_spec (fst x) c) as [E|NE].
      * destruct (append_at gs c v) as [gs'|e] eqn:EA.
        -- cbn [rbind]. replace (gs', Some c) with (gs', Some (fst x)) by (now rewrite E). apply append_at_length in EA. apply GO; try lia. intros c0 Ec. assert (c0 = c) by congruence. lia.
        -- cbn [rbind]. clear - EA. revert c EA. induction gs as [|h gs IHg]; intros [|c] EA; simpl in EA; try congruence.
           destruct (append_at gs c v) eqn:E2; [discriminate|]. cbn [rbind] in EA. injection EA as <-. eauto.
      * cbn [rbind]. apply GO; rewrite ?app_length; simpl; try lia. intros c0 Ec. assert (c0 = c) by congruence. lia.
    + subst gs. cbn [rbind]. apply GO; simpl; try lia. intros c0 Ec. discriminate.
Qed.

Lemma mapM_err {A B} (f : A -> res B) e0 : (forall a e, f a = Err e -> e = e0) -> forall l, (exists a e, In a l /\ f a = Err e) -> mapM f l = Err e0.
Proof.
  intros H. induction l as [|a l IH]; intros (x & e & I & E); [destruct I|]. simpl. destruct (f a) as [b|e'] eqn:Ea.
  - cbn [rbind]. rewrite IH; auto. destruct I as [->|I]; [congruence|]. eauto.
  - cbn [rbind]. f_equal. now apply (H a).
Qed.

(** With a gap the step raises IndexError. *)
Lemma step_gap labels row c g : List.length labels = List.length row -> In c labels -> g < c -> ~ In g labels -> step_centroids labels row = Err IndexError.
Proof.
  intros L I LG NG. unfold step_centroids, values_by_cluster. fold (step_of row).
  pose proof (fold_gap row g (sort_labels (enumerate_labels labels)) [] None (sort_sorted _)) as H.
  assert (P : forall x, In x (sort_labels (enumerate_labels labels)) <-> In x (enumerate_labels labels)).
  { intros x. split; apply Permutation_in; [|symmetry]; apply sort_perm. }
  destruct (foldM (step_of row) (sort_labels (enumerate_labels labels)) ([], None)) as [[gs [c'|]]|e].
  - destruct H as (A & B & D & _ & [F|(x & Ix & Ex)]); auto; [intros x Ix E; apply P, enum_In, nth_error_In in Ix; congruence|discriminate|].
    cbn [rbind fst]. unfold assign_centroids.
    apply In_nth_error in I as [i Ei]. assert (J : In (c, i) (enumerate_labels labels)) by now apply enum_In.
    pose proof (D (c, i) (proj2 (P _) J)) as Dc. simpl in Dc. assert (BN : List.length gs <= c') by (apply B; lia).
    apply mapM_err.
    + intros a e E. rewrite py_index_nat in E. destruct (nth_error (map mean gs) (fst a)); congruence.
    + exists x, IndexError. split; [now apply P|]. rewrite Ex, py_index_nat.
      assert (N : nth_error (map mean gs) c' = None) by (apply nth_error_None; rewrite map_length; lia). now rewrite N.
  - destruct H as [H _]; auto; [intros x Ix E; apply P, enum_In, nth_error_In in Ix; congruence|].
    apply In_nth_error in I as [i Ei]. assert (J : In (c, i) (enumerate_labels labels)) by now apply enum_In. apply P in J. rewrite H in J. destruct J.
  - cbn [rbind]. f_equal. apply H; auto. intros x Ix E. apply P, enum_In, nth_error_In in Ix. congruence.
Qed.

(** ** Sums *)

Lemma qsum_app a b : (qsum (a ++ b) == qsum a + qsum b)%Q.
Proof. induction a as [|x a IH]; cbn [app]; unfold qsum in *; simpl; [ring|]. rewrite IH. ring. Qed.

Lemma qsum_perm a b : Permutation a b -> (qsum a == qsum b)%Q.
Proof. induction 1; unfold qsum in *; simpl; try reflexivity; [now rewrite IHPermutation|ring|now rewrite IHPermutation1]. Qed.

Lemma qsum_const {A} (l : list A) q : (qsum (map (fun _ => q) l) == q * inject_Z (Z.of_nat (List.length l)))%Q.
Proof.
  induction l as [|a l IH]; [unfold qsum; simpl; ring|]. unfold qsum in *. cbn [map fold_right List.length]. rewrite IH, Nat2Z.inj_succ. unfold Z.succ.
  rewrite inject_Z_plus. ring.
Qed.

(** Replacing values by the means of their groups keeps the sum. *)
Lemma blocks_perm (xs : list (nat * Q)) n : (forall x, In x xs -> fst x < n) -> Permutation xs (flat_map (fun c => filter (fun x => fst x =? c) xs) (seq 0 n)).
Proof.
  induction xs as [|x xs IH]; intros H.
  - replace (flat_map _ _) with (@nil (nat * Q)); auto. clear. generalize 0. induction n; intros k; simpl; auto.
  - rewrite (IH (fun y Iy => H y (or_intror Iy))) at 1. specialize (H x (or_introl eq_refl)). clear IH.
    assert (G : forall m k, k <= fst x < k + m -> Permutation (x :: flat_map (fun c => filter (fun y => fst y =? c) xs) (seq k m))
       (flat_map (fun c => filter (fun y => fst y =? c) (x :: xs)) (seq k m))).
    { induction m as [|m IHm]; intros k L; [lia|]. cbn [seq flat_map]. simpl (filter (fun y => fst y =? k) (x :: xs)).
      destruct (Nat.eqb_spec (fst x) k) as [E|NE].
      - cbn [app]. constructor. apply Permutation_app_head.
        replace (flat_map (fun c => filter (fun y => fst y =? c) (x :: xs)) (seq (S k) m)) with (flat_map (fun c => filter (fun y => fst y =? c) xs) (seq (S k) m)); auto.
        rewrite !flat_map_concat_map. f_equal. apply map_ext_in. intros c Ic. apply in_seq in Ic. simpl. destruct (Nat.eqb_spec (fst x) c); auto. lia.
      - rewrite Permutation_middle. apply Permutation_app_head. apply IHm. lia. }
    apply G. lia.
Qed.

Lemma mean_sum (l : list Q) : l <> [] -> (qsum (map (fun _ => mean l) l) == qsum l)%Q.
Proof. intros N. rewrite qsum_const. now apply mean_spec. Qed.

Lemma centroid_sum labels row : List.length labels = List.length row -> (qsum (map (fun c => mean (carrying labels row c)) labels) == qsum row)%Q.
Proof.
  intros L. set (n := S (list_max labels)). set (xs := combine labels row).
  assert (F : forall x, In x xs -> fst x < n).
  { intros [c v] I. apply in_combine_l in I. assert (G : list_max labels <= list_max labels) by lia. apply list_max_le in G. rewrite Forall_forall in G. specialize (G c I). simpl. unfold n. lia. }
  assert (E1 : map fst xs = labels). { unfold xs. clear - L. revert row L. induction labels as [|c l IH]; intros [|v r] L; simpl in *; try discriminate; auto. f_equal. apply IH. lia. }
  assert (E2 : map snd xs = row). { unfold xs. clear - L. revert row L. induction labels as [|c l IH]; intros [|v r] L; simpl in *; try discriminate; auto. f_equal. apply IH. lia. }
  assert (EM : map (fun c => mean (carrying labels row c)) labels = map (fun x => mean (map snd (filter (fun y => fst y =? fst x) xs))) xs).
  { transitivity (map (fun c => mean (carrying labels row c)) (map fst xs)); [now rewrite E1|]. rewrite map_map. reflexivity. }
  rewrite EM, <- E2. clear EM E1 E2. clearbody xs n. clear labels row L.
  pose proof (blocks_perm xs n F) as P.
  rewrite (qsum_perm _ _ (Permutation_map snd P)).
  rewrite (qsum_perm _ _ (Permutation_map (fun x => mean (map snd (filter (fun y => fst y =? fst x) xs))) P)).
  clear P F. generalize 0 as k. induction n as [|n IH]; intros k; cbn [seq flat_map]; [reflexivity|].
  rewrite !map_app, !qsum_app, IH. apply Qplus_comp; [|reflexivity].
  set (B := filter (fun x => fst x =? k) xs).
  assert (EB : map (fun x => mean (map snd (filter (fun y => fst y =? fst x) xs))) B = map (fun _ => mean (map snd B)) (map snd B)).
  { rewrite map_map. apply map_ext_in. intros x I. apply filter_In in I as [_ I]. apply Nat.eqb_eq in I. now rewrite I. }
  rewrite EB. destruct B as [|b B']; [reflexivity|]. apply mean_sum. discriminate.
Qed.

(** A row of equal values is left as it is. *)
Lemma mean_equal l v : l <> [] -> (forall x, In x l -> (x == v)%Q) -> (mean l == v)%Q.
Proof.
  intros N H. assert (E : (qsum l == v * inject_Z (Z.of_nat (List.length l)))%Q).
  { rewrite <- (qsum_const l v). clear N. induction l as [|x l IH]; [reflexivity|]. unfold qsum in *. simpl. rewrite IH by (intros; apply H; now right).
    rewrite (H x) by now left. reflexivity. }
  unfold mean. rewrite E. field. destruct l; [congruence|]. unfold Qeq. simpl. lia.
Qed.

Lemma carrying_In labels row c v : In v (carrying labels row c) -> In v row.
Proof. unfold carrying. intros I. apply in_map_iff in I as ([a b] & <- & I). apply filter_In in I as [I _]. now apply in_combine_r in I. Qed.

Lemma carrying_nonempty labels row c : List.length labels = List.length row -> In c labels -> carrying labels row c <> [].
Proof.
  intros L I. apply In_nth_error in I as [i E]. destruct (nth_error row i) as [v|] eqn:Ev.
  - assert (J : In (c, v) (combine labels row)). { clear - E Ev. revert row i E Ev. induction labels as [|a l IH]; intros [|x r] [|i] E Ev; simpl in *; try discriminate; [left; congruence|right; eauto]. }
    intros N. unfold carrying in N. apply map_eq_nil in N. assert (In (c, v) []) as []. rewrite <- N. apply filter_In. split; auto. apply Nat.eqb_refl.
  - apply nth_error_None in Ev. assert (i < List.length labels) by (apply nth_error_Some; congruence). lia.
Qed.

Lemma step_equal labels row out v : List.length labels = List.length row -> step_centroids labels row = Ok out -> (forall x, In x row -> (x == v)%Q) ->
  List.length out = List.length row /\ forall x, In x out -> (x == v)%Q.
Proof.
  intros L E H. assert (G : gapless labels).
  { intros c c' I LG. destruct (in_dec Nat.eq_dec c' labels) as [|N]; auto. rewrite (step_gap labels row c c') in E; auto. discriminate. }
  rewrite step_ok in E; auto. injection E as <-. rewrite map_length. split; auto. intros x I. apply in_map_iff in I as (c & <- & Ic).
  apply mean_equal; [now apply carrying_nonempty|]. intros y Iy. apply H. eapply carrying_In; exact Iy.
Qed.
