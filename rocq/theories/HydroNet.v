(** The linked lists of rivers per node. *)
From Coq Require Import List Bool Arith ZArith QArith Lia.
From Verif Require Import Base GraphDataProofs Cases CasesProofs Network InputOutput InputOutputProofs Hydro HydroSpec.
Import ListNotations.
Open Scope nat_scope.
Open Scope list_scope.

Local Ltac sp := repeat match goal with |- _ /\ _ => split end.

(** ** Rivers of a node *)

Lemma rivers_at_snoc f rs r node : rivers_at f (rs ++ [r]) node = rivers_at f rs node ++ (if f r =? node then [List.length rs] else []).
Proof.
  unfold rivers_at. rewrite app_length. cbn [List.length]. rewrite Nat.add_1_r, seq_S. cbn [Nat.add].
  assert (X : forall (a : list nat) (b : list river) x y, List.length a = List.length b -> combine (a ++ [x]) (b ++ [y]) = combine a b ++ [(x, y)]).
  { intros a. induction a as [|u a IH]; intros [|v b] x y E; cbn in E; try discriminate; [reflexivity|]. cbn [app combine]. f_equal. apply IH. lia. }
  rewrite X by (now rewrite seq_length). rewrite filter_app, map_app. cbn [filter]. cbn [snd]. now destruct (f r =? node).
Qed.
Lemma rivers_at_bound f rs node b : In b (rivers_at f rs node) -> b < List.length rs.
Proof.
  unfold rivers_at. intros I. apply in_map_iff in I as ((x, r) & <- & I). apply filter_In in I as (I & _). apply in_combine_l in I. apply in_seq in I. cbn. lia.
Qed.
Lemma rivers_at_in f rs node b : In b (rivers_at f rs node) <-> exists r, nth_error rs b = Some r /\ f r = node.
Proof.
  induction rs as [|r rs IH] using rev_ind; [cbn; split; [tauto|]; intros (r & E & _); destruct b; discriminate|]. rewrite rivers_at_snoc, in_app_iff, IH. split.
  - intros [(x & E & F)|I]; [exists x; split; auto; rewrite nth_error_app1; auto; apply nth_error_Some; congruence|]. destruct (Nat.eqb_spec (f r) node); [|contradiction]. destruct I as [<-|[]]. exists r. split; auto. rewrite nth_error_app2, Nat.sub_diag; auto.
  - intros (x & E & F). destruct (Nat.lt_ge_cases b (List.length rs)) as [L|L]; [rewrite nth_error_app1 in E by auto; left; eauto|]. rewrite nth_error_app2 in E by auto. right.
    assert (b = List.length rs) by (apply nth_error_Some_lt in E || (assert (b - List.length rs < 1) by (change 1 with (List.length [r]); apply nth_error_Some; congruence); lia)). subst b. rewrite Nat.sub_diag in E. injection E as ->. rewrite F, Nat.eqb_refl. now left.
Qed.
Lemma rivers_at_nodup f rs node : NoDup (rivers_at f rs node).
Proof.
  induction rs as [|r rs IH] using rev_ind; [constructor|]. rewrite rivers_at_snoc. destruct (f r =? node); [|now rewrite List.app_nil_r].
  apply NoDup_app_iff || idtac. apply (Permutation.Permutation_NoDup (Permutation.Permutation_cons_append _ _)). constructor; auto. intros I. apply rivers_at_bound in I. lia.
Qed.

(** ** Linked lists of positions *)

Definition linked (next : list nat) (l : list nat) : Prop :=
  (forall i p, nth_error l i = Some p -> nth_error next p = Some (nth (S i) l 0)) /\ (forall i p, nth_error l (S i) = Some p -> p <> 0).
Definition slot (next : list nat) (l : list nat) (cp : nat * nat) : Prop := fst cp = List.length l /\ snd cp = nth 0 l 0 /\ linked next l.

Lemma linked_nil next : linked next [].
Proof. split; intros [|i] p E; discriminate. Qed.

Lemma last_link_ok next l : linked next l -> forall k i p fuel, List.length l = S (i + k) -> k <= fuel -> nth_error l i = Some p -> last_link fuel next p = Ok (last l 0).
Proof.
  intros (A & B). assert (LS : forall n, List.length l = S n -> forall q, nth_error l n = Some q -> last l 0 = q).
  { intros n Ln q E. destruct l as [|a l] using rev_ind; [discriminate|]. rewrite app_length in Ln. cbn in Ln. replace n with (List.length l) in E by lia. rewrite nth_error_app2, Nat.sub_diag in E by lia. injection E as ->. apply last_last. }
  induction k as [|k IH]; intros i p fuel L F E.
  - rewrite Nat.add_0_r in L. rewrite (LS i L p E). destruct fuel; cbn [last_link]; unfold at_; rewrite (A i p E), nth_overflow by lia; reflexivity.
  - destruct fuel as [|fuel]; [lia|]. cbn [last_link]. unfold at_. rewrite (A i p E). cbn [rbind].
    destruct (nth_error l (S i)) as [q|] eqn:Eq; [|apply nth_error_None in Eq; lia]. rewrite (nth_error_nth _ _ 0 Eq). destruct (Nat.eqb_spec q 0) as [->|N]; [now apply B in Eq|]. apply (IH (S i)); auto; lia.
Qed.

Lemma linked_other next l p v : linked next l -> ~ In p l -> linked (set_nth p v next) l.
Proof.
  intros (A & B) N. split; [|exact B]. intros i q E. rewrite nth_set_nth. destruct (Nat.eqb_spec p q) as [->|X]; [exfalso; apply N; eapply nth_error_In; eauto|]. now apply A.
Qed.

Lemma linked_app next l x : linked next l -> NoDup (l ++ [x]) -> x <> 0 -> nth_error next x = Some 0 -> (forall p, In p l -> p < List.length next) -> l <> [] -> linked (set_nth (last l 0) x next) (l ++ [x]).
Proof.
  intros (A & B) ND X0 Nx BD NE. destruct l as [|q l] using rev_ind; [contradiction|]. clear IHl NE. rewrite last_last. split.
  - intros i p E. destruct (Nat.lt_ge_cases i (List.length (l ++ [q]))) as [L|L].
    + rewrite nth_error_app1 in E by auto. rewrite nth_set_nth. destruct (Nat.eqb_spec q p) as [<-|N].
      * assert (i = List.length l).
        { rewrite app_length in L. cbn in L. destruct (Nat.lt_ge_cases i (List.length l)) as [L'|L']; [|lia]. exfalso. rewrite nth_error_app1 in E by auto. apply NoDup_remove_1 in ND. rewrite List.app_nil_r in ND. apply NoDup_remove_2 in ND. apply ND. rewrite List.app_nil_r. eapply nth_error_In; eauto. }
        subst i. destruct (nth_error next q) as [u|] eqn:Eu; [|apply nth_error_None in Eu; specialize (BD q); rewrite in_app_iff in BD; cbn in BD; assert (q < List.length next) by (apply BD; auto); lia].
        f_equal. replace (S (List.length l)) with (List.length (l ++ [q])) by (rewrite app_length; cbn; lia). now rewrite nth_middle.
      * rewrite (A i p E). f_equal. assert (S i < List.length (l ++ [q])).
        { rewrite app_length in *. cbn in *. destruct (Nat.eq_dec i (List.length l)) as [->|]; [|lia]. rewrite nth_error_app2, Nat.sub_diag in E by lia. injection E as ->. contradiction. }
        symmetry. now apply (app_nth1 (l ++ [q]) [x]).
    + rewrite nth_error_app2 in E by auto. assert (i - List.length (l ++ [q]) = 0) by (assert (i - List.length (l ++ [q]) < List.length [x]) by (apply nth_error_Some; congruence); cbn in *; lia).
      rewrite H in E. injection E as <-. assert (i = List.length (l ++ [q])) by lia. subst i. rewrite nth_set_nth. destruct (Nat.eqb_spec q x) as [<-|N].
      * exfalso. apply NoDup_remove_2 in ND. apply ND. rewrite List.app_nil_r, in_app_iff. right. now left.
      * rewrite Nx. f_equal. symmetry. apply nth_overflow. rewrite app_length. cbn. lia.
  - intros i p E. destruct (Nat.lt_ge_cases (S i) (List.length (l ++ [q]))) as [L|L]; [rewrite nth_error_app1 in E by auto; now apply (B i)|].
    rewrite nth_error_app2 in E by auto. destruct (S i - List.length (l ++ [q])) as [|[|]]; cbn in E; try discriminate. now injection E as <-.
Qed.

Lemma linked_one next x : nth_error next x = Some 0 -> linked next [x].
Proof. intros E. split; intros [|[|i]] p H; try discriminate; [injection H as <-; exact E]. Qed.

(** ** One end of a river *)

Lemma row_node size i : i < size -> row size (S i) = Ok i.
Proof. intros L. cbn [row]. now rewrite (proj2 (Nat.ltb_lt i size)). Qed.

(** [ls] are the lists of positions of the rows of [tab]. *)
Definition slots (next : list nat) (ls : list (list nat)) (tab : list (nat * nat)) : Prop := Forall2 (slot next) ls tab.

Lemma F2_nth {A B} (R : A -> B -> Prop) l m i a : Forall2 R l m -> nth_error l i = Some a -> exists b, nth_error m i = Some b /\ R a b.
Proof. intros F. revert i. induction F as [|x y l m H F IH]; intros [|i] E; cbn in E; try discriminate; [injection E as <-; exists y; auto|]. apply IH in E. exact E. Qed.
Lemma F2_nth_r {A B} (R : A -> B -> Prop) l m i b : Forall2 R l m -> nth_error m i = Some b -> exists a, nth_error l i = Some a /\ R a b.
Proof. intros F. revert i. induction F as [|x y l m H F IH]; intros [|i] E; cbn in E; try discriminate; [injection E as <-; exists x; auto|]. apply IH in E. exact E. Qed.
Lemma F2_of_nth {A B} (R : A -> B -> Prop) l m : List.length l = List.length m -> (forall i a b, nth_error l i = Some a -> nth_error m i = Some b -> R a b) -> Forall2 R l m.
Proof.
  revert m. induction l as [|x l IH]; intros [|y m] L H; cbn in L; try discriminate; constructor; [apply (H 0); reflexivity|]. apply IH; [lia|]. intros i a b E1 E2. now apply (H (S i)).
Qed.

Definition add_at (i x : nat) (ls : list (list nat)) : list (list nat) := match nth_error ls i with Some l => set_nth i (l ++ [x]) ls | None => ls end.

Lemma link_end_ok tab next ls node i x0 : slots next ls tab -> row (List.length tab) node = Ok i -> i < List.length tab ->
  (forall l, In l ls -> NoDup l /\ (forall p, In p l -> p < List.length next /\ p < x0)) ->
  exists tab' next', link_end tab next x0 node = Ok (tab', next') /\ List.length next' = List.length next /\ List.length tab' = List.length tab /\
  (forall q, nth_error next' q <> nth_error next q -> exists l, nth_error ls i = Some l /\ In q l) /\
  (nth_error next x0 = Some 0 -> (forall j k l m p, nth_error ls j = Some l -> nth_error ls k = Some m -> In p l -> In p m -> j = k) -> slots next' (add_at i x0 ls) tab').
Proof.
  intros SL R Li W. unfold link_end. rewrite R. cbn [rbind]. destruct (nth_error tab i) as [(cnt, pos)|] eqn:Et; [|apply nth_error_None in Et; lia].
  unfold at_ at 1. rewrite Et. cbn [rbind]. destruct (F2_nth_r _ _ _ _ _ SL Et) as (l & El & C & P & LK). cbn [fst snd] in C, P. unfold add_at. rewrite El.
  assert (Inl : In l ls) by (eapply nth_error_In; eauto). destruct (W l Inl) as (ND & BD).
  destruct l as [|p0 l].
  - cbn in C, P. subst. cbn [Nat.eqb andb]. exists (set_nth i (1, x0) tab), next. sp; auto; [apply set_nth_length|congruence|]. intros Nx DJ. unfold slots in *.
    apply F2_of_nth; [rewrite !set_nth_length; eapply Forall2_length; eauto|]. intros j a b Ea Eb. rewrite nth_set_nth in Ea; rewrite nth_set_nth in Eb. destruct (Nat.eqb_spec i j) as [<-|N].
    + rewrite El in Ea. rewrite Et in Eb. injection Ea as <-. injection Eb as <-. split; [reflexivity|split; [reflexivity|]]. now apply linked_one.
    + destruct (F2_nth _ _ _ _ _ SL Ea) as (b' & Eb' & H). congruence.
  - assert (C0 : cnt <> 0) by (cbn in C; lia). destruct (Nat.eqb_spec cnt 0) as [|_]; [contradiction|]. rewrite andb_false_r.
    assert (LL : last_link (List.length next) next pos = Ok (last (p0 :: l) 0)).
    { apply (last_link_ok next (p0 :: l) LK (List.length l) 0); [reflexivity| |subst pos; reflexivity].
      assert (X : List.length (p0 :: l) <= List.length next); [|cbn in X; lia]. rewrite <- (seq_length (List.length next) 0). apply NoDup_incl_length; auto. intros p Ip. apply in_seq. destruct (BD p Ip). lia. }
    rewrite LL. cbn [rbind]. set (q := last (p0 :: l) 0) in *.
    assert (Iq : In q (p0 :: l)) by (unfold q; destruct (@exists_last _ (p0 :: l)) as (l' & a & ->); [discriminate|]; rewrite last_last, in_app_iff; right; now left).
    exists (set_nth i (S cnt, pos) tab), (set_nth q x0 next). sp; [reflexivity|apply set_nth_length|apply set_nth_length| |].
    + intros p N. rewrite nth_set_nth in N. destruct (Nat.eqb_spec q p) as [Eqp|]; [|congruence]. exists (p0 :: l). rewrite <- Eqp. auto.
    + intros Nx DJ. unfold slots in *. apply F2_of_nth; [rewrite !set_nth_length; eapply Forall2_length; eauto|]. intros j a b Ea Eb. rewrite nth_set_nth in Ea; rewrite nth_set_nth in Eb. destruct (Nat.eqb_spec i j) as [<-|N].
      * rewrite El in Ea. rewrite Et in Eb. injection Ea as <-. injection Eb as <-. split; [cbn in *; rewrite app_length; cbn; lia|]. split; [exact P|]. apply (linked_app next (p0 :: l) x0); auto; try discriminate.
        -- apply (Permutation.Permutation_NoDup (Permutation.Permutation_cons_append _ _)). constructor; auto. intros I. destruct (BD _ I). lia.
        -- destruct (BD q Iq). lia.
        -- intros p I. now destruct (BD p I).
      * destruct (F2_nth _ _ _ _ _ SL Ea) as (b' & Eb' & H). rewrite Eb in Eb'. injection Eb' as <-. destruct H as (H1 & H2 & H3). split; auto. split; auto. apply linked_other; auto. intros I. apply N. eapply (DJ i j); eauto.
Qed.

(** ** All rivers *)

Lemma list_ext {A} (l m : list A) : List.length l = List.length m -> (forall i a b, nth_error l i = Some a -> nth_error m i = Some b -> a = b) -> l = m.
Proof. intros L H. assert (F : Forall2 eq l m) by (now apply F2_of_nth). clear L H. induction F; congruence. Qed.
Lemma nth_map_seq {A} (f : nat -> A) n i a : nth_error (map f (seq 0 n)) i = Some a -> i < n /\ a = f i.
Proof.
  intros E. assert (L : i < n) by (rewrite <- (seq_length n 0), <- (map_length f); apply nth_error_Some; congruence). split; auto.
  rewrite nth_error_map, (nth_seq0 n i L) in E. cbn in E. congruence.
Qed.
Definition out_lists (nn : nat) (rs : list river) : list (list nat) := map (fun i => map (fun b => 2 * b) (rivers_at ri_from rs (S i))) (seq 0 nn).
Definition in_lists (nn : nat) (rs : list river) : list (list nat) := map (fun i => map (fun b => 2 * b + 1) (rivers_at ri_to rs (S i))) (seq 0 nn).

Lemma add_lists (f : river -> nat) (g : nat -> nat) nn rs r i : f r = S i -> i < nn ->
  add_at i (g (List.length rs)) (map (fun i => map g (rivers_at f rs (S i))) (seq 0 nn)) = map (fun i => map g (rivers_at f (rs ++ [r]) (S i))) (seq 0 nn).
Proof.
  intros F L. unfold add_at. destruct (nth_error (map (fun i => map g (rivers_at f rs (S i))) (seq 0 nn)) i) as [l|] eqn:E; [|apply nth_error_None in E; rewrite map_length, seq_length in E; lia].
  apply nth_map_seq in E as (_ & ->). apply list_ext; [now rewrite set_nth_length, !map_length|]. intros j a b Ea Eb. rewrite nth_set_nth in Ea. apply nth_map_seq in Eb as (Lj & ->).
  rewrite rivers_at_snoc, map_app. destruct (Nat.eqb_spec i j) as [<-|N].
  - destruct (nth_error _ i) as [x|]; [|discriminate]. injection Ea as <-. rewrite F, Nat.eqb_refl. reflexivity.
  - apply nth_map_seq in Ea as (_ & ->). destruct (Nat.eqb_spec (f r) (S j)) as [X|_]; [lia|]. cbn. now rewrite List.app_nil_r.
Qed.

Lemma slots_same next next' ls tab : slots next ls tab -> (forall l p, In l ls -> In p l -> nth_error next' p = nth_error next p) -> slots next' ls tab.
Proof.
  unfold slots. intros F H. induction F as [|l cp ls tab (H1 & H2 & A & B) F IH]; constructor.
  - split; auto. split; auto. split; auto. intros i p E. rewrite (H l p); [now apply A|now left|eapply nth_error_In; eauto].
  - apply IH. intros l' p I. apply H. now right.
Qed.

Lemma in_lists_spec (f : river -> nat) (g : nat -> nat) nn rs l p : In l (map (fun i => map g (rivers_at f rs (S i))) (seq 0 nn)) -> In p l -> exists b, b < List.length rs /\ p = g b.
Proof. intros I Ip. apply in_map_iff in I as (i & <- & _). apply in_map_iff in Ip as (b & <- & Ib). apply rivers_at_bound in Ib. eauto. Qed.
Lemma lists_nodup (f : river -> nat) (g : nat -> nat) nn rs l : (forall a b, g a = g b -> a = b) -> In l (map (fun i => map g (rivers_at f rs (S i))) (seq 0 nn)) -> NoDup l.
Proof. intros G I. apply in_map_iff in I as (i & <- & _). apply FinFun.Injective_map_NoDup; [exact G|apply rivers_at_nodup]. Qed.
Lemma lists_disjoint (f : river -> nat) (g : nat -> nat) nn rs j k l m p : (forall a b, g a = g b -> a = b) ->
  nth_error (map (fun i => map g (rivers_at f rs (S i))) (seq 0 nn)) j = Some l -> nth_error (map (fun i => map g (rivers_at f rs (S i))) (seq 0 nn)) k = Some m -> In p l -> In p m -> j = k.
Proof.
  intros G Ej Ek Il Im. apply nth_map_seq in Ej as (_ & ->). apply nth_map_seq in Ek as (_ & ->). apply in_map_iff in Il as (b & <- & Ib). apply in_map_iff in Im as (b' & Eb & Ib'). apply G in Eb. subst b'.
  apply rivers_at_in in Ib as (r & E1 & F1). apply rivers_at_in in Ib' as (r' & E2 & F2). congruence.
Qed.

Record inv (n nn : nat) (rs : list river) (st : links) : Prop := mkInv {
  i_x0 : l_x0 st = 2 * List.length rs; i_aux : List.length (l_aux st) = n; i_next : List.length (l_next st) = n; i_le : 2 * List.length rs <= n;
  i_val : forall p, p < 2 * List.length rs -> nth_error (l_aux st) p = Some (Nat.div2 p);
  i_zero : forall q, 2 * List.length rs <= q < n -> nth_error (l_next st) q = Some 0;
  i_out : slots (l_next st) (out_lists nn rs) (l_out st); i_in : slots (l_next st) (in_lists nn rs) (l_in st) }.

Lemma slots_length next (f : nat -> list nat) nn tab : slots next (map f (seq 0 nn)) tab -> List.length tab = nn.
Proof. intros F. apply Forall2_length in F. now rewrite map_length, seq_length in F. Qed.

Lemma link_river_ok n nn rs st r : inv n nn rs st -> 1 <= ri_from r <= nn -> 1 <= ri_to r <= nn ->
  (2 * List.length rs + 2 <= n -> exists st', link_river st (List.length rs, r) = Ok st' /\ inv n nn (rs ++ [r]) st') /\
  (2 * List.length rs = n -> link_river st (List.length rs, r) = Err IndexError).
Proof.
  intros I F T. destruct st as [aux next tout tin x0]. destruct I as [IX IA IN IL IV IZ IO II]. cbn [l_aux l_next l_out l_in l_x0] in *. subst x0.
  destruct (ri_from r) as [|fi] eqn:Ef; [lia|]. destruct (ri_to r) as [|ti] eqn:Et; [lia|].
  pose proof (slots_length _ _ _ _ IO) as LO. pose proof (slots_length _ _ _ _ II) as LI.
  assert (G0 : forall a b, 2 * a = 2 * b -> a = b) by (intros; lia). assert (G1 : forall a b, 2 * a + 1 = 2 * b + 1 -> a = b) by (intros; lia).
  assert (WO : forall l, In l (out_lists nn rs) -> NoDup l /\ (forall p, In p l -> p < List.length next /\ p < 2 * List.length rs)).
  { intros l I. split; [apply (lists_nodup ri_from (fun b => 2 * b) nn rs l G0 I)|]. intros p Ip. destruct (in_lists_spec ri_from (fun b => 2 * b) nn rs l p I Ip) as (b & Lb & ->). lia. }
  assert (WI : forall l, In l (in_lists nn rs) -> NoDup l /\ (forall p, In p l -> p < List.length next /\ p < S (2 * List.length rs))).
  { intros l I. split; [apply (lists_nodup ri_to (fun b => 2 * b + 1) nn rs l G1 I)|]. intros p Ip. destruct (in_lists_spec ri_to (fun b => 2 * b + 1) nn rs l p I Ip) as (b & Lb & ->). lia. }
  destruct (link_end_ok tout next (out_lists nn rs) (S fi) fi (2 * List.length rs) IO) as (tout' & next1 & E1 & L1 & LT1 & CH1 & SL1); [rewrite LO; apply row_node; lia|lia|exact WO|].
  unfold link_river. cbn [l_out l_next l_x0 l_aux l_in]. rewrite Ef, E1. cbn [rbind snd fst]. split.
  - intros Le. unfold store at 1. rewrite (proj2 (Nat.ltb_lt _ _)) by lia. cbn [rbind].
    assert (II1 : slots next1 (in_lists nn rs) tin).
    { apply (slots_same next); auto. intros l p Il Ip. destruct (list_eq_dec Nat.eq_dec (match nth_error next1 p with Some a => [a] | None => [] end) (match nth_error next p with Some a => [a] | None => [] end)) as [Eq|Neq].
      - destruct (nth_error next1 p), (nth_error next p); congruence.
      - exfalso. destruct (CH1 p) as (l' & El' & Ip'); [intros X; rewrite X in Neq; contradiction|]. apply nth_error_In in El'. destruct (in_lists_spec ri_from (fun b => 2 * b) nn rs l' p El' Ip') as (b & _ & ->). destruct (in_lists_spec ri_to (fun b => 2 * b + 1) nn rs l _ Il Ip) as (b' & _ & X). lia. }
    rewrite <- L1 in WI.
    destruct (link_end_ok tin next1 (in_lists nn rs) (S ti) ti (S (2 * List.length rs)) II1) as (tin' & next2 & E2 & L2 & LT2 & CH2 & SL2); [rewrite LI; apply row_node; lia|lia|exact WI|].
    rewrite Et, E2. cbn [rbind snd fst]. unfold store. rewrite set_nth_length, (proj2 (Nat.ltb_lt _ _)) by lia. cbn [rbind]. eexists. split; [reflexivity|].
    assert (Z1 : forall q, 2 * List.length rs <= q < n -> nth_error next1 q = Some 0).
    { intros q Lq. rewrite <- (IZ q Lq). destruct (list_eq_dec Nat.eq_dec (match nth_error next1 q with Some a => [a] | None => [] end) (match nth_error next q with Some a => [a] | None => [] end)) as [Eq|Neq]; [destruct (nth_error next1 q), (nth_error next q); congruence|].
      exfalso. destruct (CH1 q) as (l' & El' & Ip'); [intros X; rewrite X in Neq; contradiction|]. apply nth_error_In in El'. apply (WO l' El') in Ip'. lia. }
    assert (S1 : slots next1 (out_lists nn (rs ++ [r])) tout').
    { unfold out_lists. rewrite <- (add_lists ri_from (fun b => 2 * b) nn rs r fi) by (auto; lia). apply SL1; [apply IZ; lia|]. intros j k l m p. apply (lists_disjoint ri_from (fun b => 2 * b) nn rs). exact G0. }
    assert (S2 : slots next2 (in_lists nn (rs ++ [r])) tin').
    { unfold in_lists. rewrite <- (add_lists ri_to (fun b => 2 * b + 1) nn rs r ti) by (auto; lia). replace (2 * List.length rs + 1) with (S (2 * List.length rs)) by lia. apply SL2; [apply Z1; lia|]. intros j k l m p. apply (lists_disjoint ri_to (fun b => 2 * b + 1) nn rs). exact G1. }
    constructor; cbn [l_aux l_next l_out l_in l_x0]; rewrite ?app_length; cbn [List.length]; rewrite ?set_nth_length; try lia; auto.
    + intros p Lp. rewrite !nth_set_nth. destruct (Nat.eqb_spec (S (2 * List.length rs)) p) as [<-|N1].
      * destruct (Nat.eqb_spec (2 * List.length rs) (S (2 * List.length rs))); [lia|]. destruct (nth_error aux (S (2 * List.length rs))) eqn:X; [|apply nth_error_None in X; lia]. now rewrite Nat.div2_succ_double.
      * destruct (Nat.eqb_spec (2 * List.length rs) p) as [<-|N2]; [|apply IV; lia]. destruct (nth_error aux (2 * List.length rs)) eqn:X; [|apply nth_error_None in X; lia]. now rewrite Nat.div2_double.
    + intros q Lq. rewrite <- (Z1 q) by lia. destruct (list_eq_dec Nat.eq_dec (match nth_error next2 q with Some a => [a] | None => [] end) (match nth_error next1 q with Some a => [a] | None => [] end)) as [Eq|Neq]; [destruct (nth_error next2 q), (nth_error next1 q); congruence|].
      exfalso. destruct (CH2 q) as (l' & El' & Ip'); [intros X; rewrite X in Neq; contradiction|]. apply nth_error_In in El'. apply (WI l' El') in Ip'. lia.
    + apply (slots_same next1); auto. intros l p Il Ip. destruct (list_eq_dec Nat.eq_dec (match nth_error next2 p with Some a => [a] | None => [] end) (match nth_error next1 p with Some a => [a] | None => [] end)) as [Eq|Neq].
      * destruct (nth_error next2 p), (nth_error next1 p); congruence.
      * exfalso. destruct (CH2 p) as (l' & El' & Ip'); [intros X; rewrite X in Neq; contradiction|]. apply nth_error_In in El'. destruct (in_lists_spec ri_to (fun b => 2 * b + 1) nn rs l' p El' Ip') as (b & _ & ->). destruct (in_lists_spec ri_from (fun b => 2 * b) nn (rs ++ [r]) l _ Il Ip) as (b' & _ & X). lia.
  - intros En. unfold store at 1. rewrite (proj2 (Nat.ltb_ge _ _)) by lia. reflexivity.
Qed.

Lemma link_all n nn : forall rs2 rs1 st, inv n nn rs1 st -> Forall (fun r => 1 <= ri_from r <= nn /\ 1 <= ri_to r <= nn) rs2 -> (exists h, n = 2 * h) ->
  (2 * List.length (rs1 ++ rs2) <= n -> exists st', foldM link_river (combine (seq (List.length rs1) (List.length rs2)) rs2) st = Ok st' /\ inv n nn (rs1 ++ rs2) st') /\
  (n < 2 * List.length (rs1 ++ rs2) -> foldM link_river (combine (seq (List.length rs1) (List.length rs2)) rs2) st = Err IndexError).
Proof.
  induction rs2 as [|r rs2 IH]; intros rs1 st I F (h & En).
  - rewrite List.app_nil_r. pose proof (i_le _ _ _ _ I). split; [intros _; exists st; split; [reflexivity|exact I]|lia].
  - inversion F as [|? ? (Ff & Ft) F']; subst. cbn [List.length seq combine foldM]. destruct (link_river_ok _ _ _ _ r I Ff Ft) as (A & B). rewrite app_length. cbn [List.length].
    pose proof (i_le _ _ _ _ I). destruct (Nat.eq_dec (2 * List.length rs1) (2 * h)) as [Eq|N].
    + split; [lia|]. intros _. now rewrite (B Eq).
    + destruct A as (st' & E & I'); [lia|]. rewrite E. cbn [rbind]. specialize (IH (rs1 ++ [r]) st' I' F' (ex_intro _ h eq_refl)). rewrite <- app_assoc in IH. cbn [app] in IH.
      rewrite !app_length in IH. cbn [List.length] in IH. replace (List.length rs1 + 1) with (S (List.length rs1)) in IH by lia. exact IH.
Qed.

(** ** Arranging the lists *)

Fixpoint offsets (s : nat) (ls : list (list nat)) : list (nat * nat) :=
  match ls with [] => [] | l :: r => (List.length l, match l with [] => 0 | _ => s end) :: offsets (s + List.length l) r end.

Lemma store_app {A} (l : list A) a b c : store (l ++ b :: c) (List.length l) a = Ok (l ++ a :: c).
Proof.
  unfold store. rewrite app_length. cbn [List.length]. rewrite (proj2 (Nat.ltb_lt _ _)) by lia. f_equal. induction l as [|x l IH]; [reflexivity|]. cbn [app List.length set_nth]. now rewrite IH.
Qed.

Lemma follow_ok aux next (val : nat -> nat) l : linked next l -> (forall p, In p l -> nth_error aux p = Some (val p)) -> forall k i done rest,
  List.length l = i + k -> k <= List.length rest ->
  follow aux next k (nth i l 0) (done ++ rest) (List.length done) = Ok (done ++ map val (skipn i l) ++ skipn k rest, List.length done + k).
Proof.
  intros (A & B) H. induction k as [|k IH]; intros i done rest L R.
  - cbn [follow]. rewrite skipn_all2 by lia. cbn [map app skipn]. now rewrite Nat.add_0_r.
  - destruct (nth_error l i) as [p|] eqn:E; [|apply nth_error_None in E; lia]. rewrite (nth_error_nth _ _ 0 E). cbn [follow]. unfold at_ at 1. rewrite (H p) by (eapply nth_error_In; eauto). cbn [rbind].
    destruct rest as [|b rest]; [cbn in R; lia|]. rewrite store_app. cbn [rbind]. unfold at_ at 1. rewrite (A i p E). cbn [rbind].
    replace (done ++ val p :: rest) with ((done ++ [val p]) ++ rest) by (now rewrite <- app_assoc). replace (S (List.length done)) with (List.length (done ++ [val p])) by (rewrite app_length; cbn; lia).
    rewrite IH by (cbn in R; lia). rewrite <- app_assoc. cbn [app]. rewrite app_length. cbn [List.length skipn]. f_equal. f_equal; [|lia].
    f_equal. assert (X : skipn i l = p :: skipn (S i) l).
    { clear - E. revert i E. induction l as [|a l IHl]; intros [|i] E; cbn in E; try discriminate; [now injection E as ->|]. cbn [skipn]. rewrite (IHl i E). reflexivity. }
    rewrite X. reflexivity.
Qed.

Lemma skipn_skipn {A} (l : list A) : forall x y, skipn x (skipn y l) = skipn (x + y) l.
Proof. induction l as [|a l IH]; intros x y; [now rewrite !skipn_nil|]. destruct y as [|y]; [now rewrite Nat.add_0_r|]. rewrite Nat.add_succ_r. cbn [skipn]. apply IH. Qed.
Lemma quad_eq {A B C D} (a a' : A) (b b' : B) (c c' : C) (d d' : D) : a = a' -> b = b' -> c = c' -> d = d' -> Ok (a, b, c, d) = Ok (a', b', c', d').
Proof. congruence. Qed.

Lemma arrange_ok aux next (val : nat -> nat) : forall ls tab out done rest, slots next ls tab -> (forall l p, In l ls -> In p l -> nth_error aux p = Some (val p)) ->
  List.length (List.concat ls) <= List.length rest ->
  foldM (fun st cp =>
      let '(l1, x0, xacu, out) := st in
      let '(cnt, pos) := cp in
      if cnt =? 0 then Ok (l1, x0, xacu, out ++ [cp])
      else do r <- follow aux next cnt pos l1 x0; Ok (fst r, snd r, xacu + cnt, out ++ [(cnt, xacu)])) tab (done ++ rest, List.length done, List.length done, out) =
  Ok (done ++ map val (List.concat ls) ++ skipn (List.length (List.concat ls)) rest, List.length done + List.length (List.concat ls), List.length done + List.length (List.concat ls), out ++ offsets (List.length done) ls).
Proof.
  induction ls as [|l ls IH]; intros tab out done rest SL H L; inversion SL as [|? (cnt, pos) ? tab' (C & P & LK) SL']; subst; cbn [foldM offsets].
  - cbn [List.concat List.length map app skipn]. now rewrite Nat.add_0_r, List.app_nil_r.
  - cbn [fst snd] in C, P. cbn [List.concat] in *. rewrite app_length in L. destruct l as [|p l].
    + cbn in C, P. subst. cbn [Nat.eqb app List.length]. cbn [rbind]. rewrite Nat.add_0_r. rewrite (IH tab' (out ++ [(0, 0)]) done rest SL') by (auto; intros; eapply H; eauto; now right). now rewrite <- app_assoc.
    + destruct (Nat.eqb_spec cnt 0) as [X|_]; [cbn in C; lia|]. pose proof (follow_ok aux next val (p :: l) LK (fun q Iq => H (p :: l) q (or_introl eq_refl) Iq) cnt 0 done rest) as FO.
      rewrite <- P in FO. rewrite FO by (cbn in *; lia). cbn [rbind fst snd].
      replace (done ++ map val (skipn 0 (p :: l)) ++ skipn cnt rest) with ((done ++ map val (p :: l)) ++ skipn cnt rest) by (now rewrite <- app_assoc).
      replace (List.length done + cnt) with (List.length (done ++ map val (p :: l))) by (rewrite app_length, map_length, C; reflexivity).
      rewrite (IH tab' (out ++ [(cnt, List.length done)]) (done ++ map val (p :: l)) (skipn cnt rest) SL'); [| |rewrite skipn_length; cbn [List.length] in *; lia].
      * apply quad_eq.
        -- rewrite map_app, <- !app_assoc, app_length, skipn_skipn, C. do 4 f_equal. lia.
        -- rewrite !app_length, map_length. cbn. lia.
        -- rewrite !app_length, map_length. cbn. lia.
        -- rewrite <- app_assoc, app_length, map_length, C. reflexivity.
      * intros l' q Il' Iq. eapply H; eauto. now right.
Qed.

Lemma offsets_length s ls : List.length (offsets s ls) = List.length ls.
Proof. revert s. induction ls as [|l ls IH]; intros s; [reflexivity|]. cbn. now rewrite IH. Qed.

Lemma offsets_nth (val : nat -> nat) : forall ls s i l, nth_error ls i = Some l -> exists cp, nth_error (offsets s ls) i = Some cp /\ fst cp = List.length l /\
  forall pre post, List.length pre = s -> mapM (nth_river (pre ++ map val (List.concat ls) ++ post) cp) (seq 0 (fst cp)) = Ok (map val l).
Proof.
  induction ls as [|l0 ls IH]; intros s [|i] l E; cbn in E; try discriminate.
  - injection E as ->. cbn [offsets nth_error]. eexists. split; [reflexivity|]. split; [reflexivity|]. intros pre post L. cbn [fst snd List.concat]. destruct l as [|p l]; [reflexivity|].
    rewrite map_app, <- app_assoc. remember (p :: l) as l1 eqn:E1. clear E1 p l. remember (map val (List.concat ls) ++ post) as post' eqn:E1. clear E1.
    apply mapM_Ok. apply F2_of_nth; [now rewrite seq_length, map_length|]. intros i a b Ea Eb.
    assert (Li : i < List.length l1) by (rewrite <- (seq_length (List.length l1) 0); apply nth_error_Some; congruence). rewrite nth_seq0 in Ea by auto. injection Ea as <-.
    unfold nth_river. apply at_nth. cbn [snd]. rewrite nth_error_app2 by lia. replace (s + i - List.length pre) with i by lia. rewrite nth_error_app1 by (now rewrite map_length). exact Eb.
  - cbn [offsets nth_error]. destruct (IH (s + List.length l0) i l E) as (cp & E1 & E2 & E3). exists cp. split; auto. split; auto. intros pre post L. cbn [List.concat]. rewrite map_app, <- app_assoc, app_assoc. apply E3. rewrite app_length, map_length. lia.
Qed.

Lemma fold_min l : forall a, fold_left Nat.min l a <= a /\ Forall (fun x => fold_left Nat.min l a <= x) l /\ (fold_left Nat.min l a = a \/ In (fold_left Nat.min l a) l).
Proof.
  induction l as [|x l IH]; intros a; cbn [fold_left]; [sp; auto|]. destruct (IH (Nat.min a x)) as (A & B & C). sp; [lia|constructor; [lia|exact B]|].
  destruct C as [C|C]; [|right; now right]. rewrite C. destruct (Nat.min_spec a x) as [(_ & ->)|(_ & ->)]; [now left|right; now left].
Qed.
Lemma fold_max l : forall a, a <= fold_left Nat.max l a /\ Forall (fun x => x <= fold_left Nat.max l a) l /\ (fold_left Nat.max l a = a \/ In (fold_left Nat.max l a) l).
Proof.
  induction l as [|x l IH]; intros a; cbn [fold_left]; [sp; auto|]. destruct (IH (Nat.max a x)) as (A & B & C). sp; [lia|constructor; [lia|exact B]|].
  destruct C as [C|C]; [|right; now right]. rewrite C. destruct (Nat.max_spec a x) as [(_ & ->)|(_ & ->)]; [right; now left|now left].
Qed.
Lemma nmin_ok l : l <> [] -> exists m, nmin l = Ok m /\ In m l /\ Forall (fun x => m <= x) l.
Proof.
  destruct l as [|a l]; [contradiction|]. intros _. cbn [nmin]. eexists. split; [reflexivity|]. destruct (fold_min l a) as (A & B & C). split; [destruct C as [->|C]; [now left|now right]|now constructor].
Qed.
Lemma nmax_ok l : l <> [] -> exists m, nmax l = Ok m /\ In m l /\ Forall (fun x => x <= m) l.
Proof.
  destruct l as [|a l]; [contradiction|]. intros _. cbn [nmax]. eexists. split; [reflexivity|]. destruct (fold_max l a) as (A & B & C). split; [destruct C as [->|C]; [now left|now right]|now constructor].
Qed.

Lemma nodup_seq_app s n l : (forall x, In x l -> s <= x < s + n) -> List.length (nodup Nat.eq_dec (seq s n ++ l)) = n.
Proof.
  intros H. apply Nat.le_antisymm.
  - rewrite <- (seq_length n s) at 2. apply NoDup_incl_length; [apply NoDup_nodup|]. intros x I. apply nodup_In, in_app_iff in I as [I|I]; auto. apply in_seq. auto.
  - rewrite <- (seq_length n s) at 1. apply NoDup_incl_length; [apply seq_NoDup|]. intros x I. apply nodup_In, in_app_iff. auto.
Qed.

Lemma graph_nodes_ok rs nodes : rs <> [] -> nodes_ok nodes rs -> graph_nodes rs nodes = Ok nodes.
Proof.
  intros N OK. unfold graph_nodes. destruct (nmin_ok (map ri_from rs)) as (a & Ea & Ia & La); [destruct rs; [contradiction|discriminate]|]. destruct (nmin_ok (map ri_to rs)) as (b & Eb & Ib & Lb); [destruct rs; [contradiction|discriminate]|].
  rewrite Ea, Eb. cbn [rbind]. f_equal. apply nodup_seq_app. unfold nodes_ok in OK. rewrite Forall_forall in *. intros x I.
  apply in_map_iff in Ia as (ra & <- & Ira). apply in_map_iff in Ib as (rb & <- & Irb). pose proof (OK ra Ira). pose proof (OK rb Irb).
  apply in_app_iff in I as [I|I]; [specialize (La x I)|specialize (Lb x I)]; apply in_map_iff in I as (r & <- & I); specialize (OK r I); cbn beta in *; lia.
Qed.

Lemma inv_start n nn : inv n nn [] (mkLinks (repeat 0 n) (repeat 0 n) (repeat (0, 0) nn) (repeat (0, 0) nn) 0).
Proof.
  assert (R : forall {A} (a : A) k i, i < k -> nth_error (repeat a k) i = Some a) by (intros A a k; induction k; intros [|i] L; cbn; auto; try lia; apply IHk; lia).
  assert (E : forall f : nat -> list nat, (forall i, f i = []) -> slots (repeat 0 n) (map f (seq 0 nn)) (repeat (0, 0) nn)).
  { intros f F. apply F2_of_nth; [now rewrite map_length, seq_length, repeat_length|]. intros i a b Ea Eb. apply nth_map_seq in Ea as (L & ->). rewrite R in Eb by auto. injection Eb as <-. rewrite F. split; auto. split; auto. apply linked_nil. }
  constructor; cbn [l_aux l_next l_out l_in l_x0 List.length]; rewrite ?repeat_length; auto; try lia; try (intros q L; apply R; lia); apply E; reflexivity.
Qed.

Lemma concat_div (f : river -> nat) (g : nat -> nat) nn rs : (forall b, Nat.div2 (g b) = b) ->
  map (map Nat.div2) (map (fun i => map g (rivers_at f rs (S i))) (seq 0 nn)) = map (fun i => rivers_at f rs (S i)) (seq 0 nn).
Proof. intros G. rewrite map_map. apply map_ext. intros i. rewrite map_map. rewrite <- (map_id (rivers_at f rs (S i))) at 2. apply map_ext. auto. Qed.

Lemma nn_flat {A} (f : A -> list nat) (ls : list A) : List.length (flat_map f ls) = list_sum (map (fun a => List.length (f a)) ls).
Proof. induction ls as [|a ls IH]; [reflexivity|]. cbn. now rewrite app_length, IH. Qed.

(** Every river leaves one node and arrives at one. *)
Lemma rivers_total f nn rs : Forall (fun r => 1 <= f r <= nn) rs -> List.length (List.concat (map (fun i => rivers_at f rs (S i)) (seq 0 nn))) = List.length rs.
Proof.
  induction rs as [|r rs IH] using rev_ind; intros F.
  - cbn. clear. induction (seq 0 nn) as [|i l IH]; [reflexivity|exact IH].
  - apply Forall_app in F as (F & Fr). inversion Fr as [|? ? Lr _]; subst. rewrite app_length. cbn [List.length]. rewrite <- IH by auto. clear - Lr. rewrite <- !flat_map_concat_map, !nn_flat.
    assert (X : forall s n, (s < f r <= s + n -> list_sum (map (fun a => List.length (rivers_at f (rs ++ [r]) (S a))) (seq s n)) = list_sum (map (fun a => List.length (rivers_at f rs (S a))) (seq s n)) + 1) /\
                             (f r <= s -> list_sum (map (fun a => List.length (rivers_at f (rs ++ [r]) (S a))) (seq s n)) = list_sum (map (fun a => List.length (rivers_at f rs (S a))) (seq s n)))).
    { intros s n. revert s. induction n as [|n IHn]; intros s; [split; cbn; lia|]. destruct (IHn (S s)) as (A & B). cbn [seq map list_sum]. rewrite rivers_at_snoc, app_length. unfold list_sum in *. cbn [fold_right]. destruct (Nat.eqb_spec (f r) (S s)) as [Eq|N]; cbn [List.length].
      - split; [intros _; rewrite B by lia; lia|lia].
      - split; [intros L; rewrite A by lia; lia|intros L; rewrite B by lia; lia]. }
    apply (proj1 (X 0 nn)). lia.
Qed.

Theorem build_network_ok rs nodes : rs <> [] -> nodes_ok nodes rs ->
  (List.length rs <= graph_edges rs -> exists a, build_network rs nodes = Ok a /\
     forall n, n < nodes -> exists o i, nth_error (a_out a) n = Some o /\ nth_error (a_in a) n = Some i /\
       fst o = List.length (rivers_at ri_from rs (S n)) /\ fst i = List.length (rivers_at ri_to rs (S n)) /\
       mapM (nth_river (a_list a) o) (seq 0 (fst o)) = Ok (rivers_at ri_from rs (S n)) /\ mapM (nth_river (a_list a) i) (seq 0 (fst i)) = Ok (rivers_at ri_to rs (S n))) /\
  (graph_edges rs < List.length rs -> build_network rs nodes = Err IndexError).
Proof.
  intros N OK. unfold build_network. rewrite (graph_nodes_ok rs nodes N OK). cbn [rbind].
  destruct (link_all (2 * graph_edges rs) nodes rs [] _ (inv_start (2 * graph_edges rs) nodes) OK (ex_intro _ _ eq_refl)) as (A & B). cbn [app List.length] in A, B. split; [|intros L; rewrite B by lia; reflexivity].
  intros L. destruct A as (st & E & I); [lia|]. rewrite E. cbn [rbind]. destruct I as [IX IA IN IL IV IZ IO II].
  assert (VO : forall l p, In l (out_lists nodes rs) -> In p l -> nth_error (l_aux st) p = Some (Nat.div2 p)).
  { intros l p Il Ip. destruct (in_lists_spec ri_from (fun b => 2 * b) nodes rs l p Il Ip) as (b & Lb & ->). apply IV. lia. }
  assert (VI : forall l p, In l (in_lists nodes rs) -> In p l -> nth_error (l_aux st) p = Some (Nat.div2 p)).
  { intros l p Il Ip. destruct (in_lists_spec ri_to (fun b => 2 * b + 1) nodes rs l p Il Ip) as (b & Lb & ->). apply IV. lia. }
  assert (D0 : forall b, Nat.div2 (2 * b) = b) by apply Nat.div2_double. assert (D1 : forall b, Nat.div2 (2 * b + 1) = b) by (intros b; rewrite Nat.add_1_r; apply Nat.div2_succ_double).
  assert (LO : List.length (List.concat (out_lists nodes rs)) = List.length rs).
  { rewrite <- (map_length Nat.div2), concat_map. unfold out_lists. rewrite (concat_div ri_from (fun b => 2 * b) nodes rs D0). apply rivers_total. eapply Forall_impl; [|exact OK]. intros r H. apply H. }
  assert (LI : List.length (List.concat (in_lists nodes rs)) = List.length rs).
  { rewrite <- (map_length Nat.div2), concat_map. unfold in_lists. rewrite (concat_div ri_to (fun b => 2 * b + 1) nodes rs D1). apply rivers_total. eapply Forall_impl; [|exact OK]. intros r H. apply H. }
  unfold arrange.
  pose proof (arrange_ok (l_aux st) (l_next st) Nat.div2 (out_lists nodes rs) (l_out st) [] [] (repeat 0 (2 * graph_edges rs)) IO VO) as AO. rewrite repeat_length in AO. specialize (AO ltac:(lia)).
  cbn [app List.length Nat.add] in AO. rewrite LO in AO. rewrite AO. cbn [rbind fst snd].
  pose proof (arrange_ok (l_aux st) (l_next st) Nat.div2 (in_lists nodes rs) (l_in st) [] (map Nat.div2 (List.concat (out_lists nodes rs))) (skipn (List.length rs) (repeat 0 (2 * graph_edges rs))) II VI) as AI.
  rewrite skipn_length, repeat_length, map_length, LO, LI in AI. specialize (AI ltac:(lia)). rewrite AI. cbn [rbind fst snd app]. eexists. split; [reflexivity|]. cbn [a_out a_in a_list]. intros n Ln.
  assert (EO : nth_error (out_lists nodes rs) n = Some (map (fun b => 2 * b) (rivers_at ri_from rs (S n)))) by (unfold out_lists; rewrite nth_error_map, nth_seq0 by auto; reflexivity).
  assert (EI : nth_error (in_lists nodes rs) n = Some (map (fun b => 2 * b + 1) (rivers_at ri_to rs (S n)))) by (unfold in_lists; rewrite nth_error_map, nth_seq0 by auto; reflexivity).
  destruct (offsets_nth Nat.div2 _ 0 n _ EO) as (o & E1 & E2 & E3). destruct (offsets_nth Nat.div2 _ (List.length rs) n _ EI) as (i & F1 & F2 & F3). exists o, i. rewrite map_length in E2, F2. sp; auto.
  - specialize (E3 [] (map Nat.div2 (List.concat (in_lists nodes rs)) ++ skipn (List.length rs) (skipn (List.length rs) (repeat 0 (2 * graph_edges rs)))) eq_refl). cbn [app] in E3. rewrite E3. rewrite map_map. f_equal. rewrite <- (map_id (rivers_at _ _ _)) at 2. apply map_ext. exact D0.
  - rewrite F3 by (now rewrite map_length). rewrite map_map. f_equal. rewrite <- (map_id (rivers_at _ _ _)) at 2. apply map_ext. exact D1.
Qed.

(** The edges of the graph are as many as the rivers exactly if there are no parallel rivers. *)
Lemma ends_eq a b : ends a = ends b <-> (ri_from a = ri_from b /\ ri_to a = ri_to b) \/ (ri_from a = ri_to b /\ ri_to a = ri_from b).
Proof. unfold ends. split; [intros E; injection E as E1 E2; lia|]. intros [(-> & ->)|(-> & ->)]; [reflexivity|]. now rewrite Nat.min_comm, Nat.max_comm. Qed.
Lemma ends_nodup rs : NoDup (map ends rs) <-> no_parallel rs.
Proof.
  rewrite NoDup_nth_error. unfold no_parallel. split.
  - intros H i j a b Ea Eb N. assert (D : ends a <> ends b); [|rewrite ends_eq in D; tauto]. intros Eq. apply N, H; [rewrite map_length; apply nth_error_Some; congruence|]. rewrite !nth_error_map, Ea, Eb; cbn [option_map]; now rewrite Eq.
  - intros H i j L E. rewrite map_length in L. rewrite !nth_error_map in E. destruct (nth_error rs i) as [a|] eqn:Ea; [|now apply nth_error_Some in L]. destruct (nth_error rs j) as [b|] eqn:Eb; [|discriminate]. cbn in E. injection E as E1 E2.
    destruct (Nat.eq_dec i j) as [|N]; auto. exfalso. destruct (H i j a b Ea Eb N) as (H1 & H2). assert (D : ends a = ends b) by (unfold ends; congruence). apply ends_eq in D. tauto.
Qed.
Lemma edges_parallel rs : List.length rs <= graph_edges rs <-> no_parallel rs.
Proof.
  rewrite <- ends_nodup. unfold graph_edges. rewrite <- (map_length ends rs). split.
  - intros L. apply (NoDup_incl_NoDup (NoDup_nodup pair_dec _) L). intros x I. now apply nodup_In in I.
  - intros ND. rewrite nodup_fixed_point; auto.
Qed.
