(** Input and output nodes, storage and the other tables. *)
From Coq Require Import List Bool Arith ZArith QArith Lia Lqa.
From Verif Require Import Base ReaderProofs GraphData GraphDataProofs Cases CasesProofs Network InputOutput InputOutputProofs ConverterOpen Hydro HydroSpec HydroNet HydroParts.
Import ListNotations.
Open Scope nat_scope.
Open Scope list_scope.

Lemma bind_ok {A B} (a : A) (k : A -> res B) : rbind (Ok a) k = k a.
Proof. reflexivity. Qed.
Local Ltac sp := repeat match goal with |- _ /\ _ => split end.

(** ** Input and output nodes *)

Lemma foldM_app {A B} (f : A -> B -> res A) l m a : foldM f (l ++ m) a = do b <- foldM f l a; foldM f m b.
Proof. revert a. induction l as [|x l IH]; intros a; [reflexivity|]. cbn [app foldM]. destruct (f a x); cbn [rbind]; auto. Qed.

(** Flags and nodes noted so far. *)
Definition noted (size : nat) (st : list bool * list nat) : Prop :=
  List.length (fst st) = size /\ NoDup (snd st) /\ Forall (fun x => 1 <= x <= size) (snd st) /\ forall i, i < size -> (nth_error (fst st) i = Some true <-> In (S i) (snd st)).

Lemma noted_room size l x : NoDup l -> Forall (fun x => 1 <= x <= size) l -> ~ In x l -> 1 <= x <= size -> List.length l < size.
Proof.
  intros ND F NI L. assert (H : List.length (x :: l) <= List.length (seq 1 size)). { apply NoDup_incl_length; [now constructor|]. intros y [<-|I]; apply in_seq; [lia|]. rewrite Forall_forall in F. specialize (F y I). lia. }
  rewrite seq_length in H. cbn in H. lia.
Qed.
Lemma note_node_ok size st x : noted size st -> 1 <= x <= size -> ~ In x (snd st) -> exists fl, note_node size st x = Ok (fl, snd st ++ [x]) /\ noted size (fl, snd st ++ [x]).
Proof.
  intros (L & ND & F & FL) B NI. destruct x as [|i]; [lia|]. unfold note_node. rewrite row_node by lia. cbn [rbind]. pose proof (noted_room size (snd st) (S i) ND F NI B). rewrite (proj2 (Nat.ltb_lt _ _)) by auto.
  eexists. split; [reflexivity|]. unfold noted. cbn [fst snd]. sp.
  - now rewrite set_nth_length.
  - apply NoDup_apart; auto; [repeat constructor; intros []|]. intros y I [<-|[]]. contradiction.
  - apply Forall_app. split; auto.
  - intros j J. rewrite nth_set_nth, in_app_iff. cbn [In]. destruct (Nat.eqb_spec i j) as [->|N].
    + destruct (nth_error (fst st) j) eqn:X; [tauto|]. apply nth_error_None in X. lia.
    + rewrite FL by auto. split; [auto|]. intros [|[E|[]]]; auto. injection E as E. congruence.
Qed.

Lemma note_all size : forall l st, noted size st -> NoDup (snd st ++ l) -> Forall (fun x => 1 <= x <= size) l -> exists fl, foldM (note_node size) l st = Ok (fl, snd st ++ l) /\ noted size (fl, snd st ++ l).
Proof.
  induction l as [|x l IH]; intros st N ND F.
  - exists (fst st). rewrite List.app_nil_r in *. cbn [foldM]. destruct st. auto.
  - inversion F as [|? ? B F2]; subst. destruct (note_node_ok size st x N B) as (fl & E & N2). { intros I. apply NoDup_remove_2 in ND. apply ND. rewrite in_app_iff. now left. }
    cbn [foldM]. rewrite E. cbn [rbind]. destruct (IH (fl, snd st ++ [x]) N2) as (fl2 & E2 & N3); [cbn [snd]; now rewrite <- app_assoc|auto|]. cbn [snd] in E2, N3. rewrite <- app_assoc in E2. rewrite <- app_assoc in N3. exists fl2. auto.
Qed.

Lemma add_pump_ok size nodes pumps : NoDup nodes -> Forall (fun x => 1 <= x <= size) nodes -> Forall (fun x => x <= size) pumps -> exists all, add_pump_nodes size nodes pumps = Ok all /\ extends nodes pumps all /\ Forall (fun x => 1 <= x <= size) all.
Proof.
  intros ND F FP. unfold add_pump_nodes.
  assert (N0 : noted size (repeat false size, [])). { unfold noted. cbn [fst snd]. sp; [apply repeat_length|constructor|constructor|]. intros i L. split; [|intros []]. intros E. apply nth_error_In, repeat_spec in E. discriminate. }
  destruct (note_all size nodes _ N0) as (fl & E & N1); auto. cbn [snd app] in *. rewrite E. cbn [rbind].
  assert (X : forall pumps, Forall (fun x => x <= size) pumps -> forall st, noted size st -> exists fl new, foldM (fun (st : list bool * list nat) xn =>
      if xn =? 0 then Ok st
      else do i <- row size xn; do f <- at_ (fst st) i; if (f : bool) then Ok st else note_node size st xn) pumps st = Ok (fl, snd st ++ new) /\ noted size (fl, snd st ++ new) /\ forall x, In x new <-> In x pumps /\ x <> 0 /\ ~ In x (snd st)).
  { clear. induction 1 as [|x pumps B F IH]; intros st N.
    - exists (fst st), []. rewrite List.app_nil_r. cbn [foldM]. destruct st. sp; auto. cbn. tauto.
    - cbn [foldM]. destruct (Nat.eqb_spec x 0) as [->|N0].
      + cbn [rbind]. destruct (IH st N) as (fl & new & E & N2 & H). exists fl, new. sp; auto. intros y. rewrite H. cbn [In]. split; [tauto|]. intros ([<-|I] & A & C); tauto.
      + destruct x as [|i]; [lia|]. rewrite row_node by lia. rewrite bind_ok. pose proof N as (L & ND & FF & FL). specialize (FL i ltac:(lia)). destruct (nth_error (fst st) i) as [f|] eqn:Ef; [|apply nth_error_None in Ef; lia].
        rewrite (proj2 (at_nth _ _ _) Ef). cbn [rbind]. destruct f.
        * cbn [rbind]. destruct (IH st N) as (fl & new & E & N2 & H). exists fl, new. sp; auto. intros y. rewrite H. cbn [In]. assert (In (S i) (snd st)) by (apply FL; auto). split; [tauto|]. intros ([<-|I] & A & C); tauto.
        * assert (NI : ~ In (S i) (snd st)) by (rewrite <- FL; congruence). destruct (note_node_ok size st (S i) N ltac:(lia) NI) as (fl & E & N2). rewrite E. cbn [rbind]. destruct (IH _ N2) as (fl2 & new & E2 & N3 & H). cbn [snd] in E2, N3, H. rewrite <- app_assoc in E2. rewrite <- app_assoc in N3. exists fl2, (S i :: new). sp; auto.
          intros y. cbn [In]. rewrite H, in_app_iff. cbn [In]. destruct (Nat.eq_dec (S i) y) as [<-|Ny]; [intuition auto|]. intuition auto. }
  destruct (X pumps FP _ N1) as (fl2 & new & E2 & N2 & H). cbn [snd] in *. rewrite E2. cbn [rbind snd]. exists (nodes ++ new). destruct N2 as (_ & ND2 & F2 & _). cbn [snd] in *. sp; auto. exists new. auto.
Qed.

(** ** Tables of nodes *)

Definition table (size : nat) (nodes : list nat) (t : list (nat * nat)) : Prop :=
  List.length t = size /\ forall n, n < size ->
    (exists p, nth_error nodes p = Some (S n) /\ (forall q, p < q -> nth_error nodes q <> Some (S n)) /\ nth_error t n = Some (1, p)) \/ (~ In (S n) nodes /\ nth_error t n = Some (0, 0)).

Lemma nth_repeat {A} (a : A) n i : i < n -> nth_error (repeat a n) i = Some a.
Proof. revert i. induction n as [|n IH]; intros [|i] L; cbn; auto; [lia|lia|apply IH; lia]. Qed.
Lemma table_start size : table size [] (repeat (0, 0) size).
Proof. split; [apply repeat_length|]. intros n L. right. split; [intros []|now apply nth_repeat]. Qed.
Lemma nth_snoc {A} (l : list A) a i x : nth_error (l ++ [a]) i = Some x <-> nth_error l i = Some x \/ (i = List.length l /\ x = a).
Proof.
  destruct (Nat.lt_ge_cases i (List.length l)) as [L|L].
  - rewrite nth_error_app1 by auto. split; [auto|]. intros [|(-> & _)]; auto; lia.
  - rewrite nth_error_app2 by auto. assert (N : nth_error l i = None) by now apply nth_error_None. rewrite N. destruct (i - List.length l) as [|k] eqn:K.
    + cbn. split; [intros [= <-]; right; split; auto; lia|]. intros [|(_ & ->)]; [discriminate|auto].
    + cbn. split; [destruct k; discriminate|]. intros [|(-> & _)]; [discriminate|lia].
Qed.
Lemma table_snoc size nodes t i : table size nodes t -> i < size -> table size (nodes ++ [S i]) (set_nth i (1, List.length nodes) t).
Proof.
  intros (L & H) B. split; [now rewrite set_nth_length|]. intros n Ln. rewrite nth_set_nth. destruct (Nat.eqb_spec i n) as [->|N].
  - left. exists (List.length nodes). sp.
    + apply nth_snoc. auto.
    + intros q Lq X. apply nth_snoc in X as [X|(X & _)]; [|lia]. assert (q < List.length nodes) by (apply nth_error_Some; congruence). lia.
    + destruct (nth_error t n) eqn:X; auto. apply nth_error_None in X. lia.
  - destruct (H n Ln) as [(p & E & U & T)|(NI & T)].
    + left. exists p. sp; auto; [apply nth_snoc; auto|]. intros q Lq X. apply nth_snoc in X as [X|(_ & X)]; [exact (U q Lq X)|]. injection X as X. congruence.
    + right. split; auto. rewrite in_app_iff. intros [|[X|[]]]; [auto|injection X as X; congruence].
Qed.

Lemma node_table_ok size nodes : Forall (fun x => 1 <= x <= size) nodes -> exists t, node_table size nodes = Ok t /\ table size nodes t.
Proof.
  intros F. unfold node_table.
  assert (X : forall l2 l1 t, nodes = l1 ++ l2 -> table size l1 t -> exists t2, foldM (fun t ix => do i <- row size (snd ix); Ok (set_nth i (1, fst ix) t)) (combine (seq (List.length l1) (List.length l2)) l2) t = Ok t2 /\ table size nodes t2).
  { induction l2 as [|x l2 IH]; intros l1 t E T; [rewrite List.app_nil_r in E; subst l1; exists t; auto|]. cbn [List.length seq combine foldM fst snd].
    assert (B : 1 <= x <= size). { rewrite Forall_forall in F. apply F. rewrite E, in_app_iff. right. now left. } destruct x as [|i]; [lia|]. rewrite row_node by lia. cbn [rbind].
    destruct (IH (l1 ++ [S i]) (set_nth i (1, List.length l1) t)) as (t2 & E2 & T2); [now rewrite <- app_assoc|apply table_snoc; auto; lia|]. rewrite app_length, Nat.add_1_r in E2. eauto. }
  exact (X nodes [] _ eq_refl (table_start size)).
Qed.

(** ** Sums at nodes *)

Lemma qsum_app l m : (qsum (l ++ m) == qsum l + qsum m)%Q.
Proof. induction l as [|x l IH]; [cbn [app]; change (qsum []) with 0%Q; ring|]. change (x + qsum (l ++ m) == x + qsum l + qsum m)%Q. rewrite IH. ring. Qed.
Lemma at_node_snoc l x node f : (at_node (l ++ [x]) node f == at_node l node f + (if Nat.eqb x node then f (List.length l) else 0))%Q.
Proof.
  unfold at_node. rewrite app_length. cbn [List.length]. rewrite seq_app. cbn [seq Nat.add]. assert (C : forall (a b : list nat) (c d : nat), List.length a = List.length b -> combine (a ++ [c]) (b ++ [d]) = combine a b ++ [(c, d)]). { induction a as [|y a IH]; intros [|z b] c d Le; cbn in *; try discriminate; auto. f_equal. apply IH. lia. }
  rewrite C by apply seq_length. rewrite map_app, qsum_app. cbn [map fst snd qsum fold_right]. ring.
Qed.
Lemma at_node_none l node f : ~ In node l -> (at_node l node f == 0)%Q.
Proof. induction l as [|x l IH] using rev_ind; intros N; [reflexivity|]. rewrite at_node_snoc, IH by (rewrite in_app_iff in N; tauto). destruct (Nat.eqb_spec x node) as [->|]; [|ring]. rewrite in_app_iff in N. cbn in N. tauto. Qed.
Lemma at_node_one l node f p : NoDup l -> nth_error l p = Some node -> (at_node l node f == f p)%Q.
Proof.
  induction l as [|x l IH] using rev_ind; intros ND E; [destruct p; discriminate|]. rewrite at_node_snoc. apply NoDup_remove in ND as (ND & NI). rewrite List.app_nil_r in *. apply nth_snoc in E as [E|(-> & <-)].
  - rewrite (IH ND E). destruct (Nat.eqb_spec x node) as [->|]; [|ring]. exfalso. apply NI. eapply nth_error_In; eauto.
  - rewrite at_node_none by auto. rewrite Nat.eqb_refl. ring.
Qed.
Lemma below_S n f : (below (S n) f == below n f + f n)%Q.
Proof. unfold below. rewrite seq_S, map_app, qsum_app. cbn. ring. Qed.
Lemma below_ext n f g : (forall i, i < n -> (f i == g i)%Q) -> (below n f == below n g)%Q.
Proof. induction n as [|n IH]; intros H; [reflexivity|]. rewrite !below_S, IH, (H n) by auto. reflexivity. Qed.
Lemma below_add n f g : (below n (fun i => f i + g i) == below n f + below n g)%Q.
Proof. induction n as [|n IH]; [reflexivity|]. rewrite !below_S, IH. ring. Qed.
Lemma below_sub n f g : (below n (fun i => f i - g i) == below n f - below n g)%Q.
Proof. induction n as [|n IH]; [reflexivity|]. rewrite !below_S, IH. ring. Qed.
Lemma below_mul n k f : (below n (fun i => k * f i) == k * below n f)%Q.
Proof. induction n as [|n IH]; [unfold below; cbn; ring|]. rewrite !below_S, IH. ring. Qed.
Lemma below_zero n f : (forall i, i < n -> (f i == 0)%Q) -> (below n f == 0)%Q.
Proof. induction n as [|n IH]; intros H; [reflexivity|]. rewrite below_S, IH, (H n) by auto. ring. Qed.
Lemma below_swap n m f : (below n (fun i => below m (f i)) == below m (fun j => below n (fun i => f i j)))%Q.
Proof. induction n as [|n IH]; [symmetry; now apply below_zero|]. rewrite below_S, IH, <- below_add. apply below_ext. intros j _. now rewrite below_S. Qed.
Lemma below_one n k q : k < n -> (below n (fun i => if Nat.eqb k i then q else 0) == q)%Q.
Proof.
  induction n as [|n IH]; intros L; [lia|]. rewrite below_S. destruct (Nat.eqb_spec k n) as [->|N].
  - rewrite below_zero; [ring|]. intros i Li. destruct (Nat.eqb_spec n i); [lia|reflexivity].
  - rewrite IH by lia. ring.
Qed.
(** Summing over all nodes counts every position once. *)
Lemma all_nodes l nodes f : Forall (fun x => 1 <= x <= nodes) l -> (below nodes (fun n => at_node l (S n) f) == below (List.length l) f)%Q.
Proof.
  induction l as [|x l IH] using rev_ind; intros F; [now apply below_zero|]. apply Forall_app in F as (F & F1). inversion F1 as [|? ? B _]; subst. rewrite app_length, Nat.add_1_r, below_S, <- IH by auto.
  rewrite (below_ext _ _ (fun n => at_node l (S n) f + (if Nat.eqb (x - 1) n then f (List.length l) else 0))%Q). { rewrite below_add, below_one by lia. reflexivity. }
  intros n Ln. rewrite at_node_snoc. destruct (Nat.eqb_spec x (S n)), (Nat.eqb_spec (x - 1) n); try lia; reflexivity.
Qed.
Lemma rivers_sum g rs node f : (qsum (map f (rivers_at g rs node)) == at_node (map g rs) node f)%Q.
Proof. induction rs as [|r rs IH] using rev_ind; [reflexivity|]. rewrite rivers_at_snoc, map_app, map_app, qsum_app, IH. cbn [map]. rewrite at_node_snoc, map_length. destruct (g r =? node); cbn; ring. Qed.
Lemma table_sum size nodes t n f : table size nodes t -> NoDup nodes -> n < size -> exists e, nth_error t n = Some e /\ (qsum (map (fun _ => f (snd e)) (seq 0 (fst e))) == at_node nodes (S n) f)%Q.
Proof.
  intros (L & H) ND Ln. destruct (H n Ln) as [(p & E & _ & T)|(NI & T)]; (eexists; split; [exact T|]); cbn [fst snd].
  - rewrite (at_node_one nodes (S n) f p ND E). cbn. ring.
  - now rewrite (at_node_none nodes (S n) f NI).
Qed.

(** ** Storage *)

Definition capacity (uq : unit_ * Q) : Z := truncate (snd uq * 1000 / (981 # 100) / u_eff (fst uq) / u_head (fst uq))%Q.
Lemma Qeq_bool_false q : ~ (q == 0)%Q -> Qeq_bool q 0 = false.
Proof. intros N. destruct (Qeq_bool q 0) eqn:E; auto. apply Qeq_bool_eq in E. contradiction. Qed.

Lemma storage_ok nodes time us st : List.length st <= List.length us -> List.length (with_storage us st) <= nodes ->
  Forall (fun uq => 1 <= u_node (fst uq) <= nodes /\ ~ (u_eff (fst uq) == 0)%Q /\ ~ (u_head (fst uq) == 0)%Q) (with_storage us st) -> (0 < time \/ with_storage us st = []) ->
  exists s, storage_units nodes time us st = Ok s /\ s_no s = List.length (with_storage us st) /\ (forall k uq, nth_error (with_storage us st) k = Some uq -> nth_error (s_cap s) (S k) = Some (capacity uq)) /\
    table nodes (map (fun uq => u_node (fst uq)) (with_storage us st)) (s_node s) /\ List.length (s_time s) = time /\
    (with_storage us st <> [] -> forall t, t < time -> nth_error (s_time s) t = Some (t, if t =? 0 then time - 1 else t - 1)).
Proof.
  intros LU LW F TM. unfold storage_units.
  set (step := fun (acc : nat * list Z * list (nat * nat)) i => _ : res (nat * list Z * list (nat * nat))).
  assert (step0 : forall acc i q, at_ st i = Ok q -> Qeq_bool q 0 = true -> step acc i = Ok acc). { intros ((cou, cap), tab) i q E Z. unfold step. rewrite E, bind_ok, Z. reflexivity. }
  assert (step1 : forall cou cap tab i q u x, at_ st i = Ok q -> Qeq_bool q 0 = false -> at_ us i = Ok u -> u_node u = S x -> x < nodes -> ~ (u_eff u == 0)%Q -> ~ (u_head u == 0)%Q -> S cou < List.length cap ->
    step (cou, cap, tab) i = Ok (S cou, set_nth (S cou) (capacity (u, q)) cap, set_nth x (1, cou) tab)).
  { intros cou cap tab i q u x E Z Eu Ux Lx NE NH LC. unfold step. rewrite E, bind_ok, Z, Eu, bind_ok, Ux, row_node by auto. rewrite bind_ok, (Qeq_bool_false _ NE), (Qeq_bool_false _ NH). cbn [orb]. unfold store. rewrite (proj2 (Nat.ltb_lt _ _)) by auto. reflexivity. }
  clearbody step.
  assert (X : forall st2 us2 st1 us1 cap tab, st = st1 ++ st2 -> us = us1 ++ us2 -> List.length us1 = List.length st1 -> List.length cap = S nodes ->
    (forall k uq, nth_error (with_storage us1 st1) k = Some uq -> nth_error cap (S k) = Some (capacity uq)) -> table nodes (map (fun uq => u_node (fst uq)) (with_storage us1 st1)) tab ->
    exists cap2 tab2, foldM step (seq (List.length st1) (List.length st2)) (List.length (with_storage us1 st1), cap, tab) = Ok (List.length (with_storage us st), cap2, tab2) /\ List.length cap2 = S nodes /\
      (forall k uq, nth_error (with_storage us st) k = Some uq -> nth_error cap2 (S k) = Some (capacity uq)) /\ table nodes (map (fun uq => u_node (fst uq)) (with_storage us st)) tab2).
  { induction st2 as [|q st2 IH]; intros us2 st1 us1 cap tab Es Eu Le LC HC HT.
    - rewrite List.app_nil_r in Es. subst st1. assert (W : with_storage us st = with_storage us1 st). { unfold with_storage. f_equal. rewrite Eu. clear - Le. revert st Le. induction us1 as [|u us1 IH]; intros [|q st] Le; cbn in *; try discriminate; [now destruct us2|]. f_equal. apply IH. lia. }
      rewrite W. exists cap, tab. cbn [List.length seq foldM]. auto.
    - destruct us2 as [|u us2]. { exfalso. rewrite List.app_nil_r in Eu. subst us1. rewrite Es, app_length in LU. cbn in LU. lia. }
      cbn [List.length seq foldM]. assert (CB : with_storage (us1 ++ [u]) (st1 ++ [q]) = with_storage us1 st1 ++ (if Qeq_bool q 0 then [] else [(u, q)])).
      { unfold with_storage. clear - Le. revert st1 Le. induction us1 as [|v us1 IH]; intros [|p st1] Le; cbn in *; try discriminate; [destruct (Qeq_bool q 0); reflexivity|]. destruct (Qeq_bool p 0); cbn; rewrite IH by lia; reflexivity. }
      assert (Aq : at_ st (List.length st1) = Ok q) by (apply at_nth; rewrite Es, nth_error_app2, Nat.sub_diag by lia; reflexivity).
      destruct (Qeq_bool q 0) eqn:Q0.
      + rewrite (step0 _ _ _ Aq Q0), bind_ok. destruct (IH us2 (st1 ++ [q]) (us1 ++ [u]) cap tab) as (cap2 & tab2 & E & H); [now rewrite <- app_assoc|now rewrite <- app_assoc|rewrite !app_length; cbn; lia|auto| | |].
        * rewrite CB, List.app_nil_r. auto.
        * rewrite CB, List.app_nil_r. auto.
        * rewrite CB, List.app_nil_r, app_length in E. cbn [List.length] in E. rewrite Nat.add_1_r in E. exists cap2, tab2. auto.
      + assert (IW : In (u, q) (with_storage us st)). { unfold with_storage. apply filter_In. cbn [snd]. rewrite Q0. split; auto. rewrite Es, Eu. clear - Le. revert st1 Le. induction us1 as [|v us1 IH]; intros [|p st1] Le; cbn in *; try discriminate; auto. }
        assert (LI : List.length (with_storage us1 st1) < nodes). { assert (Z : List.length (with_storage us st) = List.length (with_storage us1 st1) + List.length (with_storage (u :: us2) (q :: st2))). { rewrite <- app_length. f_equal. unfold with_storage. rewrite <- filter_app. f_equal. rewrite Es, Eu. clear - Le. revert st1 Le. induction us1 as [|v us1 IH]; intros [|p st1] Le; cbn in *; try discriminate; auto. f_equal. apply IH. lia. } unfold with_storage at 3 in Z. cbn [combine filter snd] in Z. rewrite Q0 in Z. cbn in Z. unfold with_storage in *. lia. }
        rewrite Forall_forall in F. destruct (F _ IW) as (BN & NE & NH). cbn [fst] in *.
        assert (Au : at_ us (List.length st1) = Ok u) by (apply at_nth; rewrite Eu, <- Le, nth_error_app2, Nat.sub_diag by lia; reflexivity). destruct (u_node u) as [|i] eqn:Ui; [lia|].
        rewrite (step1 _ cap tab _ _ u i Aq Q0 Au Ui) by (auto; lia). rewrite bind_ok.
        destruct (IH us2 (st1 ++ [q]) (us1 ++ [u]) (set_nth (S (List.length (with_storage us1 st1))) (capacity (u, q)) cap) (set_nth i (1, List.length (with_storage us1 st1)) tab)) as (cap2 & tab2 & E & H); [now rewrite <- app_assoc|now rewrite <- app_assoc|rewrite !app_length; cbn; lia|now rewrite set_nth_length| | |].
        * rewrite CB. intros k uq Ek. apply nth_snoc in Ek as [Ek|(-> & ->)]; rewrite nth_set_nth.
          -- assert (k < List.length (with_storage us1 st1)) by (apply nth_error_Some; congruence). destruct (Nat.eqb_spec (S (List.length (with_storage us1 st1))) (S k)); [lia|auto].
          -- rewrite Nat.eqb_refl. destruct (nth_error cap _) eqn:Z; auto. apply nth_error_None in Z. lia.
        * rewrite CB, map_app. cbn [map fst]. rewrite Ui. pose proof (table_snoc nodes _ tab i HT ltac:(lia)) as TS. rewrite map_length in TS. exact TS.
        * rewrite CB, !app_length in E. cbn [List.length] in E. rewrite !Nat.add_1_r in E. exists cap2, tab2. split; [exact E|auto]. }
  destruct (X st us [] [] (repeat 0%Z (S nodes)) (repeat (0, 0) nodes) eq_refl eq_refl eq_refl (repeat_length _ _)) as (cap & tab & E & LC & HC & HT).
  { intros [|k] uq Z; discriminate. } { apply table_start. }
  cbn [List.length] in E. replace (List.length (with_storage [] [])) with 0 in E by reflexivity. rewrite E. cbn [rbind].
  assert (HC2 : forall k uq, nth_error (with_storage us st) k = Some uq -> nth_error (match st with [] => cap | _ => firstn (S (List.length (with_storage us st))) cap end) (S k) = Some (capacity uq)).
  { intros k uq Ek. assert (k < List.length (with_storage us st)) by (apply nth_error_Some; congruence). destruct st; [auto|]. rewrite <- (HC k uq Ek). apply nth_error_firstn_lt. lia. }
  destruct (with_storage us st) as [|w ws] eqn:W.
  - cbn [List.length]. eexists. split; [reflexivity|]. cbn [s_no s_cap s_node s_time]. sp; auto; [apply repeat_length|]. now intros.
  - cbn [List.length] in *. destruct TM as [TM|]; [|discriminate]. destruct time as [|t]; [lia|]. eexists. split; [reflexivity|]. cbn [s_no s_cap s_node s_time]. sp; auto.
    + cbn. now rewrite map_length, seq_length.
    + intros _ [|j] Lj; [cbn; rewrite Nat.sub_0_r; reflexivity|]. cbn [nth_error Nat.eqb]. rewrite nth_error_map. assert (Z : nth_error (seq 1 t) j = Some (S j)). { rewrite <- seq_shift, nth_error_map, nth_seq0 by lia. reflexivity. } rewrite Z. reflexivity.
Qed.
