(** Lemmas about graphs and the scenario graph of a profile. *)
From Coq Require Import List String Bool Arith ZArith QArith Lia Permutation Sorted.
From Verif Require Import Base Graph GraphSpec PlannerProofs PlannerMain.
Import ListNotations.
Open Scope nat_scope.
Open Scope list_scope.

Local Ltac sp := repeat match goal with |- _ /\ _ => split end.

(* ------------------------------------------------------------------ *)
(** ** basic graph facts *)

Lemma mem_In n l : mem n l = true <-> In n l.
Proof.
  unfold mem. rewrite existsb_exists. split.
  - intros (x & I & E). apply Nat.eqb_eq in E. now subst.
  - intros I. exists n. split; auto. apply Nat.eqb_refl.
Qed.

Lemma edge_eqb_eq a b : edge_eqb a b = true <-> a = b.
Proof.
  destruct a, b. unfold edge_eqb. simpl. rewrite andb_true_iff, !Nat.eqb_eq. split; [intros [-> ->]; auto|intros E; injection E; auto].
Qed.

Lemma set_add_In n l x : In x (set_add n l) <-> x = n \/ In x l.
Proof.
  unfold set_add. destruct (mem n l) eqn:E.
  - apply mem_In in E. split; auto. intros [->|]; auto.
  - rewrite in_app_iff. simpl. intuition.
Qed.

Lemma set_add_NoDup n l : NoDup l -> NoDup (set_add n l).
Proof.
  intros N. unfold set_add. destruct (mem n l) eqn:E; auto.
  apply (Permutation_NoDup (l := n :: l)); [apply Permutation_cons_append|]. constructor; auto.
  rewrite <- mem_In. congruence.
Qed.

Lemma set_update_In add : forall l x, In x (set_update l add) <-> In x l \/ In x add.
Proof.
  unfold set_update. induction add as [|n add IH]; simpl; intros l x; [tauto|]. rewrite IH, set_add_In. intuition.
Qed.

Lemma set_update_NoDup add : forall l, NoDup l -> NoDup (set_update l add).
Proof. unfold set_update. induction add as [|n add IH]; simpl; intros l N; auto. apply IH. now apply set_add_NoDup. Qed.

Lemma set_add_hd n l x : hd_error l = Some x -> hd_error (set_add n l) = Some x.
Proof. unfold set_add. destruct (mem n l); auto. destruct l; simpl; auto; discriminate. Qed.

Lemma succ_In g a b : In b (succ g a) <-> In (a, b) (g_edges g).
Proof.
  unfold succ. rewrite in_map_iff. split.
  - intros ([x y] & E & I). apply filter_In in I as [I F]. apply Nat.eqb_eq in F. simpl in *. now subst.
  - intros I. exists (a, b). split; auto. apply filter_In. split; auto. apply Nat.eqb_refl.
Qed.

Lemma pred_In g a b : In a (pred g b) <-> In (a, b) (g_edges g).
Proof.
  unfold pred. rewrite in_map_iff. split.
  - intros ([x y] & E & I). apply filter_In in I as [I F]. apply Nat.eqb_eq in F. simpl in *. now subst.
  - intros I. exists (a, b). split; auto. apply filter_In. split; auto. apply Nat.eqb_refl.
Qed.

Lemma succ_NoDup g n : NoDup (g_edges g) -> NoDup (succ g n).
Proof.
  intros N. unfold succ. induction (g_edges g) as [|[a b] l IH]; simpl; [constructor|]. inversion N; subst.
  destruct (Nat.eqb_spec a n) as [->|]; simpl; auto. constructor; auto.
  intros I. apply in_map_iff in I as ([x y] & E & I). apply filter_In in I as [I F]. apply Nat.eqb_eq in F. simpl in *. now subst.
Qed.

Lemma pred_NoDup g n : NoDup (g_edges g) -> NoDup (pred g n).
Proof.
  intros N. unfold pred. induction (g_edges g) as [|[a b] l IH]; simpl; [constructor|]. inversion N; subst.
  destruct (Nat.eqb_spec b n) as [->|]; simpl; auto. constructor; auto.
  intros I. apply in_map_iff in I as ([x y] & E & I). apply filter_In in I as [I F]. apply Nat.eqb_eq in F. simpl in *. now subst.
Qed.

Lemma add_edge_nodes a b g n : In n (g_nodes (add_edge a b g)) <-> n = a \/ n = b \/ In n (g_nodes g).
Proof. unfold add_edge, add_node. simpl. rewrite !set_add_In. tauto. Qed.

Lemma add_edge_nodes_NoDup a b g : NoDup (g_nodes g) -> NoDup (g_nodes (add_edge a b g)).
Proof. intros N. unfold add_edge, add_node. simpl. now apply set_add_NoDup, set_add_NoDup. Qed.

Lemma add_edge_edges_new a b g : ~ In (a, b) (g_edges g) -> g_edges (add_edge a b g) = g_edges g ++ [(a, b)].
Proof.
  intros N. unfold add_edge, add_node. simpl. destruct (existsb (edge_eqb (a, b)) (g_edges g)) eqn:E; auto.
  apply existsb_exists in E as (e & I & F). apply edge_eqb_eq in F. now subst.
Qed.

Lemma add_edge_In a b g e : In e (g_edges (add_edge a b g)) <-> e = (a, b) \/ In e (g_edges g).
Proof.
  unfold add_edge, add_node. simpl. destruct (existsb (edge_eqb (a, b)) (g_edges g)) eqn:E.
  - apply existsb_exists in E as (x & I & F). apply edge_eqb_eq in F. subst x. split; auto. intros [->|]; auto.
  - rewrite in_app_iff. simpl. intuition.
Qed.

Lemma add_edge_edges_NoDup a b g : NoDup (g_edges g) -> NoDup (g_edges (add_edge a b g)).
Proof.
  intros N. unfold add_edge, add_node. simpl. destruct (existsb (edge_eqb (a, b)) (g_edges g)) eqn:E; auto.
  apply (Permutation_NoDup (l := (a, b) :: g_edges g)); [apply Permutation_cons_append|]. constructor; auto.
  intros I. assert (existsb (edge_eqb (a, b)) (g_edges g) = true); [|congruence]. apply existsb_exists.
  exists (a, b). split; auto. now apply edge_eqb_eq.
Qed.

(* ------------------------------------------------------------------ *)
(** ** nodes of one stage *)

Definition distinct (l : list Q) : list Q :=
  fold_left (fun acc v => if existsb (fun w => Qeq_bool w v) acc then acc else acc ++ [v]) l [].

Lemma distinct_app l v : distinct (l ++ [v]) =
  if existsb (fun w => Qeq_bool w v) (distinct l) then distinct l else distinct l ++ [v].
Proof. unfold distinct. now rewrite fold_left_app. Qed.

Definition apart (l : list Q) : Prop := ForallOrdPairs (fun a b => ~ (a == b)%Q) l.

Lemma FOP_app {A} (R : A -> A -> Prop) l x : ForallOrdPairs R l -> Forall (fun a => R a x) l -> ForallOrdPairs R (l ++ [x]).
Proof.
  induction 1 as [|a l H F IH]; simpl; intros G; [constructor; constructor|]. inversion G; subst. constructor; auto.
  apply Forall_app. split; auto.
Qed.

Lemma distinct_apart l : apart (distinct l).
Proof.
  induction l as [|v l IH] using rev_ind; [constructor|]. rewrite distinct_app.
  destruct (existsb _ _) eqn:E; auto. apply FOP_app; auto. apply Forall_forall. intros w I H.
  assert (existsb (fun w => Qeq_bool w v) (distinct l) = true); [|congruence]. apply existsb_exists.
  exists w. split; auto. now apply Qeq_bool_iff.
Qed.

Lemma distinct_covers l v : In v l -> exists w, In w (distinct l) /\ (w == v)%Q.
Proof.
  induction l as [|x l IH] using rev_ind; [intros []|]. rewrite distinct_app, in_app_iff. intros [I|[<-|[]]].
  - destruct (IH I) as (w & J & E). exists w. split; auto. destruct (existsb _ _); auto. apply in_app_iff. auto.
  - destruct (existsb _ _) eqn:E.
    + apply existsb_exists in E as (w & J & E). exists w. split; auto. now apply Qeq_bool_iff.
    + exists x. split; [|reflexivity]. apply in_app_iff. simpl. auto.
Qed.

Lemma distinct_incl l v : In v (distinct l) -> In v l.
Proof.
  induction l as [|x l IH] using rev_ind; [auto|]. rewrite distinct_app. destruct (existsb _ _); rewrite ?in_app_iff; intuition.
Qed.

(** The scenarios of a row with value [v]. *)
Definition with_value (row : list Q) (v : Q) : list nat :=
  map fst (filter (fun c => Qeq_bool v (snd c)) (combine (seq 0 (List.length row)) row)).

Definition cluster_for (row : list Q) (v : Q) : cluster := mkCluster (with_value row v) v (-1) "" "".

Lemma combine_seq_app {A} (row : list A) v i :
  combine (seq i (List.length (row ++ [v]))) (row ++ [v]) = combine (seq i (List.length row)) row ++ [(i + List.length row, v)].
Proof.
  revert i. induction row as [|x row IH]; intros i; simpl; [now rewrite Nat.add_0_r|]. rewrite IH. simpl. now rewrite Nat.add_succ_r.
Qed.

Lemma combine_seq_snoc {A} (l : list A) v :
  combine (l ++ [v]) (seq 0 (List.length l + 1)) = combine l (seq 0 (List.length l)) ++ [(v, List.length l)].
Proof.
  assert (G : forall i, combine (l ++ [v]) (seq i (List.length l + 1)) = combine l (seq i (List.length l)) ++ [(v, i + List.length l)]).
  { induction l as [|x l IH]; intros i; simpl; [now rewrite Nat.add_0_r|]. rewrite IH. simpl. now rewrite Nat.add_succ_r. }
  apply G.
Qed.

Lemma with_value_app row x v : with_value (row ++ [x]) v = with_value row v ++ (if Qeq_bool v x then [List.length row] else []).
Proof.
  unfold with_value. rewrite combine_seq_app, filter_app, map_app. simpl. destruct (Qeq_bool v x); reflexivity.
Qed.

Lemma find_value_none v : forall cs i, find_value v (combine cs (seq i (List.length cs))) = None <->
  existsb (fun w => Qeq_bool w v) cs = false.
Proof.
  induction cs as [|c cs IH]; intros i; simpl; [tauto|]. destruct (Qeq_bool c v); simpl; [split; discriminate|]. apply IH.
Qed.

Lemma find_value_some v : forall cs i j, find_value v (combine cs (seq i (List.length cs))) = Some j ->
  exists k c, j = i + k /\ nth_error cs k = Some c /\ (c == v)%Q.
Proof.
  induction cs as [|c cs IH]; intros i j; simpl; [discriminate|]. destruct (Qeq_bool c v) eqn:E.
  - intros H. injection H as <-. exists 0, c. sp; [lia|reflexivity|]. now apply Qeq_bool_iff.
  - intros H. destruct (IH _ _ H) as (k & d & -> & En & Eq). exists (S k), d. sp; auto. lia.
Qed.

Lemma update_nth_map {A B} (f g : A -> B) (h : B -> B) l k : (forall i a, nth_error l i = Some a -> g a = if Nat.eqb i k then h (f a) else f a) ->
  update_nth k h (map f l) = map g l.
Proof.
  revert k. induction l as [|a l IH]; intros k H; [destruct k; reflexivity|]. destruct k as [|k]; simpl.
  - rewrite (H 0 a eq_refl). simpl. f_equal. apply map_ext_in. intros b I. apply In_nth_error in I as [i E].
    specialize (H (S i) b E). simpl in H. auto.
  - rewrite (H 0 a eq_refl). simpl. f_equal. apply IH. intros i b E. apply (H (S i) b E).
Qed.

Lemma apart_eq l i j a b : apart l -> nth_error l i = Some a -> nth_error l j = Some b -> (a == b)%Q -> i = j.
Proof.
  intros A. revert i j. induction A as [|x l F A IH]; intros [|i] [|j] E1 E2 E; simpl in *; try discriminate; auto.
  - injection E1 as ->. apply nth_error_In in E2. rewrite Forall_forall in F. now destruct (F b E2).
  - injection E2 as ->. apply nth_error_In in E1. rewrite Forall_forall in F. destruct (F a E1). now symmetry.
Qed.

Lemma row_state row : fold_left place (combine (seq 0 (List.length row)) row) ([], []) =
  (combine (distinct row) (seq 0 (List.length (distinct row))), map (cluster_for row) (distinct row)).
Proof.
  induction row as [|v row IH] using rev_ind; [reflexivity|].
  rewrite combine_seq_app, fold_left_app, IH. simpl. rewrite distinct_app.
  destruct (find_value v (combine (distinct row) (seq 0 (List.length (distinct row))))) as [i|] eqn:E.
  - destruct (existsb (fun w => Qeq_bool w v) (distinct row)) eqn:X; [|apply (find_value_none v _ 0) in X; congruence].
    apply find_value_some in E as (k & c & -> & En & Eq). simpl. f_equal.
    apply update_nth_map. intros j a Ea. unfold cluster_for. rewrite with_value_app.
    destruct (Nat.eqb_spec j k) as [->|NE].
    + assert (a = c) as -> by congruence. apply Qeq_bool_iff in Eq. now rewrite Eq.
    + destruct (Qeq_bool a v) eqn:Ev; [|now rewrite List.app_nil_r]. apply Qeq_bool_iff in Ev. destruct NE.
      eapply apart_eq; eauto using distinct_apart. rewrite Ev. now symmetry.
  - apply find_value_none in E. rewrite E. rewrite map_length, app_length, map_app. simpl. f_equal.
    + symmetry. apply combine_seq_snoc.
    + f_equal.
      * apply map_ext_in. intros a I. unfold cluster_for. rewrite with_value_app. destruct (Qeq_bool a v) eqn:Ev; [|now rewrite List.app_nil_r].
        assert (existsb (fun w => Qeq_bool w v) (distinct row) = true); [|congruence]. apply existsb_exists. eauto.
      * unfold cluster_for. rewrite with_value_app. rewrite (proj2 (Qeq_bool_iff v v)) by reflexivity.
        enough (with_value row v = []) as -> by reflexivity.
        unfold with_value. destruct (filter _ _) as [|[s w] l] eqn:F; auto. exfalso.
        assert (In (s, w) (filter (fun c => Qeq_bool v (snd c)) (combine (seq 0 (List.length row)) row))) as I by (rewrite F; simpl; auto).
        apply filter_In in I as [I Ew]. apply in_combine_r in I. simpl in Ew. apply Qeq_bool_iff in Ew.
        destruct (distinct_covers row w I) as (u & J & Eu).
        assert (existsb (fun w => Qeq_bool w v) (distinct row) = true); [|congruence]. apply existsb_exists.
        exists u. split; auto. apply Qeq_bool_iff. rewrite Eu. now symmetry.
Qed.

Lemma row_nodes_eq row : row_nodes row = map (cluster_for row) (distinct row).
Proof. unfold row_nodes. now rewrite row_state. Qed.

Lemma with_value_spec row v s : In s (with_value row v) <-> exists w, cell row s = Some w /\ (w == v)%Q.
Proof.
  unfold with_value, cell. induction row as [|x row IH] using rev_ind.
  - simpl. split; [intros []|]. intros (w & E & _). destruct s; discriminate.
  - rewrite combine_seq_app, filter_app, map_app, in_app_iff, IH. simpl. split.
    + intros [(w & E & Ew)|I].
      * exists w. split; auto. rewrite nth_error_app1; auto. apply nth_error_Some. congruence.
      * destruct (Qeq_bool v x) eqn:Ev; simpl in I; [|destruct I]. destruct I as [<-|[]].
        exists x. rewrite nth_error_app2, Nat.sub_diag by lia. split; auto. apply Qeq_bool_iff in Ev. now symmetry.
    + intros (w & E & Ew). destruct (Nat.lt_ge_cases s (List.length row)).
      * rewrite nth_error_app1 in E by auto. left. eauto.
      * rewrite nth_error_app2 in E by auto. right. destruct (s - List.length row) as [|k] eqn:Es; [|destruct k; discriminate].
        injection E as ->. assert (Qeq_bool v w = true) as -> by (apply Qeq_bool_iff; now symmetry).
        simpl. left. lia.
Qed.

Lemma combine_seq_sorted {A} (row : list A) f : forall i,
  StronglySorted lt (map fst (filter f (combine (seq i (List.length row)) row))) /\
  Forall (fun s => i <= s) (map fst (filter f (combine (seq i (List.length row)) row))).
Proof.
  induction row as [|x row IH]; intros i; simpl; [split; constructor|]. destruct (IH (S i)) as [St F].
  assert (G : Forall (fun s => i < s) (map fst (filter f (combine (seq (S i) (List.length row)) row)))).
  { eapply Forall_impl; [|exact F]. simpl. intros a H. lia. }
  destruct (f (i, x)); simpl; split; try constructor; auto; eapply Forall_impl; try exact G; simpl; intros; lia.
Qed.

Lemma with_value_sorted row v : StronglySorted lt (with_value row v).
Proof. apply combine_seq_sorted. Qed.

(* ------------------------------------------------------------------ *)
(** ** numbering *)

Fixpoint blocks (p : profile) (level counter : nat) (rows : list (list cluster)) : list (list (nat * cluster)) :=
  match rows with
  | [] => []
  | r :: rs => combine (seq counter (List.length r)) (map (final_node p (Z.of_nat level)) r) :: blocks p (S level) (counter + List.length r) rs
  end.

Lemma number_row_eq p level l : forall c acc, number_row p level (Z.of_nat c - 1) l acc =
  ((Z.of_nat (c + List.length l) - 1)%Z, acc ++ combine (seq c (List.length l)) (map (final_node p level) l)).
Proof.
  induction l as [|x l IH]; intros c acc; simpl; [now rewrite Nat.add_0_r, List.app_nil_r|].
  replace (Z.of_nat c - 1 + 1)%Z with (Z.of_nat (S c) - 1)%Z by lia. rewrite IH.
  replace (Z.to_nat (Z.of_nat (S c) - 1)) with c by lia. rewrite <- app_assoc, Nat.add_succ_r. reflexivity.
Qed.

Lemma number_rows_eq p rows : forall lev c acc, number_rows p (Z.of_nat lev - 1) (Z.of_nat c - 1) rows acc =
  acc ++ List.concat (blocks p lev c rows).
Proof.
  induction rows as [|r rs IH]; intros lev c acc; simpl; [now rewrite List.app_nil_r|].
  replace (Z.of_nat lev - 1 + 1)%Z with (Z.of_nat lev) by lia. rewrite number_row_eq.
  replace (Z.of_nat lev) with (Z.of_nat (S lev) - 1)%Z at 1 by lia. rewrite IH. now rewrite <- app_assoc.
Qed.

Definition pblocks (p : profile) := blocks p 0 0 (nodes_in_profile p).

Lemma graph_nodes_eq p : graph_nodes p = List.concat (pblocks p).
Proof. unfold graph_nodes. apply (number_rows_eq p _ 0 0 []). Qed.

Lemma map_fst_combine {A B} : forall (a : list A) (b : list B), List.length a = List.length b -> map fst (combine a b) = a.
Proof. induction a; intros [|y b] H; simpl in *; try discriminate; auto. f_equal. apply IHa. lia. Qed.
Lemma map_snd_combine {A B} : forall (a : list A) (b : list B), List.length a = List.length b -> map snd (combine a b) = b.
Proof. induction a; intros [|y b] H; simpl in *; try discriminate; auto. f_equal. apply IHa. lia. Qed.

Lemma blocks_fst p : forall rows lev c, map fst (List.concat (blocks p lev c rows)) = seq c (List.length (List.concat rows)).
Proof.
  induction rows as [|r rs IH]; intros lev c; simpl; auto.
  rewrite map_app, IH, app_length, seq_app, map_fst_combine; auto. now rewrite seq_length, map_length.
Qed.

Lemma blocks_nth p : forall rows lev c i b, nth_error (blocks p lev c rows) i = Some b ->
  exists r, nth_error rows i = Some r /\ map snd b = map (final_node p (Z.of_nat (lev + i))) r.
Proof.
  induction rows as [|r rs IH]; intros lev c [|i] b E; simpl in E; try discriminate.
  - injection E as <-. exists r. rewrite Nat.add_0_r. split; auto. apply map_snd_combine. now rewrite seq_length, map_length.
  - destruct (IH _ _ _ _ E) as (r' & E' & M). exists r'. split; auto. now rewrite Nat.add_succ_r.
Qed.

Lemma blocks_length p : forall rows lev c, List.length (blocks p lev c rows) = List.length rows.
Proof. induction rows; intros; simpl; auto. Qed.

(* ------------------------------------------------------------------ *)
(** ** edges *)

Lemma nget_In {V} (d : list (nat * V)) k v : NoDup (map fst d) -> (nget k d = Some v <-> In (k, v) d).
Proof.
  induction d as [|[j w] d IH]; simpl; intros N; [split; [discriminate|intros []]|]. inversion N; subst.
  destruct (Nat.eqb_spec j k) as [->|NE].
  - split; [intros E; injection E as ->; auto|]. intros [E|I]; [congruence|]. exfalso. apply H1. now apply (in_map fst) in I.
  - rewrite IH by auto. split; auto. intros [E|I]; auto. injection E as -> ->. congruence.
Qed.

Lemma nget_Some {V} (d : list (nat * V)) k : nget k d <> None <-> In k (map fst d).
Proof.
  induction d as [|[j w] d IH]; simpl; [tauto|]. destruct (Nat.eqb_spec j k) as [->|NE].
  - split; auto. intros _. discriminate.
  - rewrite IH. intuition.
Qed.

Lemma zpush_absent k x d : zget k d = None -> zpush k x d = d ++ [(k, [x])].
Proof. induction d as [|[j v] d IH]; simpl; auto. destruct (Z.eqb j k); [discriminate|]. intros E. now rewrite IH. Qed.

Lemma zpush_last k x v d : zget k d = None -> zpush k x (d ++ [(k, v)]) = d ++ [(k, v ++ [x])].
Proof.
  induction d as [|[j w] d IH]; simpl; [now rewrite Z.eqb_refl|]. destruct (Z.eqb j k); [discriminate|].
  intros E. now rewrite IH.
Qed.

Lemma push_block k : forall b d, zget k d = None -> Forall (fun it : nat * cluster => cl_level (snd it) = k) b -> b <> [] ->
  fold_left (fun d it => zpush (cl_level (snd it)) (fst it) d) b d = d ++ [(k, map fst b)].
Proof.
  intros [|[x c] b] d A F N; [congruence|]. inversion F as [|? ? Hc Hb]; subst. simpl in *. rewrite zpush_absent by exact A.
  clear F N.
  assert (G : forall v, fold_left (fun d it => zpush (cl_level (snd it)) (fst it) d) b (d ++ [(cl_level c, v)]) =
     d ++ [(cl_level c, v ++ map fst b)]).
  { induction b as [|[y e] b IH]; intros v; simpl; [now rewrite List.app_nil_r|]. inversion Hb as [|? ? He Hb']; subst. simpl in He.
    rewrite He, zpush_last by exact A. rewrite IH by auto. now rewrite <- app_assoc. }
  apply (G [x]).
Qed.

Fixpoint numbered (i : nat) (B : list (list (nat * cluster))) : list (Z * list nat) :=
  match B with [] => [] | b :: r => (Z.of_nat i, map fst b) :: numbered (S i) r end.

Lemma zget_none_app k d l v : zget k (d ++ [(l, v)]) = None <-> zget k d = None /\ l <> k.
Proof.
  induction d as [|[j w] d IH]; simpl.
  - destruct (Z.eqb_spec l k); split; try discriminate; auto; intros [_ H]; congruence.
  - destruct (Z.eqb j k); [split; [discriminate|intros [H _]; discriminate]|exact IH].
Qed.

Definition well_numbered (i : nat) (B : list (list (nat * cluster))) : Prop :=
  forall j b, nth_error B j = Some b -> b <> [] /\ Forall (fun it => cl_level (snd it) = Z.of_nat (i + j)) b.

Lemma levels_of_blocks : forall B i d, well_numbered i B -> (forall j, i <= j -> zget (Z.of_nat j) d = None) ->
  fold_left (fun d it => zpush (cl_level (snd it)) (fst it) d) (List.concat B) d = d ++ numbered i B.
Proof.
  induction B as [|b B IH]; intros i d W Z; simpl; [now rewrite List.app_nil_r|].
  destruct (W 0 b eq_refl) as [N F]. rewrite Nat.add_0_r in F. rewrite fold_left_app.
  rewrite (push_block (Z.of_nat i) b d); auto. rewrite (IH (S i)).
  - now rewrite <- app_assoc.
  - intros j b' E. rewrite Nat.add_succ_comm. now apply (W (S j)).
  - intros j L. apply zget_none_app. split; [apply Z; lia|lia].
Qed.

Lemma numbered_length : forall B i, List.length (numbered i B) = List.length B.
Proof. induction B; intros; simpl; auto. Qed.

Lemma zget_numbered : forall B i j b, nth_error B j = Some b -> zget (Z.of_nat (i + j)) (numbered i B) = Some (map fst b).
Proof.
  induction B as [|b' B IH]; intros i [|j] b E; simpl in *; try discriminate.
  - injection E as ->. now rewrite Nat.add_0_r, Z.eqb_refl.
  - destruct (Z.eqb_spec (Z.of_nat i) (Z.of_nat (i + S j))); [lia|]. rewrite <- Nat.add_succ_comm. now apply IH.
Qed.

Lemma foldM_flat {A B} (F : list B -> A -> res (list B)) (f : A -> list B) l :
  (forall acc x, In x l -> F acc x = Ok (acc ++ f x)) -> forall acc, foldM F l acc = Ok (acc ++ flat_map f l).
Proof.
  induction l as [|x l IH]; intros H acc; simpl; [now rewrite List.app_nil_r|].
  rewrite H by (simpl; auto). simpl. rewrite IH; [now rewrite app_assoc|]. intros. apply H. simpl. auto.
Qed.

Definition links (nodes : list (nat * cluster)) (a b : nat) : list (nat * nat) :=
  match nget a nodes, nget b nodes with
  | Some ca, Some cb => if share_scenario ca cb then [(a, b)] else []
  | _, _ => []
  end.

Lemma graph_edges_eq B : well_numbered 0 B -> NoDup (map fst (List.concat B)) ->
  graph_edges (List.concat B) = Ok (flat_map (fun i => flat_map (fun a => flat_map (links (List.concat B) a)
     (map fst (nth (S i) B []))) (map fst (nth i B []))) (seq 0 (List.length B - 1))).
Proof.
  intros W ND. unfold graph_edges, nodes_all_levels. rewrite (levels_of_blocks B 0 []); auto. simpl app.
  rewrite numbered_length.
  assert (Z : forall j, j < List.length B -> zfetch (Z.of_nat j) (numbered 0 B) = Ok (map fst (nth j B []))).
  { intros j L. unfold zfetch. pose proof (zget_numbered B 0 j (nth j B [])) as G. simpl Nat.add in G. rewrite G; auto. now apply nth_error_nth'. }
  assert (K : forall j a, j < List.length B -> In a (map fst (nth j B [])) -> exists c, nget a (List.concat B) = Some c).
  { intros j a L I. apply in_map_iff in I as ([a' c] & E & I). simpl in E. subst a'. exists c. apply nget_In; auto.
    apply in_concat. exists (nth j B []). split; auto. now apply nth_In. }
  apply (foldM_flat _ (fun i => flat_map (fun a => flat_map (links (List.concat B) a) (map fst (nth (S i) B []))) (map fst (nth i B [])))).
  intros acc i I. apply in_seq in I. rewrite Z by lia. cbn [rbind].
  apply (foldM_flat _ (fun a => flat_map (links (List.concat B) a) (map fst (nth (S i) B [])))).
  intros acc1 a Ia. rewrite Z by lia. cbn [rbind].
  apply (foldM_flat _ (links (List.concat B) a)).
  intros acc2 b Ib. unfold nfetch, links. destruct (K i a) as (ca & ->); auto; [lia|]. destruct (K (S i) b) as (cb & ->); auto; [lia|].
  simpl. destruct (share_scenario ca cb); auto. now rewrite List.app_nil_r.
Qed.

Lemma share_spec a b : share_scenario a b = true <-> exists s, In s (cl_scenarios a) /\ In s (cl_scenarios b).
Proof.
  unfold share_scenario. rewrite existsb_exists. split; intros (s & I & J); exists s; [apply mem_In in J|rewrite mem_In]; auto.
Qed.

Lemma links_In nodes a b e : In e (links nodes a b) <->
  e = (a, b) /\ exists ca cb, nget a nodes = Some ca /\ nget b nodes = Some cb /\ share_scenario ca cb = true.
Proof.
  unfold links. destruct (nget a nodes) as [ca|]; [|split; [intros []|intros (_ & ca & cb & E & _); discriminate]].
  destruct (nget b nodes) as [cb|]; [|split; [intros []|intros (_ & ca' & cb & _ & E & _); discriminate]].
  destruct (share_scenario ca cb) eqn:E; simpl.
  - split; [intros [<-|[]]; split; eauto|]. intros [-> _]. auto.
  - split; [intros []|]. intros (_ & ca' & cb' & E1 & E2 & E3). injection E1 as ->. injection E2 as ->. congruence.
Qed.

Lemma NoDup_app_l {A} (a b : list A) : NoDup (a ++ b) -> NoDup a.
Proof. induction a as [|x a IH]; simpl; intros N; [constructor|]. inversion N; subst. constructor; auto. rewrite in_app_iff in *. tauto. Qed.
Lemma NoDup_app_r {A} (a b : list A) : NoDup (a ++ b) -> NoDup b.
Proof. induction a as [|x a IH]; simpl; intros N; auto. inversion N; subst. auto. Qed.

Lemma concat_block_nodup {A B} (f : A -> B) (L : list (list A)) b : NoDup (map f (List.concat L)) -> In b L -> NoDup (map f b).
Proof.
  induction L as [|b' L IH]; simpl; [intros _ []|]. rewrite map_app.
  intros N [->|I]; [now apply NoDup_app_l in N|]. apply IH; auto. now apply NoDup_app_r in N.
Qed.

Section Blocks.
Variable B : list (list (nat * cluster)).
Hypothesis W : well_numbered 0 B.
Hypothesis ND : NoDup (map fst (List.concat B)).
Let nodes := List.concat B.
Let E := flat_map (fun i => flat_map (fun a => flat_map (links nodes a)
     (map fst (nth (S i) B []))) (map fst (nth i B []))) (seq 0 (List.length B - 1)).

Lemma block_of a c : In (a, c) nodes -> exists i, i < List.length B /\ In (a, c) (nth i B []) /\ cl_level c = Z.of_nat i.
Proof.
  intros I. apply in_concat in I as (b & Ib & I). apply In_nth_error in Ib as [i Ei].
  exists i. assert (i < List.length B) by (apply nth_error_Some; congruence). rewrite (nth_error_nth _ _ [] Ei).
  sp; auto. destruct (W i b Ei) as [_ F]. rewrite Forall_forall in F. apply (F _ I).
Qed.

Lemma block_level i a c : i < List.length B -> In (a, c) (nth i B []) -> cl_level c = Z.of_nat i /\ In (a, c) nodes.
Proof.
  intros L I. destruct (W i (nth i B [])) as [_ F]; [now apply nth_error_nth'|]. rewrite Forall_forall in F. split; [apply (F _ I)|].
  apply in_concat. exists (nth i B []). split; auto. now apply nth_In.
Qed.

Lemma edges_In a b : In (a, b) E <-> exists ca cb, In (a, ca) nodes /\ In (b, cb) nodes /\
  cl_level cb = (cl_level ca + 1)%Z /\ exists s, In s (cl_scenarios ca) /\ In s (cl_scenarios cb).
Proof.
  unfold E. rewrite in_flat_map. split.
  - intros (i & Ii & I). apply in_seq in Ii. apply in_flat_map in I as (a' & Ia & I). apply in_flat_map in I as (b' & Ib & I).
    apply links_In in I as (Ee & ca & cb & Ga & Gb & Sh). injection Ee as -> ->. apply nget_In in Ga, Gb; auto.
    exists ca, cb. sp; auto; [|now apply share_spec].
    apply in_map_iff in Ia as ([x ca'] & Ex & Ia). apply in_map_iff in Ib as ([y cb'] & Ey & Ib). simpl in *. subst x y.
    destruct (block_level i a' ca') as [La Na]; auto; [lia|]. destruct (block_level (S i) b' cb') as [Lb Nb]; auto; [lia|].
    apply nget_In in Ga, Gb, Na, Nb; auto. assert (ca' = ca) by congruence. assert (cb' = cb) by congruence. subst. lia.
  - intros (ca & cb & Ia & Ib & Lv & Sh). destruct (block_of a ca Ia) as (i & Li & Ja & La).
    destruct (block_of b cb Ib) as (j & Lj & Jb & Lb). assert (j = S i) as -> by lia.
    exists i. split; [apply in_seq; lia|]. apply in_flat_map. exists a. split; [now apply (in_map fst) in Ja|].
    apply in_flat_map. exists b. split; [now apply (in_map fst) in Jb|]. apply links_In. split; auto.
    exists ca, cb. sp; try (apply nget_In; auto; fail). now apply share_spec.
Qed.

Lemma block_nodup i : NoDup (map fst (nth i B [])).
Proof.
  destruct (nth_in_or_default i B []) as [I| ->]; [|constructor]. revert I. apply concat_block_nodup. exact ND.
Qed.

Lemma edges_NoDup : NoDup E.
Proof.
  unfold E. apply flat_map_NoDup; [apply seq_NoDup| |].
  - intros i I. apply in_seq in I. apply flat_map_NoDup; [apply block_nodup| |].
    + intros a Ia. apply flat_map_NoDup; [apply block_nodup| |].
      * intros b Ib. unfold links. destruct (nget a nodes); [|constructor]. destruct (nget b nodes); [|constructor].
        destruct (share_scenario _ _); repeat constructor; auto.
      * intros b b' e _ _ I1 I2. apply links_In in I1 as [-> _]. apply links_In in I2 as [I2 _]. congruence.
    + intros a a' e _ _ I1 I2. apply in_flat_map in I1 as (b & _ & I1). apply in_flat_map in I2 as (b' & _ & I2).
      apply links_In in I1 as [-> _]. apply links_In in I2 as [I2 _]. congruence.
  - intros i j e Ii Ij I1 I2. apply in_seq in Ii, Ij.
    apply in_flat_map in I1 as (a & Ia & I1). apply in_flat_map in I1 as (b & _ & I1). apply links_In in I1 as [-> _].
    apply in_flat_map in I2 as (a' & Ia' & I2). apply in_flat_map in I2 as (b' & _ & I2). apply links_In in I2 as [I2 _].
    injection I2 as <- _. apply in_map_iff in Ia as ([x c] & Ex & Ia). apply in_map_iff in Ia' as ([y c'] & Ey & Ia'). simpl in *. subst x y.
    destruct (block_level i a c) as [L1 N1]; auto; [lia|]. destruct (block_level j a c') as [L2 N2]; auto; [lia|].
    apply nget_In in N1, N2; auto. assert (c = c') by congruence. subst. lia.
Qed.
End Blocks.

(* ------------------------------------------------------------------ *)
(** ** the scenario graph of a rectangular profile *)

Definition rectangular (p : profile) (w : nat) : Prop := Forall (fun r => List.length r = w) (pr_rows p).

Lemma distinct_nonempty row : row <> [] -> distinct row <> [].
Proof.
  destruct row as [|v row]; [congruence|]. intros _ H. destruct (distinct_covers (v :: row) v) as (w & I & _); [simpl; auto|].
  rewrite H in I. destruct I.
Qed.

Lemma pblocks_row p i b : nth_error (pblocks p) i = Some b -> exists row, nth_error (pr_rows p) i = Some row /\
  map snd b = map (fun v => final_node p (Z.of_nat i) (cluster_for row v)) (distinct row).
Proof.
  intros E. destruct (blocks_nth _ _ _ _ _ _ E) as (r & Er & M). unfold nodes_in_profile in Er. rewrite nth_error_map in Er.
  destruct (nth_error (pr_rows p) i) as [row|]; [|discriminate]. injection Er as <-. exists row. split; auto.
  rewrite row_nodes_eq, map_map in M. exact M.
Qed.

Lemma pblocks_length p : List.length (pblocks p) = List.length (pr_rows p).
Proof. unfold pblocks. rewrite blocks_length. unfold nodes_in_profile. now rewrite map_length. Qed.

Lemma pblocks_numbered p w : rectangular p w -> 0 < w -> well_numbered 0 (pblocks p).
Proof.
  intros R Lw i b E. destruct (pblocks_row p i b E) as (row & Er & M). split.
  - intros ->. simpl in M. symmetry in M. apply map_eq_nil in M. revert M. apply distinct_nonempty. intros ->.
    apply nth_error_In in Er. unfold rectangular in R. rewrite Forall_forall in R. specialize (R _ Er). simpl in R. lia.
  - apply Forall_forall. intros [a c] I. apply (in_map snd) in I. rewrite M in I. apply in_map_iff in I as (v & Ev & _). simpl in *. now subst c.
Qed.

Lemma pblocks_NoDup p : NoDup (map fst (List.concat (pblocks p))).
Proof. unfold pblocks. rewrite blocks_fst. apply seq_NoDup. Qed.

(** A node of stage [i] of the profile. *)
Lemma graph_nodes_In p a c : In (a, c) (graph_nodes p) -> exists i row v, nth_error (pr_rows p) i = Some row /\
  In v (distinct row) /\ c = final_node p (Z.of_nat i) (cluster_for row v).
Proof.
  rewrite graph_nodes_eq. intros I. apply in_concat in I as (b & Ib & I). apply In_nth_error in Ib as [i Ei].
  destruct (pblocks_row p i b Ei) as (row & Er & M). apply (in_map snd) in I. rewrite M in I. apply in_map_iff in I as (v & Ev & I).
  exists i, row, v. auto.
Qed.

Lemma node_of p i row s x : nth_error (pr_rows p) i = Some row -> cell row s = Some x ->
  exists n c, In (n, c) (graph_nodes p) /\ cl_level c = Z.of_nat i /\ In s (cl_scenarios c).
Proof.
  intros Er Ec. assert (Li : i < List.length (pblocks p)) by (rewrite pblocks_length; apply nth_error_Some; congruence).
  destruct (nth_error (pblocks p) i) as [b|] eqn:Eb; [|apply nth_error_None in Eb; lia].
  destruct (pblocks_row p i b Eb) as (row' & Er' & M). assert (row' = row) as -> by congruence.
  destruct (distinct_covers row x) as (v & Iv & Ev); [eapply nth_error_In; exact Ec|].
  assert (In (final_node p (Z.of_nat i) (cluster_for row v)) (map snd b)) as I.
  { rewrite M. now apply (in_map (fun v => final_node p (Z.of_nat i) (cluster_for row v))). }
  apply in_map_iff in I as ([n c] & Ecc & I). simpl in Ecc. subst c. exists n, (final_node p (Z.of_nat i) (cluster_for row v)).
  sp; auto.
  - rewrite graph_nodes_eq. apply in_concat. exists b. split; auto. eapply nth_error_In; eauto.
  - simpl. apply with_value_spec. exists x. split; auto. now symmetry.
Qed.

Lemma nodup_map_nth {A B} (f : A -> B) l i j x y : NoDup (map f l) -> nth_error l i = Some x -> nth_error l j = Some y -> f x = f y -> i = j.
Proof.
  intros N E1 E2 H. rewrite NoDup_nth_error in N. apply N.
  - rewrite map_length. apply nth_error_Some. congruence.
  - rewrite !nth_error_map, E1, E2. simpl. now f_equal.
Qed.

(** One node per scenario and stage. *)
Lemma node_unique p n c n' c' s : In (n, c) (graph_nodes p) -> In (n', c') (graph_nodes p) ->
  cl_level c = cl_level c' -> In s (cl_scenarios c) -> In s (cl_scenarios c') -> n = n'.
Proof.
  rewrite graph_nodes_eq. intros I I' L S S'.
  apply in_concat in I as (b & Ib & I). apply In_nth_error in Ib as [i Ei].
  apply in_concat in I' as (b' & Ib' & I'). apply In_nth_error in Ib' as [i' Ei'].
  destruct (pblocks_row p i b Ei) as (row & Er & M). destruct (pblocks_row p i' b' Ei') as (row' & Er' & M').
  apply In_nth_error in I as [j Ej]. apply In_nth_error in I' as [j' Ej'].
  assert (C : nth_error (map snd b) j = Some c) by (rewrite nth_error_map, Ej; reflexivity).
  assert (C' : nth_error (map snd b') j' = Some c') by (rewrite nth_error_map, Ej'; reflexivity).
  rewrite M, nth_error_map in C. rewrite M', nth_error_map in C'.
  destruct (nth_error (distinct row) j) as [v|] eqn:Ev; [|discriminate]. destruct (nth_error (distinct row') j') as [v'|] eqn:Ev'; [|discriminate].
  injection C as <-. injection C' as <-. simpl in L. assert (i' = i) as -> by lia.
  assert (row' = row) as -> by congruence. assert (b' = b) as -> by congruence.
  simpl in S, S'. apply with_value_spec in S as (x & E1 & Q1). apply with_value_spec in S' as (x' & E2 & Q2).
  assert (x' = x) as -> by congruence. assert (j = j') as ->.
  { eapply apart_eq; eauto using distinct_apart. now rewrite <- Q1. }
  rewrite Ej in Ej'. injection Ej' as ->. reflexivity.
Qed.

Lemma profile_edges p w : rectangular p w -> exists E, graph_edges (graph_nodes p) = Ok E /\ NoDup E /\
  (forall a b, In (a, b) E <-> exists ca cb, In (a, ca) (graph_nodes p) /\ In (b, cb) (graph_nodes p) /\
    cl_level cb = (cl_level ca + 1)%Z /\ exists s, In s (cl_scenarios ca) /\ In s (cl_scenarios cb)) /\
  (forall l, pr_rows p <> [] -> Forall (fun v => (v == hd 0%Q l)%Q) l -> hd_error (pr_rows p) = Some l -> 0 < w ->
     forall a b r, E = (a, b) :: r -> a = 0).
Proof.
  intros R. destruct (Nat.eq_dec w 0) as [->|Lw].
  - assert (graph_nodes p = []) as ->.
    { destruct (graph_nodes p) as [|[a c] l] eqn:En; auto. destruct (graph_nodes_In p a c) as (i & row & v & Er & I & _); [rewrite En; simpl; auto|].
      unfold rectangular in R. rewrite Forall_forall in R. specialize (R row (nth_error_In _ _ Er)). destruct row; [destruct I|discriminate]. }
    exists []. sp; [reflexivity|constructor| |intros; lia]. intros a b. split; [intros []|]. intros (ca & cb & [] & _).
  - rewrite graph_nodes_eq. assert (0 < w) as L by lia. pose proof (pblocks_numbered p w R L) as WN. pose proof (pblocks_NoDup p) as ND.
    eexists. split; [apply graph_edges_eq; auto|]. split; [now apply edges_NoDup|]. split; [intros a b; now apply edges_In|].
    intros l NE F Hd _ a b r Ee.
    assert (I : In (a, b) ((a, b) :: r)) by (simpl; auto). 
    assert (Z0 : map fst (nth 0 (pblocks p) []) = [0]).
    { pose proof R as R'. unfold rectangular in R'. unfold pblocks, nodes_in_profile. destruct (pr_rows p) as [|row rows]; [congruence|]. injection Hd as ->. simpl.
      rewrite row_nodes_eq, map_length, map_fst_combine by (now rewrite seq_length, !map_length).
      replace (distinct l) with [hd 0%Q l]; [reflexivity|].
      destruct l as [|v l]; [inversion R' as [|? ? Hw ?]; subst; simpl in *; lia|]. simpl hd in *.
      assert (G : forall m, Forall (fun x => (x == v)%Q) m -> distinct (v :: m) = [v]).
      { induction m as [|x m IH] using rev_ind; intros Fm; [reflexivity|]. apply Forall_app in Fm as [Fm Fx].
        rewrite app_comm_cons, distinct_app, IH by auto. simpl. inversion Fx; subst.
        assert (Qeq_bool v x = true) as -> by (apply Qeq_bool_iff; now symmetry). reflexivity. }
      symmetry. apply G. now inversion F. }
    (* the first edge leaves a node of the lowest stage that has edges *)
    assert (P0 : List.length (pblocks p) = List.length (pr_rows p)) by apply pblocks_length.
    destruct (List.length (pblocks p) - 1) as [|m] eqn:Em; [discriminate Ee|].
    simpl seq in Ee. simpl flat_map in Ee. rewrite Z0 in Ee. simpl in Ee.
    rewrite List.app_nil_r in Ee.
    set (F0 := flat_map (links (List.concat (pblocks p)) 0) (map fst (nth 1 (pblocks p) []))) in *.
    destruct F0 as [|[x y] F1] eqn:EF.
    + exfalso.
      destruct (nth_error (pblocks p) 1) as [b1|] eqn:E1; [|apply nth_error_None in E1; lia].
      destruct (WN 1 b1 E1) as [N1 _]. destruct b1 as [|[y cy] b1]; [congruence|].
      assert (Iy : In (y, cy) (graph_nodes p)).
      { rewrite graph_nodes_eq. apply in_concat. exists ((y, cy) :: b1). split; [eapply nth_error_In; eauto|simpl; auto]. }
      destruct (graph_nodes_In p y cy Iy) as (i1 & row1 & v1 & Er1 & Iv1 & Ecy).
      assert (exists s x, cell row1 s = Some x /\ In s (cl_scenarios cy)) as (s & x & Ex & Is).
      { pose proof (distinct_incl _ _ Iv1) as J. apply In_nth_error in J as [s Es]. exists s, v1. split; auto.
        rewrite Ecy. simpl. apply with_value_spec. exists v1. split; auto. reflexivity. }
      assert (Ls : s < w).
      { unfold rectangular in R. rewrite Forall_forall in R. rewrite <- (R row1 (nth_error_In _ _ Er1)). apply nth_error_Some. unfold cell in Ex. congruence. }
      assert (E0 : nth_error (pr_rows p) 0 = Some l) by (destruct (pr_rows p); [congruence|exact Hd]).
      destruct (nth_error l s) as [x0|] eqn:Ex0.
      2:{ apply nth_error_None in Ex0. unfold rectangular in R. rewrite Forall_forall in R. rewrite (R l (nth_error_In _ _ E0)) in Ex0. lia. }
      destruct (node_of p 0 l s x0 E0 Ex0) as (n0 & c0 & I0 & L0 & S0).
      assert (n0 = 0) as ->.
      { destruct (block_of (pblocks p) WN n0 c0) as (i & Li & Ji & Lv); [now rewrite <- graph_nodes_eq|].
        assert (i = 0) as -> by lia. apply (in_map fst) in Ji. rewrite Z0 in Ji. destruct Ji as [Ji|[]]. simpl in Ji. now symmetry. }
      assert (In (0, y) F0) as J; [|rewrite EF in J; destruct J].
      apply in_flat_map. exists y. split; [rewrite (nth_error_nth _ _ [] E1); simpl; auto|]. apply links_In. split; auto.
      exists c0, cy. rewrite graph_nodes_eq in I0, Iy. sp; try (apply nget_In; auto; fail). apply share_spec. eauto.
    + rewrite <- EF in Ee. assert (In (x, y) F0) as J by (rewrite EF; simpl; auto).
      rewrite EF in Ee. simpl in Ee. injection Ee as <- <- _. unfold F0 in J. apply in_flat_map in J as (z & _ & J). apply links_In in J as [J _]. congruence.
Qed.

(* ------------------------------------------------------------------ *)
(** ** the scenario graph is staged *)

Definition build (E : list (nat * nat)) (g : digraph) : digraph := fold_left (fun g e => add_edge (fst e) (snd e) g) E g.

Lemma build_edges : forall E g, NoDup (g_edges g ++ E) -> g_edges (build E g) = g_edges g ++ E.
Proof.
  induction E as [|[a b] E IH]; intros g N; simpl; [now rewrite List.app_nil_r|].
  assert (X : ~ In (a, b) (g_edges g)). { apply NoDup_remove_2 in N. rewrite in_app_iff in N. tauto. }
  assert (Y : g_edges (add_edge a b g) = g_edges g ++ [(a, b)]) by now apply add_edge_edges_new.
  rewrite IH; rewrite Y, <- app_assoc; auto.
Qed.

Lemma build_nodes : forall E g n, In n (g_nodes (build E g)) <-> In n (g_nodes g) \/ exists a b, In (a, b) E /\ (n = a \/ n = b).
Proof.
  induction E as [|[a b] E IH]; intros g n; simpl.
  - split; auto. intros [H|(a & b & [] & _)]; auto.
  - rewrite IH, add_edge_nodes. split.
    + intros [[->|[->|H]]|(x & y & I & H)]; auto; right; [exists a, b|exists a, b|exists x, y]; auto.
    + intros [H|(x & y & [E1|I] & H)]; auto.
      * injection E1 as -> ->. destruct H as [->| ->]; auto.
      * right. exists x, y. auto.
Qed.

Lemma build_NoDup : forall E g, NoDup (g_nodes g) -> NoDup (g_nodes (build E g)).
Proof. induction E as [|[a b] E IH]; intros g N; simpl; auto. apply IH. now apply add_edge_nodes_NoDup. Qed.

Lemma build_hd : forall E g x, hd_error (g_nodes g) = Some x -> hd_error (g_nodes (build E g)) = Some x.
Proof.
  induction E as [|[a b] E IH]; intros g x H; simpl; auto. apply IH. unfold add_edge, add_node. simpl.
  now apply set_add_hd, set_add_hd.
Qed.

Definition stage_of (nodes : list (nat * cluster)) (n : nat) : nat :=
  match nget n nodes with Some c => Z.to_nat (cl_level c) | None => 0 end.

Lemma graph_nodes_keys p : NoDup (map fst (graph_nodes p)).
Proof. rewrite graph_nodes_eq. apply pblocks_NoDup. Qed.

Lemma graph_nodes_scenario p n c : In (n, c) (graph_nodes p) -> exists i row s x, cl_level c = Z.of_nat i /\
  nth_error (pr_rows p) i = Some row /\ In s (cl_scenarios c) /\ cell row s = Some x.
Proof.
  intros I. destruct (graph_nodes_In p n c I) as (i & row & v & Er & Iv & ->). apply distinct_incl in Iv as J.
  apply In_nth_error in J as [s Es]. exists i, row, s, v. sp; auto. simpl. apply with_value_spec. exists v. split; [exact Es|reflexivity].
Qed.

Lemma rect_cell p w i row s : rectangular p w -> nth_error (pr_rows p) i = Some row -> (exists x, cell row s = Some x) <-> s < w.
Proof.
  intros R E. unfold rectangular in R. rewrite Forall_forall in R. rewrite <- (R row (nth_error_In _ _ E)). unfold cell.
  rewrite <- nth_error_Some. destruct (nth_error row s); split; try congruence; eauto. intros (x & H). discriminate.
Qed.

Theorem create_graph_staged p w l : rectangular p w -> 0 < w -> 2 <= List.length (pr_rows p) ->
  hd_error (pr_rows p) = Some l -> Forall (fun v => (v == hd 0%Q l)%Q) l ->
  exists g, create_graph p = Ok (g, graph_nodes p) /\
    staged g 0 (stage_of (graph_nodes p)) (List.length (pr_rows p) - 1) /\
    (forall n, In n (g_nodes g) <-> In n (map fst (graph_nodes p))) /\
    (forall a b, In (a, b) (g_edges g) <-> exists ca cb, In (a, ca) (graph_nodes p) /\ In (b, cb) (graph_nodes p) /\
      cl_level cb = (cl_level ca + 1)%Z /\ exists s, In s (cl_scenarios ca) /\ In s (cl_scenarios cb)).
Proof.
  intros R Lw L2 Hd F. destruct (profile_edges p w R) as (E & EE & ND & EI & E0).
  unfold create_graph. rewrite EE. simpl rbind. fold (build E empty_graph).
  assert (Eg : g_edges (build E empty_graph) = E) by (rewrite build_edges; simpl; auto).
  pose proof (graph_nodes_keys p) as NK.
  assert (ST : forall n c, In (n, c) (graph_nodes p) -> stage_of (graph_nodes p) n = Z.to_nat (cl_level c)).
  { intros n c I. unfold stage_of. apply nget_In in I; auto. now rewrite I. }
  assert (UP : forall n c, In (n, c) (graph_nodes p) -> Z.to_nat (cl_level c) < List.length (pr_rows p) - 1 -> exists b, In (n, b) E).
  { intros n c I L. destruct (graph_nodes_scenario p n c I) as (i & row & s & x & Lv & Er & Is & Ex).
    destruct (nth_error (pr_rows p) (S i)) as [row'|] eqn:Er'; [|apply nth_error_None in Er'; lia].
    destruct (proj2 (rect_cell p w (S i) row' s R Er')) as [y Ey]. { apply (rect_cell p w i row s R Er). eauto. }
    destruct (node_of p (S i) row' s y Er' Ey) as (m & c' & I' & Lv' & Is'). exists m. apply EI. exists c, c'. sp; auto; [lia|eauto]. }
  assert (DOWN : forall n c, In (n, c) (graph_nodes p) -> (0 < cl_level c)%Z -> exists a, In (a, n) E).
  { intros n c I L. destruct (graph_nodes_scenario p n c I) as (i & row & s & x & Lv & Er & Is & Ex).
    destruct i as [|i]; [lia|]. destruct (nth_error (pr_rows p) i) as [row'|] eqn:Er'.
    2:{ apply nth_error_None in Er'. assert (S i < List.length (pr_rows p)) by (apply nth_error_Some; congruence). lia. }
    destruct (proj2 (rect_cell p w i row' s R Er')) as [y Ey]. { apply (rect_cell p w (S i) row s R Er). eauto. }
    destruct (node_of p i row' s y Er' Ey) as (m & c' & I' & Lv' & Is'). exists m. apply EI. exists c', c. sp; auto; [lia|eauto]. }
  assert (LVB : forall n c, In (n, c) (graph_nodes p) -> (0 <= cl_level c)%Z /\ Z.to_nat (cl_level c) < List.length (pr_rows p)).
  { intros n c I. destruct (graph_nodes_scenario p n c I) as (i & row & s & x & Lv & Er & _).
    assert (i < List.length (pr_rows p)) by (apply nth_error_Some; congruence). lia. }
  assert (NI : forall n, In n (g_nodes (build E empty_graph)) <-> In n (map fst (graph_nodes p))).
  { intros n. rewrite build_nodes. simpl. split.
    - intros [[]|(a & b & I & [->| ->])]; apply EI in I as (ca & cb & Ia & Ib & _); [now apply (in_map fst) in Ia|now apply (in_map fst) in Ib].
    - intros I. right. apply in_map_iff in I as ([n' c] & En & I). simpl in En. subst n'.
      destruct (LVB n c I) as [L0 L1]. destruct (Z.eq_dec (cl_level c) 0) as [Z0|Z0].
      + destruct (UP n c I) as [b Ib]; [lia|]. exists n, b. auto.
      + destruct (DOWN n c I) as [a Ia]; [lia|]. exists a, n. auto. }
  assert (Fst0 : forall n c, In (n, c) (graph_nodes p) -> cl_level c = 0%Z -> n = 0).
  { intros n c I L0.
    assert (E00 : nth_error (pr_rows p) 0 = Some l) by (destruct (pr_rows p); [discriminate|exact Hd]).
    assert (Z : exists c0, In (0, c0) (graph_nodes p) /\ cl_level c0 = 0%Z /\ cl_scenarios c0 = with_value l (hd 0%Q l)).
    { unfold graph_nodes, nodes_in_profile. destruct (pr_rows p) as [|r0 rs] eqn:Er; [discriminate|]. injection Hd as ->.
      pose proof (graph_nodes_eq p) as G. unfold graph_nodes, nodes_in_profile in G. rewrite Er in G. simpl map in *. rewrite G.
      unfold pblocks, nodes_in_profile. rewrite Er. simpl blocks. 
      assert (exists v vs, distinct l = v :: vs /\ v = hd 0%Q l) as (v & vs & Ev & Eh).
      { destruct l as [|v l']; [unfold rectangular in R; rewrite Er in R; inversion R; simpl in *; lia|].
        simpl. clear. induction l' as [|x l' IH] using rev_ind; [exists v, []; auto|].
        rewrite app_comm_cons, distinct_app. destruct IH as (u & vs & -> & ->). destruct (existsb _ _); [exists v, vs|exists v, (vs ++ [x])]; auto. }
      rewrite row_nodes_eq, Ev. simpl. exists (final_node p 0 (cluster_for l v)). sp; auto. simpl. now rewrite Eh. }
    destruct Z as (c0 & I0 & Lc0 & Sc0). destruct (graph_nodes_scenario p n c I) as (i & row & s & x & Lv & Er & Is & Ex).
    assert (i = 0) as -> by lia. assert (row = l) as -> by congruence.
    apply (node_unique p n c 0 c0 s); auto; [lia|]. rewrite Sc0. apply with_value_spec. exists x. split; auto.
    rewrite Forall_forall in F. apply F. eapply nth_error_In; exact Ex. }
  exists (build E empty_graph). sp; auto; [|intros a b; rewrite Eg; apply EI].
  split.
  - destruct E as [|[a b] E'] eqn:Ee.
    + exfalso. assert (E00 : nth_error (pr_rows p) 0 = Some l) by (destruct (pr_rows p); [discriminate|exact Hd]).
      destruct (proj2 (rect_cell p w 0 l 0 R E00) Lw) as [x Ex]. destruct (node_of p 0 l 0 x E00 Ex) as (n & c & I & Lv & _).
      destruct (UP n c I) as [b []]. lia.
    + assert (a = 0) as -> by (apply (E0 l) with (b := b) (r := E'); auto; intros H; rewrite H in Hd; discriminate).
      simpl. apply build_hd. unfold add_edge, add_node. simpl. apply set_add_hd. reflexivity.
  - apply build_NoDup. constructor.
  - now rewrite Eg.
  - intros a b. rewrite Eg, !NI. intros I. apply EI in I as (ca & cb & Ia & Ib & _).
    split; [now apply (in_map fst) in Ia|now apply (in_map fst) in Ib].
  - intros a b. rewrite Eg. intros I. apply EI in I as (ca & cb & Ia & Ib & Lv & _). rewrite (ST a ca), (ST b cb); auto.
    destruct (LVB a ca Ia). lia.
  - intros n. rewrite NI. intros I. apply in_map_iff in I as ([n' c] & En & I). simpl in En. subst n'. rewrite (ST n c I).
    destruct (LVB n c I). lia.
  - intros n. rewrite NI. intros I. apply in_map_iff in I as ([n' c] & En & I). simpl in En. subst n'. rewrite (ST n c I).
    destruct (LVB n c I) as [L0 L1]. split.
    + intros Z0. apply (Fst0 n c I). lia.
    + intros ->. destruct (Z.eq_dec (cl_level c) 0) as [->|NZ]; auto. exfalso.
      assert (E00 : nth_error (pr_rows p) 0 = Some l) by (destruct (pr_rows p); [discriminate|exact Hd]).
      destruct (proj2 (rect_cell p w 0 l 0 R E00) Lw) as [x Ex]. destruct (node_of p 0 l 0 x E00 Ex) as (m & c' & I' & Lv & _).
      assert (m = 0) as -> by (apply (Fst0 m c' I'); lia). apply nget_In in I, I'; auto. assert (c = c') by congruence. subst c'. lia.
  - intros n. rewrite NI, Eg. intros I NR. apply in_map_iff in I as ([n' c] & En & I). simpl in En. subst n'.
    apply (DOWN n c I). destruct (LVB n c I) as [L0 L1]. destruct (Z.eq_dec (cl_level c) 0) as [Z0|]; [|lia].
    exfalso. apply NR. now apply (Fst0 n c I).
  - intros n. rewrite NI, Eg. intros I L. apply in_map_iff in I as ([n' c] & En & I). simpl in En. subst n'. rewrite (ST n c I) in L. eauto.
Qed.

(** A scenario runs through one node per stage. *)
Lemma scenario_path p w s E : rectangular p w -> graph_edges (graph_nodes p) = Ok E -> s < w ->
  exists ns, List.length ns = List.length (pr_rows p) /\ walk (mkG [] E) ns /\
  forall i n, nth_error ns i = Some n <-> exists c, In (n, c) (graph_nodes p) /\ cl_level c = Z.of_nat i /\ In s (cl_scenarios c).
Proof.
  intros R EE Ls. destruct (profile_edges p w R) as (E' & EE' & _ & EI & _). assert (E' = E) as -> by congruence.
  assert (G : forall k, k <= List.length (pr_rows p) -> exists ns, List.length ns = k /\
     forall i, i < k -> exists n c, nth_error ns i = Some n /\ In (n, c) (graph_nodes p) /\ cl_level c = Z.of_nat i /\ In s (cl_scenarios c)).
  { induction k as [|k IH]; intros Lk; [exists []; split; [reflexivity|intros; lia]|].
    destruct IH as (ns & Ln & H); [lia|]. destruct (nth_error (pr_rows p) k) as [row|] eqn:Er; [|apply nth_error_None in Er; lia].
    destruct (proj2 (rect_cell p w k row s R Er) Ls) as [x Ex]. destruct (node_of p k row s x Er Ex) as (n & c & I & Lv & Is).
    exists (ns ++ [n]). rewrite app_length. simpl. split; [lia|]. intros i Li. destruct (Nat.eq_dec i k) as [->|NE].
    - exists n, c. rewrite nth_error_app2, Ln, Nat.sub_diag by lia. auto.
    - destruct (H i) as (m & e & Em & Rest); [lia|]. exists m, e. rewrite nth_error_app1 by lia. auto. }
  destruct (G (List.length (pr_rows p)) (le_n _)) as (ns & Ln & H). exists ns. split; auto.
  assert (NTH : forall i n, nth_error ns i = Some n <-> exists c, In (n, c) (graph_nodes p) /\ cl_level c = Z.of_nat i /\ In s (cl_scenarios c)).
  { intros i n. split.
    - intros En. destruct (H i) as (m & c & Em & Rest); [rewrite <- Ln; apply nth_error_Some; congruence|].
      assert (m = n) as -> by congruence. eauto.
    - intros (c & I & Lv & Is). destruct (graph_nodes_scenario p n c I) as (j & row & s' & x & Lv' & Er & _).
      assert (j = i) as -> by lia. assert (Li : i < List.length (pr_rows p)) by (apply nth_error_Some; congruence).
      destruct (H i Li) as (m & c' & Em & I' & Lv'' & Is'). rewrite Em. f_equal. apply (node_unique p m c' n c s); auto. lia. }
  split; auto.
  assert (WK : forall ms i, (forall j m, nth_error ms j = Some m -> nth_error ns (i + j) = Some m) -> walk (mkG [] E) ms).
  { induction ms as [|a ms IH]; intros i Hm; [exact I|]. destruct ms as [|b ms]; [exact I|]. split.
    - simpl. apply EI. pose proof (Hm 0 a eq_refl) as Ha. pose proof (Hm 1 b eq_refl) as Hb.
      apply NTH in Ha as (ca & Ia & La & Sa). apply NTH in Hb as (cb & Ib & Lb & Sb). exists ca, cb. sp; auto; [lia|eauto].
    - apply (IH (S i)). intros j m Ej. rewrite Nat.add_succ_comm. now apply (Hm (S j)). }
  apply (WK ns 0). auto.
Qed.
