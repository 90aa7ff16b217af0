(** The main invariant of the planner search. *)
From Coq Require Import List String Bool ZArith QArith Arith Lia Permutation.
From Verif Require Import Base Container ContainerSpec ContainerProofs Planner PlannerSpec PlannerRows.
Import ListNotations.
Open Scope nat_scope.
Open Scope list_scope.

(* ------------------------------------------------------------------ *)
(** ** total correctness of monadic code *)

Definition ok {A} (m : M A) (s : info) (Q : A -> info -> Prop) : Prop :=
  exists a s', m s = Ok (a, s') /\ Q a s'.

Lemma ok_ret {A} (a : A) s (Q : A -> info -> Prop) : Q a s -> ok (ret a) s Q.
Proof. intros H. exists a, s. auto. Qed.

Lemma ok_bind {A B} (m : M A) (k : A -> M B) s (Q : B -> info -> Prop) :
  ok m s (fun a s' => ok (k a) s' Q) -> ok (bind m k) s Q.
Proof.
  intros (a & s' & E & b & s'' & E' & H). exists b, s''. split; auto. unfold bind. now rewrite E.
Qed.

Lemma ok_get_bind {B} (k : info -> M B) s Q : ok (k s) s Q -> ok (bind get k) s Q.
Proof. intros H. apply ok_bind. exists s, s. auto. Qed.

Lemma ok_modify_bind {B} f (k : unit -> M B) s Q : ok (k tt) (f s) Q -> ok (bind (modify f) k) s Q.
Proof. intros H. apply ok_bind. exists tt, (f s). auto. Qed.

Lemma ok_modify f s (Q : unit -> info -> Prop) : Q tt (f s) -> ok (modify f) s Q.
Proof. intros H. exists tt, (f s). auto. Qed.

Lemma ok_lift_bind {A B} (r : res A) a (k : A -> M B) s Q :
  r = Ok a -> ok (k a) s Q -> ok (bind (lift r) k) s Q.
Proof. intros -> H. apply ok_bind. exists a, s. auto. Qed.

Lemma ok_conseq {A} (m : M A) s (Q Q' : A -> info -> Prop) :
  ok m s Q -> (forall a s', Q a s' -> Q' a s') -> ok m s Q'.
Proof. intros (a & s' & E & H) I. exists a, s'. auto. Qed.

Lemma ok_for_each {A} (body : A -> M unit) (I : info -> Prop) l : forall s,
  I s -> (forall a s, In a l -> I s -> ok (body a) s (fun _ s' => I s')) ->
  ok (for_each l body) s (fun _ s' => I s').
Proof.
  induction l as [|a l IH]; intros s H B; simpl.
  - now apply ok_ret.
  - apply ok_bind. eapply ok_conseq; [apply B; simpl; auto|].
    intros ? s' H'. apply IH; auto. intros. apply B; simpl; auto.
Qed.

Lemma ok_for_acc {A B} (body : B -> A -> M B) (I : info -> Prop) l : forall b s,
  I s -> (forall a b s, In a l -> I s -> ok (body b a) s (fun _ s' => I s')) ->
  ok (for_acc l b body) s (fun _ s' => I s').
Proof.
  induction l as [|a l IH]; intros b s H Bo; simpl.
  - now apply ok_ret.
  - apply ok_bind. eapply ok_conseq; [apply Bo; simpl; auto|].
    intros b' s' H'. apply IH; auto. intros. apply Bo; simpl; auto.
Qed.

Lemma ok_for_acc_val {A B} (body : B -> A -> M B) (I : B -> info -> Prop) l : forall b s,
  I b s -> (forall a b s, In a l -> I b s -> ok (body b a) s I) -> ok (for_acc l b body) s I.
Proof.
  induction l as [|a l IH]; intros b s H Bo; simpl.
  - now apply ok_ret.
  - apply ok_bind. eapply ok_conseq; [apply Bo; simpl; auto|].
    intros b' s' H'. apply IH; auto. intros. apply Bo; simpl; auto.
Qed.

(* ------------------------------------------------------------------ *)
(** ** numbered lists *)

Lemma str_Z_nat n : str_Z (Z.of_nat n) = str_nat n.
Proof.
  unfold str_Z. destruct (Z.ltb_spec (Z.of_nat n) 0); [lia|]. now rewrite Nat2Z.id.
Qed.

Section Numbered.
Context {V : Type}.
Implicit Types l : list V.

Lemma path_of_app_one l x : path_of (l ++ [x]) = l_append (str_nat (List.length l)) x (path_of l).
Proof. unfold l_append. apply path_of_snoc. Qed.

Lemma path_of_map_snd l : map snd (path_of l) = l.
Proof.
  induction l as [|x l IH] using rev_ind; auto.
  rewrite path_of_app_one. unfold l_append. rewrite map_app, IH. reflexivity.
Qed.

Lemma path_of_keys l : map fst (path_of l) = map str_nat (seq 0 (List.length l)).
Proof.
  induction l as [|x l IH] using rev_ind; auto.
  rewrite path_of_app_one. unfold l_append. rewrite map_app, IH, app_length. simpl.
  rewrite Nat.add_1_r, seq_S, map_app. reflexivity.
Qed.

Lemma path_of_len l : List.length (path_of l) = List.length l.
Proof. rewrite <- (map_length snd), path_of_map_snd. reflexivity. Qed.

Lemma path_of_get_absent l n : List.length l <= n -> l_get (str_nat n) (path_of l) = None.
Proof.
  intros H. apply l_get_None. unfold keys. rewrite path_of_keys. intros I. apply in_map_iff in I as (m & E & I).
  apply str_nat_inj in E. apply in_seq in I. lia.
Qed.

Lemma path_of_get l x r : l_get (str_nat (List.length l)) (path_of (l ++ x :: r)) = Some x.
Proof.
  induction r as [|y r IH] using rev_ind.
  - rewrite path_of_app_one. unfold l_append. rewrite l_get_app, path_of_get_absent by lia.
    simpl. now rewrite String.eqb_refl.
  - replace (l ++ x :: r ++ [y]) with ((l ++ x :: r) ++ [y]) by (rewrite <- app_assoc; reflexivity).
    rewrite path_of_app_one. unfold l_append. now rewrite l_get_app, IH.
Qed.

Lemma path_of_set l x y r :
  l_set (str_nat (List.length l)) y (path_of (l ++ x :: r)) = path_of (l ++ y :: r).
Proof.
  assert (SA : forall k v (a b : list (string * V)), l_set k v (a ++ b) = l_set k v a ++ l_set k v b).
  { intros k v a b. induction a as [|[p q] a IH]; simpl; auto. now rewrite IH. }
  induction r as [|z r IH] using rev_ind.
  - rewrite !path_of_app_one. unfold l_append. rewrite SA. simpl. rewrite String.eqb_refl.
    rewrite l_set_absent; auto. apply l_get_None. apply path_of_get_absent. lia.
  - replace (l ++ x :: r ++ [z]) with ((l ++ x :: r) ++ [z]) by (rewrite <- app_assoc; reflexivity).
    replace (l ++ y :: r ++ [z]) with ((l ++ y :: r) ++ [z]) by (rewrite <- app_assoc; reflexivity).
    rewrite !path_of_app_one. unfold l_append. rewrite SA, IH. rewrite !app_length. simpl.
    rewrite str_nat_eqb. destruct (Nat.eqb_spec (List.length l + S (List.length r)) (List.length l)); [lia|reflexivity].
Qed.

Lemma path_of_pop l x : l_pop (str_nat (List.length l)) (path_of (l ++ [x])) = Ok (x, path_of l).
Proof. rewrite path_of_app_one. apply l_pop_append. Qed.
End Numbered.

Lemma path_of_map {A B} (f : A -> B) l : path_of (map f l) = vmap f (path_of l).
Proof.
  induction l as [|x l IH] using rev_ind; auto.
  rewrite map_app. simpl. rewrite !path_of_app_one, IH, map_length. apply l_append_vmap.
Qed.

(* ------------------------------------------------------------------ *)
(** ** sub-sequences and combinations *)

Inductive subseq {A} : list A -> list A -> Prop :=
| sub_nil : subseq [] []
| sub_skip x a b : subseq a b -> subseq a (x :: b)
| sub_take x a b : subseq a b -> subseq (x :: a) (x :: b).

Lemma subseq_nil {A} (l : list A) : subseq [] l.
Proof. induction l; constructor; auto. Qed.

Lemma subseq_refl {A} (l : list A) : subseq l l.
Proof. induction l; [constructor|apply sub_take; auto]. Qed.

Lemma subseq_incl {A} (a b : list A) : subseq a b -> incl a b.
Proof. induction 1; intros y I; simpl in *; intuition. Qed.

Lemma subseq_map {A B} (f : A -> B) a b : subseq a b -> subseq (map f a) (map f b).
Proof. induction 1; simpl; [apply sub_nil|apply sub_skip|apply sub_take]; auto. Qed.

Lemma subseq_NoDup {A} (a b : list A) : subseq a b -> NoDup b -> NoDup a.
Proof.
  induction 1; intros N; auto; inversion N; subst; auto.
  constructor; auto. intros I. apply subseq_incl in H. auto.
Qed.

Lemma subseq_filter {A} (f : A -> bool) l : subseq (filter f l) l.
Proof. induction l as [|x l IH]; simpl; [constructor|]. destruct (f x); [apply sub_take|apply sub_skip]; auto. Qed.

Lemma subseq_length {A} (a b : list A) : subseq a b -> List.length a <= List.length b.
Proof. induction 1; simpl; lia. Qed.

Lemma subseq_trans {A} (b c : list A) : subseq b c -> forall a, subseq a b -> subseq a c.
Proof.
  induction 1 as [|x b c H IH|x b c H IH]; intros a S; auto.
  - apply sub_skip; auto.
  - inversion S; subst; [apply sub_skip|apply sub_take]; auto.
Qed.

Lemma combinations_spec {A} (l : list A) : forall r c,
  In c (combinations l r) <-> subseq c l /\ List.length c = r.
Proof.
  induction l as [|x l IH]; intros [|r] c; simpl.
  - split.
    + intros [<-|[]]. split; [constructor|reflexivity].
    + intros [H E]. destruct c; [auto|discriminate].
  - split; [tauto|]. intros [H E]. inversion H; subst. discriminate.
  - split.
    + intros [<-|[]]. split; [apply subseq_nil|reflexivity].
    + intros [H E]. destruct c; [auto|discriminate].
  - rewrite in_app_iff, in_map_iff. split.
    + intros [(d & <- & I)|I].
      * apply IH in I as [S E]. split; [now apply sub_take|simpl; now rewrite E].
      * apply IH in I as [S E]. split; [now apply sub_skip|auto].
    + intros [S E]. inversion S; subst.
      * right. apply IH. auto.
      * left. exists a. split; auto. apply IH. split; auto.
Qed.

Lemma all_combinations_spec {A} (l : list A) c :
  In c (all_combinations l) <-> subseq c l /\ c <> [].
Proof.
  unfold all_combinations. rewrite in_flat_map. split.
  - intros (r & I & C). apply in_seq in I. apply combinations_spec in C as [S E]. split; auto.
    intros ->. simpl in E. lia.
  - intros [S N]. exists (List.length c). split.
    + apply in_seq. pose proof (subseq_length _ _ S). destruct c; [congruence|simpl in *; lia].
    + apply combinations_spec. auto.
Qed.

(* ------------------------------------------------------------------ *)
(** ** the candidate as a list of stages *)

(** One stage of the candidate: node, selected interventions with their remaining
    construction times, daily operating cost. *)
Record stage := mkStage { st_node : node; st_sel : @items (BV * Z); st_cost : Q }.

Definition st_ints (st : stage) : @items BV := vmap fst (st_sel st).
Definition st_times (st : stage) : @items Z := vmap snd (st_sel st).
Definition sels (l : list stage) : list (@items BV) := map st_ints l.
Definition nodes (l : list stage) : list node := map st_node l.
Definition costs (l : list stage) : list Q := map (fun x => st_cost x * 365)%Q l.

Definition cand_of (l : list stage) : cand :=
  mkCand (path_of (nodes l)) (path_of (sels l)) (path_of (map st_times l)) (path_of (costs l)).

Definition with_time (b : BV) : BV * Z := (b, bv_time b).
Definition new_of (c : @items BV) : newi := mkNew c (vmap bv_time c).

Definition shift_stage (d : Z) (st : stage) : stage :=
  mkStage (st_node st) (vmap (fun x => (fst x, snd x + d)%Z) (st_sel st)) (st_cost st).
Definition shift_all (d : Z) (l : list stage) := map (shift_stage d) l.

Lemma vmap_vmap {A B C} (f : A -> B) (g : B -> C) l : vmap g (vmap f l) = vmap (fun x => g (f x)) l.
Proof. unfold vmap. rewrite map_map. reflexivity. Qed.

Lemma vmap_ext {A B} (f g : A -> B) l : (forall x, f x = g x) -> vmap f l = vmap g l.
Proof. intros H. unfold vmap. apply map_ext. intros x. now rewrite H. Qed.

Lemma vmap_id {A} (l : list (string * A)) : vmap (fun x => x) l = l.
Proof. unfold vmap. rewrite <- (map_id l) at 2. apply map_ext. now intros []. Qed.

Lemma shift_ints d st : st_ints (shift_stage d st) = st_ints st.
Proof. unfold st_ints, shift_stage. simpl. rewrite vmap_vmap. apply vmap_ext. now intros []. Qed.

Lemma shift_sels d l : sels (shift_all d l) = sels l.
Proof. unfold sels, shift_all. rewrite map_map. apply map_ext. intros. apply shift_ints. Qed.

Lemma shift_nodes d l : nodes (shift_all d l) = nodes l.
Proof. unfold nodes, shift_all. rewrite map_map. reflexivity. Qed.

Lemma shift_costs d l : costs (shift_all d l) = costs l.
Proof. unfold costs, shift_all. rewrite map_map. reflexivity. Qed.

Lemma shift_length d l : List.length (shift_all d l) = List.length l.
Proof. apply map_length. Qed.

Lemma shift_shift d e l : shift_all d (shift_all e l) = shift_all (e + d) l.
Proof.
  unfold shift_all. rewrite map_map. apply map_ext. intros st. unfold shift_stage. simpl. f_equal.
  rewrite vmap_vmap. apply vmap_ext. intros [a b]. simpl. f_equal. lia.
Qed.

Lemma shift_0 l : shift_all 0 l = l.
Proof.
  unfold shift_all. rewrite <- (map_id l) at 2. apply map_ext. intros [n sel c]. unfold shift_stage. simpl. f_equal.
  etransitivity; [|apply vmap_id]. apply vmap_ext. intros [a b]. simpl. f_equal. lia.
Qed.

Lemma shift_app d l l' : shift_all d (l ++ l') = shift_all d l ++ shift_all d l'.
Proof. apply map_app. Qed.

(** shift_times on distinct keys adds the period to every value. *)
Lemma shift_times_map d (t : list (string * Z)) : NoDup (map fst t) ->
  shift_times d t = vmap (fun x => x + d)%Z t.
Proof.
  intros ND. unfold shift_times.
  assert (G : forall t2 t1, NoDup (map fst (t1 ++ t2)) ->
    fold_left (fun acc k => match l_get k acc with Some v => l_set k (v + d)%Z acc | None => acc end)
      (map fst t2) (t1 ++ t2) = t1 ++ vmap (fun x => x + d)%Z t2).
  { induction t2 as [|[k v] t2 IH]; intros t1 N; simpl; auto.
    rewrite map_app in N. simpl in N. pose proof (NoDup_remove_2 _ _ _ N) as NI.
    rewrite in_app_iff in NI.
    rewrite l_get_app. assert (l_get k t1 = None) as -> by (apply l_get_None; unfold keys; tauto).
    simpl. rewrite String.eqb_refl.
    assert (SA : forall w (a b : list (string * Z)), l_set k w (a ++ b) = l_set k w a ++ l_set k w b).
    { intros w a b. induction a as [|[p q] a IHa]; simpl; auto. now rewrite IHa. }
    rewrite SA. simpl. rewrite String.eqb_refl, !l_set_absent by (unfold keys; tauto).
    change (t1 ++ (k, (v + d)%Z) :: t2) with (t1 ++ [(k, (v + d)%Z)] ++ t2). rewrite app_assoc.
    rewrite IH.
    - rewrite <- app_assoc. reflexivity.
    - rewrite <- app_assoc, map_app. simpl. exact N. }
  apply (G t []). exact ND.
Qed.

Lemma NoDup_app_parts {A} (a b : list A) : NoDup (a ++ b) ->
  NoDup a /\ NoDup b /\ (forall x, In x a -> ~ In x b).
Proof.
  induction a as [|x a IH]; simpl; intros N; [repeat split; auto; constructor|].
  inversion N; subst. destruct (IH H2) as (N1 & N2 & D). repeat split; auto.
  - constructor; auto. intros I. apply H1, in_app_iff. auto.
  - intros y [->|I]; auto. intros J. apply H1, in_app_iff. auto.
Qed.

Lemma NoDup_app_join {A} (a b : list A) : NoDup a -> NoDup b -> (forall x, In x a -> ~ In x b) -> NoDup (a ++ b).
Proof.
  induction a as [|x a IH]; simpl; intros N1 N2 D; auto.
  inversion N1; subst. constructor; auto.
  rewrite in_app_iff. intros [I|I]; auto. apply (D x); auto.
Qed.

Lemma NoDup_concat_stage (l : list stage) st : In st l -> NoDup (map fst (List.concat (sels l))) ->
  NoDup (map fst (st_sel st)).
Proof.
  intros I N. apply in_split in I as (a & b & ->). unfold sels in N. rewrite map_app in N. simpl in N.
  rewrite concat_app, map_app in N. simpl in N. rewrite map_app in N.
  apply NoDup_app_parts in N as (_ & N & _). apply NoDup_app_parts in N as (N & _). unfold st_ints in N. now rewrite vmap_keys in N.
Qed.

Lemma update_times_spec d l s : cnd s = cand_of l -> new s = no_new ->
  NoDup (map fst (List.concat (sels l))) ->
  update_times d s = Ok (tt, set_cnd (cand_of (shift_all d l)) s).
Proof.
  intros E N ND. unfold update_times, modify. do 2 f_equal. unfold set_new, set_cnd. simpl.
  rewrite E, N. simpl. f_equal.
  - unfold cand_of. simpl. f_equal.
    + now rewrite shift_nodes.
    + now rewrite shift_sels.
    + unfold shift_all. rewrite map_map. rewrite (path_of_map (fun st => st_times (shift_stage d st))).
      rewrite path_of_map.
      change (map (fun it => (fst it, shift_times d (snd it))) (vmap st_times (path_of l)))
        with (vmap (shift_times d) (vmap st_times (path_of l))).
      rewrite vmap_vmap. unfold vmap. apply map_ext_in. intros [k st] I. simpl. f_equal.
      assert (In st l) as I'.
      { rewrite <- (path_of_map_snd l). change st with (snd (k, st)). now apply in_map. }
      rewrite shift_times_map.
      * unfold st_times, shift_stage. simpl. now rewrite !vmap_vmap.
      * unfold st_times. rewrite vmap_keys. eapply NoDup_concat_stage; eauto.
    + now rewrite shift_costs.
Qed.

(* ------------------------------------------------------------------ *)
(** ** interventions in service *)

Definition ready (st : stage) : list BV :=
  map (fun x => fst (snd x)) (filter (fun x => (snd (snd x) <=? 0)%Z) (st_sel st)).
Definition built (st : stage) : @items BV :=
  vmap fst (filter (fun x => negb (0 <? snd (snd x))%Z) (st_sel st)).
Definition ready_new (c : @items BV) : list BV :=
  map snd (filter (fun x => (bv_time (snd x) <=? 0)%Z) c).

Lemma filter_vmap {A B} (f : A -> B) (p : string * B -> bool) l :
  filter p (vmap f l) = vmap f (filter (fun x => p (fst x, f (snd x))) l).
Proof.
  induction l as [|[k a] l IH]; simpl; auto. destruct (p (k, f a)); simpl; now rewrite IH.
Qed.

Lemma mapM_ok {A B} (f : A -> res B) (g : A -> B) l : (forall a, In a l -> f a = Ok (g a)) ->
  mapM f l = Ok (map g l).
Proof.
  induction l as [|a l IH]; intros H; simpl; auto.
  rewrite H by (simpl; auto). simpl. rewrite IH by (intros; apply H; simpl; auto). reflexivity.
Qed.

Lemma constructed_of_stage_spec st : NoDup (map fst (st_sel st)) ->
  constructed_of_stage (st_times st) (st_ints st) = Ok (ready st).
Proof.
  intros ND. unfold constructed_of_stage, st_times, st_ints. rewrite filter_vmap. simpl.
  unfold ready.
  set (F := filter (fun x => (snd (snd x) <=? 0)%Z) (st_sel st)).
  assert (I : forall x, In x F -> In x (st_sel st)) by (intros x Hx; now apply filter_In in Hx).
  unfold vmap at 2. revert I. induction F as [|[k [b t]] F IH]; intros I; simpl; auto.
  rewrite l_get_vmap. rewrite (l_get_nodup_In k (b, t)); [|exact ND|apply I; simpl; auto].
  simpl. rewrite IH by (intros; apply I; simpl; auto). reflexivity.
Qed.

Lemma constructed_from_candidate_spec l : NoDup (map fst (List.concat (sels l))) ->
  constructed_from_candidate (cand_of l) = Ok (List.concat (map ready l)).
Proof.
  intros ND. unfold constructed_from_candidate. simpl.
  rewrite (mapM_ok _ (fun ti => match constructed_of_stage (snd (fst ti)) (snd (snd ti)) with Ok x => x | Err _ => [] end)).
  - simpl. do 2 f_equal. unfold sels. rewrite !path_of_map.
    assert (G : forall L : list (string * stage), (forall x, In x L -> NoDup (map fst (st_sel (snd x)))) ->
      map (fun ti => match constructed_of_stage (snd (fst ti)) (snd (snd ti)) with Ok x => x | Err _ => [] end)
        (combine (vmap st_times L) (vmap st_ints L)) = map (fun x => ready (snd x)) L).
    { induction L as [|x L IH]; intros H; simpl; auto.
      rewrite constructed_of_stage_spec by (apply H; simpl; auto).
      rewrite IH by (intros; apply H; simpl; auto). reflexivity. }
    rewrite G.
    + rewrite <- (path_of_map_snd l) at 2. now rewrite map_map.
    + intros [k st] I. simpl. eapply NoDup_concat_stage; eauto.
      rewrite <- (path_of_map_snd l). change st with (snd (k, st)). now apply in_map.
  - unfold sels. rewrite !path_of_map. intros [[k1 t] [k2 i]] I. simpl.
    assert (G : forall L : list (string * stage), In ((k1, t), (k2, i)) (combine (vmap st_times L) (vmap st_ints L)) ->
       exists x, In x L /\ t = st_times (snd x) /\ i = st_ints (snd x)).
    { induction L as [|x L IH]; simpl; [tauto|]. intros [E|H].
      - injection E as <- <- <- <-. exists x. auto.
      - destruct (IH H) as (y & ? & ? & ?). exists y. auto. }
    destruct (G _ I) as ([k st] & IS & -> & ->). simpl.
    rewrite constructed_of_stage_spec; auto. eapply NoDup_concat_stage; eauto.
    rewrite <- (path_of_map_snd l). change st with (snd (k, st)). now apply in_map.
Qed.

Lemma constructed_from_new_spec c : constructed_from_new (new_of c) = ready_new c.
Proof.
  unfold constructed_from_new, ready_new, new_of. simpl.
  induction c as [|[k b] c IH]; simpl; auto. destruct (bv_time b <=? 0)%Z; simpl; now rewrite IH.
Qed.

Lemma ready_to_operate_spec s l c : cnd s = cand_of l -> new s = new_of c ->
  NoDup (map fst (List.concat (sels l))) ->
  ready_to_operate s = Ok (List.concat (map ready l) ++ ready_new c).
Proof.
  intros E N ND. unfold ready_to_operate. rewrite E, N, constructed_from_candidate_spec by auto. simpl.
  now rewrite constructed_from_new_spec.
Qed.

(** NA:98-107 on an aligned candidate. *)
Lemma pops_vmap {A B} (f : A -> B) ks : forall R,
  pops ks (vmap f R) = match pops ks R with Ok R' => Ok (vmap f R') | Err e => Err e end.
Proof.
  induction ks as [|k ks IH]; intros R; auto.
  unfold pops. simpl. rewrite l_pop_vmap. destruct (l_pop k R) as [[v R']|e]; simpl; auto. apply IH.
Qed.

Lemma drop_unbuilt_spec a st b : NoDup (map fst (st_sel st)) ->
  drop_unbuilt (path_of (a ++ st_ints st :: b)) (str_nat (List.length a), st_times st)
  = Ok (path_of (a ++ built st :: b)).
Proof.
  intros ND. unfold drop_unbuilt. simpl. unfold st_times. rewrite filter_vmap. simpl. rewrite vmap_keys.
  assert (G : forall ks x y, pops ks x = Ok y ->
     foldM (fun acc k => match l_get (str_nat (List.length a)) acc with
           | None => Err AttributeError
           | Some stage => do (_, stage') <- l_pop k stage; Ok (l_set (str_nat (List.length a)) stage' acc)
           end) ks (path_of (a ++ x :: b)) = Ok (path_of (a ++ y :: b))).
  { induction ks as [|k ks IH]; intros x y E.
    - injection E as ->. reflexivity.
    - unfold pops in E. simpl in E. simpl. rewrite path_of_get.
      destruct (l_pop k x) as [[v x']|]; [|discriminate]. simpl in *. rewrite path_of_set. now apply IH. }
  apply G. unfold st_ints. rewrite pops_vmap.
  rewrite (pops_filter (fun x => (0 <? snd (snd x))%Z)) by auto. reflexivity.
Qed.

Lemma already_built_spec l : NoDup (map fst (List.concat (sels l))) ->
  already_built (cand_of l) = Ok (path_of (map built l)).
Proof.
  intros ND. unfold already_built. simpl.
  assert (FA : forall {A S} (f : S -> A -> res S) l1 l2 s, foldM f (l1 ++ l2) s = do s' <- foldM f l1 s; foldM f l2 s').
  { intros A S f l1. induction l1 as [|x l1 IH]; intros l2 s; simpl; auto. destruct (f s x); simpl; auto. }
  assert (G : forall l1 l2, NoDup (map fst (List.concat (sels (l1 ++ l2)))) ->
     foldM drop_unbuilt (path_of (map st_times l1)) (path_of (sels (l1 ++ l2)))
       = Ok (path_of (map built l1 ++ sels l2))).
  { induction l1 as [|st l1 IH] using rev_ind; intros l2 N; [reflexivity|].
    rewrite map_app. simpl. rewrite path_of_app_one. unfold l_append. rewrite FA.
    rewrite <- app_assoc in *. simpl in *. rewrite IH by auto. simpl.
    rewrite map_length. rewrite <- (map_length built l1). rewrite drop_unbuilt_spec.
    - simpl. rewrite map_app, <- app_assoc. reflexivity.
    - eapply NoDup_concat_stage; [|exact N]. rewrite in_app_iff. simpl. auto. }
  specialize (G l []). rewrite List.app_nil_r in G. rewrite G; auto. now rewrite List.app_nil_r.
Qed.

Lemma built_subseq st : subseq (built st) (st_ints st).
Proof. unfold built, st_ints, vmap. apply subseq_map, subseq_filter. Qed.
