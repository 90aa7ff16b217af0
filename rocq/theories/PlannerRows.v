(** Incumbent, partial and complete tables seen as lists of rows. *)
From Coq Require Import List String Bool ZArith QArith Arith Lia Permutation.
From Verif Require Import Base Container ContainerSpec ContainerProofs Planner PlannerSpec.
Import ListNotations.
Open Scope nat_scope.
Open Scope list_scope.

Section VMap.
Context {A B : Type} (f : A -> B).
Definition vmap (l : list (string * A)) : list (string * B) := map (fun x => (fst x, f (snd x))) l.

Lemma vmap_keys l : map fst (vmap l) = map fst l.
Proof. unfold vmap. rewrite map_map. reflexivity. Qed.

Lemma vmap_length l : List.length (vmap l) = List.length l.
Proof. apply map_length. Qed.

Lemma l_last_pos_vmap k l : l_last_pos k (vmap l) = l_last_pos k l.
Proof. induction l as [|[a b] l IH]; simpl; auto. rewrite IH. reflexivity. Qed.

Lemma remove_at_vmap n l : remove_at n (vmap l) = vmap (remove_at n l).
Proof.
  revert n. induction l as [|[a b] l IH]; intros [|n]; simpl; auto. now rewrite IH.
Qed.

Lemma l_pop_vmap k l :
  l_pop k (vmap l) = match l_pop k l with Ok (v, l') => Ok (f v, vmap l') | Err e => Err e end.
Proof.
  unfold l_pop. rewrite l_last_pos_vmap. destruct (l_last_pos k l) as [n|]; auto.
  unfold vmap at 1. rewrite nth_error_map. destruct (nth_error l n) as [[a b]|]; simpl; auto.
  now rewrite remove_at_vmap.
Qed.

Lemma l_set_vmap k v l : l_set k (f v) (vmap l) = vmap (l_set k v l).
Proof.
  induction l as [|[a b] l IH]; simpl; auto. rewrite IH. now destruct (String.eqb a k).
Qed.

Lemma l_get_vmap k l : l_get k (vmap l) = option_map f (l_get k l).
Proof. induction l as [|[a b] l IH]; simpl; auto. now destruct (String.eqb a k). Qed.

Lemma l_append_vmap k v l : l_append k (f v) (vmap l) = vmap (l_append k v l).
Proof. unfold l_append, vmap. now rewrite map_app. Qed.
End VMap.

Lemma plan_of_vmap R : plan_of R = mkPlan (vmap r_path R) (vmap r_int R) (vmap r_inv R) (vmap r_op R).
Proof. reflexivity. Qed.

Lemma l_pop_perm {V} k (l : list (string * V)) v l' : l_pop k l = Ok (v, l') -> Permutation l ((k, v) :: l').
Proof.
  intros H. apply l_pop_spec in H as (a & b & -> & -> & _). symmetry. apply Permutation_middle.
Qed.

Lemma pop_row_plan_of k R :
  pop_row k (plan_of R) =
  match l_pop k R with
  | Ok (v, R') => Ok ((r_int v, r_path v, r_op v, r_inv v), plan_of R')
  | Err e => Err e
  end.
Proof.
  unfold pop_row. rewrite plan_of_vmap. simpl. rewrite !l_pop_vmap.
  destruct (l_pop k R) as [[v R']|e]; reflexivity.
Qed.

Lemma renumber_row_plan_of num k R :
  renumber_row num k (plan_of R) =
  match l_pop k R with
  | Ok (v, R') => Ok (plan_of (l_append (str_nat num) v R'))
  | Err e => Err e
  end.
Proof.
  unfold renumber_row. rewrite plan_of_vmap. simpl. rewrite !l_pop_vmap.
  destruct (l_pop k R) as [[v R']|e]; simpl; auto.
  rewrite !l_append_vmap. reflexivity.
Qed.

Lemma plan_of_append k r R :
  mkPlan (l_append k (r_path r) (pl_paths (plan_of R))) (l_append k (r_int r) (pl_int (plan_of R)))
         (l_append k (r_inv r) (pl_inv (plan_of R))) (l_append k (r_op r) (pl_op (plan_of R)))
  = plan_of (l_append k r R).
Proof. rewrite !plan_of_vmap. simpl. now rewrite !l_append_vmap. Qed.

Lemma plan_of_set k r R :
  mkPlan (l_set k (r_path r) (pl_paths (plan_of R))) (l_set k (r_int r) (pl_int (plan_of R)))
         (l_set k (r_inv r) (pl_inv (plan_of R))) (l_set k (r_op r) (pl_op (plan_of R)))
  = plan_of (l_set k r R).
Proof. rewrite !plan_of_vmap. simpl. now rewrite !l_set_vmap. Qed.

Lemma plan_is_empty_plan_of R : plan_is_empty (plan_of R) = Ok (Nat.eqb (List.length R) 0).
Proof.
  unfold plan_is_empty. rewrite plan_of_vmap. simpl. rewrite !vmap_length, !Nat.eqb_refl. reflexivity.
Qed.

Lemma plan_of_nil : plan_of [] = empty_plan.
Proof. reflexivity. Qed.

(* ------------------------------------------------------------------ *)
(** ** counting keys *)

Definition count (l : list string) (k : string) : nat := count_occ string_dec l k.

Lemma count_app l l' k : count (l ++ l') k = count l k + count l' k.
Proof. unfold count. apply count_occ_app. Qed.

Lemma count_perm l l' k : Permutation l l' -> count l k = count l' k.
Proof. intros H. unfold count. now apply Permutation_count_occ. Qed.

Lemma count_In l k : In k l <-> 1 <= count l k.
Proof. unfold count. rewrite (count_occ_In string_dec). lia. Qed.

Lemma count_cons x l k : count (x :: l) k = (if string_dec x k then 1 else 0) + count l k.
Proof. unfold count. simpl. destruct (string_dec x k); lia. Qed.

Global Opaque count.

Lemma count_filter_le {A} (g : A -> string) f (l : list A) k : count (map g (filter f l)) k <= count (map g l) k.
Proof.
  induction l as [|a l IH]; simpl; auto. rewrite count_cons.
  destruct (f a); simpl; rewrite ?count_cons; lia.
Qed.

(** Popping a list of keys one after the other. *)
Definition pops {V} (ks : list string) (R : list (string * V)) : res (list (string * V)) :=
  foldM (fun R k => do (_, R') <- l_pop k R; Ok R') ks R.

Lemma pops_ok {V} ks : forall R : list (string * V),
  (forall k, count ks k <= count (map fst R) k) ->
  exists R' D, pops ks R = Ok R' /\ Permutation R (D ++ R') /\ map fst D = ks.
Proof.
  induction ks as [|k ks IH]; intros R H; simpl.
  - exists R, []. auto.
  - destruct (l_pop_ok k R) as (v & R1 & E).
    { apply count_In. unfold keys. specialize (H k). rewrite count_cons in H. destruct (string_dec k k); [lia|congruence]. }
    unfold pops. simpl. rewrite E. simpl.
    pose proof (l_pop_perm _ _ _ _ E) as Pm.
    destruct (IH R1) as (R' & D & E' & Pm' & KD).
    { intros k'. specialize (H k'). rewrite (count_perm _ _ k' (Permutation_map fst Pm)) in H. simpl in H.
      rewrite !count_cons in H. lia. }
    exists R', ((k, v) :: D). split; [exact E'|]. split.
    + simpl. rewrite Pm. now constructor.
    + simpl. now rewrite KD.
Qed.

(** With distinct keys, popping the keys of the rows satisfying [f] filters them out. *)
Lemma pops_filter {V} (f : string * V -> bool) (R : list (string * V)) : NoDup (map fst R) ->
  pops (map fst (filter f R)) R = Ok (filter (fun x => negb (f x)) R).
Proof.
  intros ND.
  assert (G : forall (R2 R1 : list (string * V)), NoDup (map fst (R1 ++ R2)) ->
            pops (map fst (filter f R2)) (R1 ++ R2) = Ok (R1 ++ filter (fun x => negb (f x)) R2)).
  { induction R2 as [|[k v] R2 IH]; intros R1 N; simpl; [reflexivity|].
    destruct (f (k, v)) eqn:F; simpl.
    - unfold pops. simpl.
      assert (E : l_pop k (R1 ++ (k, v) :: R2) = Ok (v, R1 ++ R2)).
      { destruct (l_pop_ok k (R1 ++ (k, v) :: R2)) as (w & R' & E).
        { unfold keys. rewrite map_app, in_app_iff. simpl. auto. }
        destruct (l_pop_spec _ _ _ _ E) as (a & b & EQ & -> & NI).
        rewrite E. rewrite map_app in N. simpl in N. apply NoDup_remove in N as [N1 N2].
        assert (a = R1 /\ (k, w) :: b = (k, v) :: R2) as [-> X].
        { clear -EQ N2 NI. revert R1 EQ N2. induction a as [|x a IHa]; intros R1 EQ N2; destruct R1 as [|y R1]; simpl in *.
          - auto.
          - injection EQ as -> EQ. exfalso. apply N2. simpl. auto.
          - injection EQ as -> EQ. exfalso. apply N2. rewrite EQ, map_app, in_app_iff. simpl. auto.
          - injection EQ as -> EQ. destruct (IHa R1 EQ) as [-> ?]; [|auto].
            intros X. apply N2. auto. }
        injection X as -> ->. reflexivity. }
      rewrite E. simpl. apply IH. rewrite map_app in *. simpl in N. now apply NoDup_remove_1 in N.
    - change (R1 ++ (k, v) :: filter (fun x => negb (f x)) R2)
        with (R1 ++ [(k, v)] ++ filter (fun x => negb (f x)) R2).
      rewrite app_assoc. rewrite <- IH; rewrite <- app_assoc; auto. }
  apply (G R []). exact ND.
Qed.

(* ------------------------------------------------------------------ *)
(** ** renumbering *)

Lemma remove_first_count k l x : count (remove_first k l) x <= count l x.
Proof.
  induction l as [|a l IH]; simpl; auto. destruct (String.eqb a k); rewrite ?count_cons; lia.
Qed.

Lemma keys_to_renumber_count ks x : count (keys_to_renumber ks) x <= count ks x.
Proof.
  unfold keys_to_renumber.
  generalize (filter (fun k => str_in k ks) (map str_nat (seq 0 (List.length ks)))) as keep.
  intros keep. assert (G : forall rem, count (fold_left (fun rem k => if str_in k rem then remove_first k rem else rem) keep rem) x <= count rem x).
  { induction keep as [|k keep IH]; intros rem; simpl; auto.
    destruct (str_in k rem); auto. etransitivity; [apply IH|apply remove_first_count]. }
  apply G.
Qed.

Lemma renumber_from_ok ks : forall num R, (forall k, count ks k <= count (map fst R) k) ->
  exists R', renumber_from num ks (plan_of R) = Ok (plan_of R') /\ Permutation (map snd R') (map snd R).
Proof.
  induction ks as [|k ks IH]; intros num R H; simpl.
  - exists R. auto.
  - rewrite renumber_row_plan_of.
    destruct (l_pop_ok k R) as (v & R1 & E).
    { apply count_In. unfold keys. specialize (H k). rewrite count_cons in H. destruct (string_dec k k); [lia|congruence]. }
    rewrite E. simpl. pose proof (l_pop_perm _ _ _ _ E) as Pm.
    destruct (IH (S num) (l_append (str_nat num) v R1)) as (R' & E' & P').
    { intros k'. specialize (H k'). rewrite (count_perm _ _ k' (Permutation_map fst Pm)) in H. simpl in H.
      unfold l_append. rewrite map_app, count_app. rewrite !count_cons in H. lia. }
    exists R'. split; [exact E'|]. rewrite P'. unfold l_append. rewrite map_app. simpl.
    rewrite (Permutation_map snd Pm). simpl. symmetry. apply Permutation_cons_append.
Qed.

Lemma renumber_ok R :
  exists R', renumber (plan_of R) = Ok (plan_of R') /\ Permutation (map snd R') (map snd R).
Proof.
  unfold renumber. rewrite plan_of_vmap. simpl. rewrite vmap_keys, <- plan_of_vmap.
  apply renumber_from_ok. intros k. apply keys_to_renumber_count.
Qed.
