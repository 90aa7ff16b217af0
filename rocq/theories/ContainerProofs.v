From Coq Require Import List String Bool Arith Lia Decimal DecimalString DecimalNat DecimalFacts.
From Verif Require Import Base Container ContainerSpec.
Import ListNotations.
Open Scope list_scope.

(** ** decimal strings *)

Lemma str_nat_inj n m : str_nat n = str_nat m -> n = m.
Proof.
  unfold str_nat; intros H.
  assert (Hu : Nat.to_uint n = Nat.to_uint m).
  { assert (E : NilEmpty.uint_of_string (NilEmpty.string_of_uint (Nat.to_uint n)) =
                NilEmpty.uint_of_string (NilEmpty.string_of_uint (Nat.to_uint m))) by now rewrite H.
    rewrite !NilEmpty.usu in E. now injection E. }
  rewrite <- (DecimalNat.Unsigned.of_to n), <- (DecimalNat.Unsigned.of_to m). now rewrite Hu.
Qed.

Lemma str_nat_eqb n m : String.eqb (str_nat n) (str_nat m) = Nat.eqb n m.
Proof.
  destruct (Nat.eqb_spec n m) as [->|N]; [apply String.eqb_refl|].
  apply String.eqb_neq. intros H. apply N, str_nat_inj, H.
Qed.

(** ** list-mode laws *)
Section Laws.
Context {V : Type}.
Implicit Types (l : items V) (k : string) (v : V).

Definition keys l := map fst l.

Lemma l_get_None k l : l_get k l = None <-> ~ In k (keys l).
Proof.
  induction l as [|[k' v'] l IH]; simpl; [tauto|].
  destruct (String.eqb_spec k' k) as [E|E]; split; intros H.
  - congruence.
  - exfalso; tauto.
  - intros [?|?]; [congruence|]. now apply IH in H.
  - apply IH. tauto.
Qed.

Lemma l_get_Some_In k v l : l_get k l = Some v -> In (k, v) l.
Proof.
  induction l as [|[k' v'] l IH]; simpl; [congruence|].
  destruct (String.eqb_spec k' k); intros H; [injection H as ->; subst; auto|auto].
Qed.

Lemma l_get_app k l l' : l_get k (l ++ l') = match l_get k l with Some v => Some v | None => l_get k l' end.
Proof.
  induction l as [|[k' v'] l IH]; simpl; auto. destruct (String.eqb k' k); auto.
Qed.

Lemma l_get_nodup_In k v l : NoDup (keys l) -> In (k, v) l -> l_get k l = Some v.
Proof.
  induction l as [|[k' v'] l IH]; simpl; [tauto|].
  intros ND [E|I]; inversion ND; subst.
  - injection E as -> ->. now rewrite String.eqb_refl.
  - destruct (String.eqb_spec k' k); auto. subst. exfalso. apply H1.
    change k with (fst (k, v)). now apply in_map.
Qed.

Lemma l_last_pos_None k l : l_last_pos k l = None <-> ~ In k (keys l).
Proof.
  induction l as [|[k' v'] l IH]; simpl; [tauto|].
  destruct (l_last_pos k l) as [n|].
  - split; [congruence|]. intros H. exfalso. apply H. right.
    destruct (in_dec string_dec k (keys l)) as [|N]; auto. destruct IH as [_ IH]. specialize (IH N); congruence.
  - destruct (String.eqb_spec k' k) as [E|E]; split; intros H; try congruence.
    + exfalso; tauto.
    + intros [?|?]; [congruence|]. destruct IH as [IH _]. now apply (IH eq_refl).
Qed.

Lemma l_last_pos_app_last k v l : l_last_pos k (l ++ [(k, v)]) = Some (List.length l).
Proof.
  induction l as [|[k' v'] l IH]; simpl.
  - now rewrite String.eqb_refl.
  - now rewrite IH.
Qed.

Lemma remove_at_app_last (l : items V) x : remove_at (List.length l) (l ++ [x]) = l.
Proof. induction l; simpl; auto. now rewrite IHl. Qed.

Lemma nth_error_app_last {A} (l : list A) x : nth_error (l ++ [x]) (List.length l) = Some x.
Proof. induction l; simpl; auto. Qed.

Lemma l_pop_append k v l : l_pop k (l_append k v l) = Ok (v, l).
Proof.
  unfold l_pop, l_append. rewrite l_last_pos_app_last, nth_error_app_last, remove_at_app_last. reflexivity.
Qed.

(** The last occurrence is the one removed. *)
Lemma l_pop_spec k l v l' :
  l_pop k l = Ok (v, l') ->
  exists a b, l = a ++ (k, v) :: b /\ l' = a ++ b /\ ~ In k (keys b).
Proof.
  unfold l_pop. revert l'.
  induction l as [|[k' v'] l IH]; simpl; intros l'; [congruence|].
  destruct (l_last_pos k l) as [n|] eqn:E.
  - simpl. destruct (nth_error l n) as [[? w]|] eqn:F; [|congruence].
    intros H; injection H as <- <-.
    destruct (IH _ eq_refl) as (a & b & -> & -> & Hn).
    exists ((k', v') :: a), b. auto.
  - destruct (String.eqb_spec k' k); [|congruence].
    simpl. intros H; injection H as <- <-. subst.
    exists [], l. repeat split; auto. now apply l_last_pos_None.
Qed.

Lemma l_pop_ok k l : In k (keys l) -> exists v l', l_pop k l = Ok (v, l').
Proof.
  unfold l_pop. intros H.
  destruct (l_last_pos k l) as [n|] eqn:E.
  - assert (n < List.length l).
    { revert n E. clear H. induction l as [|[k' v'] l IH]; simpl; intros n; [congruence|].
      destruct (l_last_pos k l) as [m|]; [intros X; injection X as <-; specialize (IH m eq_refl); lia|].
      destruct (String.eqb k' k); [|congruence]. intros X; injection X as <-. lia. }
    destruct (nth_error l n) as [[? w]|] eqn:F; eauto.
    apply nth_error_None in F. lia.
  - apply l_last_pos_None in E. tauto.
Qed.

Lemma l_pop_missing k l : ~ In k (keys l) -> l_pop k l = Err KeyError.
Proof. intros H. apply l_last_pos_None in H. unfold l_pop. now rewrite H. Qed.

Lemma keys_app l l' : keys (l ++ l') = keys l ++ keys l'.
Proof. apply map_app. Qed.

Lemma keys_l_set k v l : keys (l_set k v l) = keys l.
Proof. induction l as [|[k' v'] l IH]; simpl; auto. rewrite IH. now destruct (String.eqb k' k). Qed.

Lemma l_get_l_set k k' v l :
  l_get k (l_set k' v l) = if String.eqb k' k then (match l_get k l with Some _ => Some v | None => None end)
                           else l_get k l.
Proof.
  induction l as [|[a b] l IH]; simpl; [now destruct (String.eqb k' k)|].
  destruct (String.eqb_spec k' k) as [->|N].
  - destruct (String.eqb_spec a k) as [->|]; simpl.
    + now rewrite String.eqb_refl.
    + destruct (String.eqb_spec a k); [congruence|]. rewrite IH. now rewrite ?String.eqb_refl.
  - destruct (String.eqb_spec a k') as [->|]; simpl; destruct (String.eqb_spec k' k); try congruence; auto;
    destruct (String.eqb_spec a k); auto; congruence.
Qed.

(** ** dictionary-mode laws *)

Lemma d_get_set k k' v l : d_get k (d_set k' v l) = if String.eqb k' k then Some v else d_get k l.
Proof.
  unfold d_get. induction l as [|[a b] l IH]; simpl; [reflexivity|].
  destruct (String.eqb_spec a k') as [->|N]; simpl.
  - destruct (String.eqb_spec k' k); auto.
  - destruct (String.eqb_spec a k) as [->|].
    + destruct (String.eqb_spec k' k); [congruence|reflexivity].
    + apply IH.
Qed.

Lemma keys_d_set k v l : keys (d_set k v l) = if in_dec string_dec k (keys l) then keys l else keys l ++ [k].
Proof.
  induction l as [|[a b] l IH]; simpl; auto.
  destruct (String.eqb_spec a k) as [->|N]; simpl.
  - destruct (string_dec k k); [reflexivity|congruence].
  - destruct (string_dec a k); [congruence|]. rewrite IH.
    destruct (in_dec string_dec k (keys l)); reflexivity.
Qed.

Lemma nodup_d_set k v l : NoDup (keys l) -> NoDup (keys (d_set k v l)).
Proof.
  intros H. rewrite keys_d_set. destruct (in_dec string_dec k (keys l)); auto.
  apply NoDup_rev in H. rewrite <- (rev_involutive (keys l ++ [k])). apply NoDup_rev.
  rewrite rev_app_distr. simpl. constructor; auto. now rewrite <- in_rev.
Qed.

Lemma d_update_cons l x o : d_update l (x :: o) = d_update (d_set (fst x) (snd x) l) o.
Proof. reflexivity. Qed.

Lemma nodup_d_update o : forall l, NoDup (keys l) -> NoDup (keys (d_update l o)).
Proof.
  induction o as [|[k v] o IH]; intros l H; auto.
  rewrite d_update_cons. apply IH. now apply nodup_d_set.
Qed.

Lemma d_get_update k o : forall l, d_get k (d_update l o) = last_in k o (d_get k l).
Proof.
  induction o as [|[a b] o IH]; intros l; auto.
  rewrite d_update_cons, IH. simpl. now rewrite d_get_set.
Qed.

Lemma d_remove_keys_incl k l x : In x (keys (d_remove k l)) -> In x (keys l).
Proof.
  induction l as [|[a b] l IH]; simpl; auto.
  destruct (String.eqb a k); simpl; intuition.
Qed.

Lemma nodup_d_remove k l : NoDup (keys l) -> NoDup (keys (d_remove k l)).
Proof.
  induction l as [|[a b] l IH]; simpl; intros H; auto.
  inversion H; subst. destruct (String.eqb a k); simpl; auto.
  constructor; auto. intros X. apply H2. now apply d_remove_keys_incl in X.
Qed.

Lemma d_get_remove k k' l : NoDup (keys l) ->
  d_get k (d_remove k' l) = if String.eqb k' k then None else d_get k l.
Proof.
  unfold d_get. induction l as [|[a b] l IH]; simpl; intros H.
  - now destruct (String.eqb k' k).
  - inversion H; subst. destruct (String.eqb_spec a k') as [->|N]; simpl.
    + destruct (String.eqb_spec k' k) as [->|]; auto. now apply l_get_None.
    + destruct (String.eqb_spec a k) as [->|].
      * destruct (String.eqb_spec k' k); [congruence|reflexivity].
      * now apply IH.
Qed.

(** ** C01 *)

Definition dict_inv (c : adc V) (f : string -> option V) : Prop :=
  exists l, c = dict_of l /\ NoDup (keys l) /\ forall k, d_get k l = f k.

Lemma expected_step k (h : list (op V)) o cur : expected k (h ++ [o]) cur = expected k [o] (expected k h cur).
Proof. revert cur. induction h as [|a h IH]; intros cur; auto. destruct a; simpl; apply IH. Qed.

Lemma apply_dict_inv c h o :
  dict_inv c (fun k => expected k h None) ->
  dict_inv (apply dict_of c o) (fun k => expected k (h ++ [o]) None).
Proof.
  intros (l & -> & ND & G). destruct o as [k v|k v|k|kvs]; unfold apply; simpl.
  - eexists; split; [reflexivity|]. split; [now apply nodup_d_set|].
    intros x. rewrite d_get_set, G, expected_step. reflexivity.
  - eexists; split; [reflexivity|]. split; [now apply nodup_d_set|].
    intros x. rewrite d_get_set, G, expected_step. reflexivity.
  - unfold adc_pop; simpl. unfold d_pop. destruct (d_get k l) as [v|] eqn:E; simpl.
    + eexists; split; [reflexivity|]. split; [now apply nodup_d_remove|].
      intros x. rewrite d_get_remove, G, expected_step by auto. reflexivity.
    + exists l; split; [reflexivity|]. split; auto.
      intros x. rewrite expected_step. simpl. destruct (String.eqb_spec k x) as [->|]; auto.
  - eexists; split; [reflexivity|]. split; [now apply nodup_d_update|].
    intros x. rewrite d_get_update, G, expected_step. reflexivity.
Qed.

Lemma drive_snoc mk (c : adc V) h o : drive mk c (h ++ [o]) = apply mk (drive mk c h) o.
Proof. unfold drive. now rewrite fold_left_app. Qed.

Lemma drive_dict_inv h : dict_inv (drive dict_of (create_dictionary adc_new) h) (fun k => expected k h None).
Proof.
  induction h as [|o h IH] using rev_ind.
  - exists []. split; [reflexivity|]. split; [constructor|auto].
  - rewrite drive_snoc. now apply apply_dict_inv.
Qed.

Lemma dict_refines_map (h : list (op V)) (k : string) :
  let c := drive dict_of (create_dictionary adc_new) h in
  adc_get c k = Ok (expected k h None) /\
  adc_getitem c k = match expected k h None with Some v => Ok (Some v) | None => Err KeyError end /\
  (match expected k h None with
   | None => adc_pop c k = Err KeyError
   | Some v => exists c', adc_pop c k = Ok (Some v, c') /\
               forall k', adc_get c' k' = Ok (if String.eqb k k' then None else expected k' h None)
   end) /\
  exists l, adc_iter c = Ok l /\ adc_len c = List.length l /\ NoDup (map fst l) /\
            (forall v, In (k, v) l <-> expected k h None = Some v).
Proof.
  intros c. destruct (drive_dict_inv h) as (l & E & ND & G). fold c in E. rewrite E. clear E c.
  specialize (G k) as Gk. repeat split.
  - unfold adc_get, dict_of; simpl. now rewrite Gk.
  - unfold adc_getitem, dict_of; simpl. rewrite Gk. destruct (expected k h None); auto.
  - unfold adc_pop, dict_of, d_pop; simpl. rewrite Gk. destruct (expected k h None); auto. simpl.
    eexists; split; [reflexivity|]. intros k'. unfold adc_get; simpl. rewrite d_get_remove by auto. now rewrite G.
  - exists l. repeat split; auto.
    + intros I. rewrite <- Gk. now apply l_get_nodup_In.
    + intros I. rewrite <- Gk in I. now apply l_get_Some_In.
Qed.

(** ** C02 *)

Lemma d_set_absent k v l : ~ In k (keys l) -> d_set k v l = l_append k v l.
Proof.
  unfold l_append. induction l as [|[a b] l IH]; simpl; auto.
  intros H. destruct (String.eqb_spec a k); [exfalso; tauto|]. rewrite IH; tauto.
Qed.

Lemma l_set_absent k v l : ~ In k (keys l) -> l_set k v l = l.
Proof.
  induction l as [|[a b] l IH]; simpl; auto.
  intros H. destruct (String.eqb_spec a k); [exfalso; tauto|]. rewrite IH; tauto.
Qed.

Lemma d_set_l_set k v l : NoDup (keys l) -> In k (keys l) -> d_set k v l = l_set k v l.
Proof.
  induction l as [|[a b] l IH]; simpl; [tauto|].
  intros ND I. inversion ND; subst. destruct (String.eqb_spec a k) as [->|].
  - now rewrite l_set_absent.
  - rewrite IH; auto. destruct I; [congruence|auto].
Qed.

Lemma d_remove_app_nodup k v a b : ~ In k (keys a) -> d_remove k (a ++ (k, v) :: b) = a ++ b.
Proof.
  induction a as [|[x y] a IH]; simpl; intros H.
  - now rewrite String.eqb_refl.
  - destruct (String.eqb_spec x k); [exfalso; tauto|]. rewrite IH; tauto.
Qed.

Lemma d_pop_l_pop k l : NoDup (keys l) -> d_pop k l = l_pop k l.
Proof.
  intros ND. unfold d_pop. destruct (d_get k l) as [v|] eqn:E.
  - destruct (l_pop_ok k l) as (w & l' & P).
    { apply l_get_Some_In in E. change k with (fst (k, v)). now apply in_map. }
    rewrite P. destruct (l_pop_spec _ _ _ _ P) as (a & b & -> & -> & Hb).
    rewrite keys_app in ND. simpl in ND.
    assert (Ha : ~ In k (keys a)).
    { apply NoDup_remove_2 in ND. intros X. apply ND. apply in_or_app; auto. }
    rewrite d_remove_app_nodup by auto.
    unfold d_get in E. rewrite l_get_app in E.
    apply l_get_None in Ha. rewrite Ha in E. simpl in E. rewrite String.eqb_refl in E. injection E as ->. reflexivity.
  - apply l_get_None in E. now rewrite l_pop_missing.
Qed.

Lemma d_update_absent o : forall l, NoDup (keys o) -> (forall k, In k (keys o) -> ~ In k (keys l)) ->
  d_update l o = l ++ o.
Proof.
  induction o as [|[k v] o IH]; intros l ND D; [now rewrite List.app_nil_r|].
  rewrite d_update_cons. simpl. rewrite d_set_absent by (apply D; simpl; auto).
  simpl in ND. inversion ND; subst. rewrite IH; auto.
  - unfold l_append. now rewrite <- List.app_assoc.
  - intros x I. unfold l_append. rewrite keys_app, in_app_iff. simpl.
    intros [X|[->|[]]]; [|tauto]. apply (D x); simpl; auto.
Qed.

Definition both_inv (cd cl : adc V) (f : string -> option V) : Prop :=
  exists l, cd = dict_of l /\ cl = list_of l /\ NoDup (keys l) /\ forall k, d_get k l = f k.

Lemma both_step cd cl h o :
  both_inv cd cl (fun k => expected k h None) ->
  disciplined h [o] ->
  both_inv (apply dict_of cd o) (apply list_of cl o) (fun k => expected k (h ++ [o]) None).
Proof.
  intros (l & -> & -> & ND & G) [D _].
  assert (I : dict_inv (apply dict_of (dict_of l) o) (fun k => expected k (h ++ [o]) None)).
  { apply apply_dict_inv. exists l; auto. }
  destruct I as (l' & E & ND' & G'). exists l'. rewrite E. repeat split; auto.
  destruct o as [k v|k v|k|kvs]; try tauto; unfold apply, dict_of, list_of in *; simpl in *;
    unfold with_container in *; simpl in *.
  - injection E as <-. rewrite d_set_absent; auto. apply l_get_None. now rewrite <- (G k) in D.
  - injection E as <-. rewrite d_set_l_set; auto.
    destruct (in_dec string_dec k (keys l)) as [|N]; auto. exfalso. apply D. rewrite <- G. now apply l_get_None.
  - unfold adc_pop in *; simpl in *. rewrite d_pop_l_pop in E by auto. destruct (l_pop k l) as [[w l2]|]; simpl in *; unfold with_container in *; simpl in *; injection E as <-; reflexivity.
  - destruct D as [D1 D2]. unfold adc_extend in *; simpl in *. unfold with_container in *; simpl in *.
    injection E as <-. rewrite d_update_absent; auto. intros x I. apply l_get_None.
    fold (d_get x l). rewrite G. auto.
Qed.

Lemma disciplined_app (h0 h : list (op V)) o : disciplined h0 (h ++ [o]) ->
  disciplined h0 h /\ disciplined (h0 ++ h) [o].
Proof.
  revert h0. induction h as [|a h IH]; intros h0 H.
  - rewrite List.app_nil_r. simpl app in H. split; [exact I|exact H].
  - rewrite <- app_comm_cons in H. destruct H as [A B]. apply IH in B. destruct B as [B C].
    rewrite <- app_assoc in C. simpl app in C. split; [split; auto|exact C].
Qed.

Lemma both_drive h : disciplined [] h ->
  both_inv (drive dict_of (create_dictionary adc_new) h) (drive list_of (create_list adc_new) h)
           (fun k => expected k h None).
Proof.
  induction h as [|o h IH] using rev_ind; intros D.
  - exists []. repeat split; auto. constructor.
  - apply disciplined_app in D as [D1 D2]. rewrite !drive_snoc. apply both_step; auto.
Qed.

Lemma list_agrees_with_dict h : disciplined [] h ->
  let cd := drive dict_of (create_dictionary (@adc_new V)) h in
  let cl := drive list_of (create_list adc_new) h in
  (forall k, adc_get cl k = adc_get cd k) /\ adc_len cl = adc_len cd /\ adc_iter cl = adc_iter cd /\
  adc_values cl = adc_values cd /\
  (forall k, match adc_pop cd k, adc_pop cl k with
             | Ok (v, cd'), Ok (v', cl') => v = v' /\ adc_iter cd' = adc_iter cl'
             | Err e, Err e' => e = e'
             | _, _ => False
             end).
Proof.
  intros D cd cl. destruct (both_drive h D) as (l & E1 & E2 & ND & G).
  fold cd in E1. fold cl in E2. rewrite E1, E2. repeat split.
  intros k. unfold adc_pop, dict_of, list_of; simpl. rewrite d_pop_l_pop by auto.
  destruct (l_pop k l) as [[v l']|]; simpl; auto.
Qed.

(** ** C04, C06: comparisons *)
Section CmpR.
Variable veq : V -> V -> bool.
Hypothesis veq_refl : forall a, veq a a = true.
Hypothesis veq_trans : forall a b c, veq a b = true -> veq b c = true -> veq a c = true.

Lemma item_eqb_refl a : item_eqb veq a a = true.
Proof. unfold item_eqb. now rewrite String.eqb_refl, veq_refl. Qed.

Lemma item_eqb_trans a b c : item_eqb veq a b = true -> item_eqb veq b c = true -> item_eqb veq a c = true.
Proof.
  unfold item_eqb. rewrite !andb_true_iff, !String.eqb_eq. intros [E1 E2] [E3 E4].
  split; [congruence|eauto].
Qed.

Lemma compare_lists_refl l : compare_lists veq l l = true.
Proof.
  unfold compare_lists. apply forallb_forall. intros x I. unfold item_in. apply existsb_exists.
  exists x. split; auto. apply item_eqb_refl.
Qed.

Lemma compare_lists_trans a b c :
  compare_lists veq b a = true -> compare_lists veq c b = true -> compare_lists veq c a = true.
Proof.
  unfold compare_lists, item_in. rewrite !forallb_forall. intros H1 H2 x I.
  apply H1 in I. apply existsb_exists in I as (y & I & E).
  apply H2 in I. apply existsb_exists in I as (z & I & E').
  apply existsb_exists. exists z. split; auto. eapply item_eqb_trans; eauto.
Qed.

Hypothesis veq_sym : forall a b, veq a b = true -> veq b a = true.

Lemma compare_dicts_refl l : NoDup (keys l) -> compare_dictionaries veq l l = true.
Proof.
  intros ND. unfold compare_dictionaries. apply forallb_forall. intros [k v] I. simpl.
  unfold d_get. rewrite (l_get_nodup_In k v); auto.
Qed.

Lemma compare_dicts_trans a b c : 
  compare_dictionaries veq b a = true -> compare_dictionaries veq c b = true ->
  compare_dictionaries veq c a = true.
Proof.
  unfold compare_dictionaries, d_get. rewrite !forallb_forall. intros H1 H2 [k v] I.
  apply H1 in I. simpl in *. destruct (l_get k b) as [w|] eqn:E; [|congruence].
  apply l_get_Some_In in E. apply H2 in E. simpl in E. destruct (l_get k c) as [u|]; [|congruence]. eauto.
Qed.
End CmpR.

Section Cmp.
Variable veq : V -> V -> bool.

Lemma item_in_spec it l : item_in veq it l = true <-> exists it', In it' l /\ item_eqb veq it it' = true.
Proof. unfold item_in. rewrite existsb_exists. firstorder. Qed.

Hypothesis veq_eq : forall a b, veq a b = true <-> a = b.

Lemma item_eqb_eq a b : item_eqb veq a b = true <-> a = b.
Proof.
  destruct a, b; unfold item_eqb; simpl. rewrite andb_true_iff, String.eqb_eq, veq_eq.
  split; [intros [-> ->]; auto|intros E; injection E; auto].
Qed.

Lemma item_in_In it l : item_in veq it l = true <-> In it l.
Proof.
  rewrite item_in_spec. split.
  - intros (x & I & E). apply item_eqb_eq in E. now subst.
  - intros I. exists it. split; auto. now apply item_eqb_eq.
Qed.

Lemma compare_lists_incl l l' : compare_lists veq l l' = true <-> incl l' l.
Proof.
  unfold compare_lists. rewrite forallb_forall. split; intros H x I; apply H in I; now apply item_in_In.
Qed.

Lemma compare_dicts_incl l l' : NoDup (keys l) -> (compare_dictionaries veq l l' = true <-> incl l' l).
Proof.
  intros ND. unfold compare_dictionaries. rewrite forallb_forall. split.
  - intros H [k v] I. specialize (H _ I). simpl in H. unfold d_get in H.
    destruct (l_get k l) as [w|] eqn:E; [|congruence].
    apply veq_eq in H. subst. now apply l_get_Some_In.
  - intros H [k v] I. simpl. unfold d_get. rewrite (l_get_nodup_In k v); auto. now apply veq_eq.
Qed.

Lemma difference_lists_spec l1 l2 it : In it (difference_lists veq l1 l2) <-> In it l1 /\ ~ In it l2.
Proof.
  unfold difference_lists. rewrite filter_In, negb_true_iff.
  pose proof (item_in_In it l2) as H. destruct (item_in veq it l2); intuition congruence.
Qed.

(** difference in dictionary mode *)
Lemma d_pop_filter (P : string * V -> bool) k v l :
  NoDup (keys l) -> In (k, v) l -> P (k, v) = true ->
  exists r, d_pop k (filter P l) = Ok r /\
  snd r = filter (fun it => P it && negb (String.eqb (fst it) k)) l.
Proof.
  intros ND I HP.
  assert (G : d_get k (filter P l) = Some v).
  { unfold d_get. apply l_get_nodup_In; [|now apply filter_In].
    clear -ND. induction l as [|[a b] l IH]; simpl; [constructor|]. inversion ND; subst.
    destruct (P (a, b)); auto. simpl. constructor; auto. intros X. apply H1.
    unfold keys in *. apply in_map_iff in X as ([x y] & <- & X). apply filter_In in X as [X _].
    now apply in_map. }
  unfold d_pop. rewrite G. eexists; split; [reflexivity|]. simpl. clear G.
  induction l as [|[a b] l IH]; simpl; auto. inversion ND; subst. destruct I as [E|I].
  - injection E as -> ->. rewrite HP. simpl. rewrite String.eqb_refl. simpl.
    clear -H1. apply filter_ext_in. intros [x y] I. simpl.
    destruct (String.eqb_spec x k) as [->|]; [|now rewrite andb_true_r].
    exfalso. apply H1. change k with (fst (k, y)). now apply in_map.
  - assert (a <> k). { intros ->. apply H1. change k with (fst (k, v)). now apply in_map. }
    destruct (P (a, b)) eqn:E; simpl.
    + destruct (String.eqb_spec a k); [congruence|]. simpl. f_equal. apply IH; auto.
    + apply IH; auto.
Qed.

Lemma difference_dicts_gen isnone l1 l2 : forall P,
  NoDup (keys l1) -> NoDup (keys l2) ->
  (forall k v, In (k, v) l1 -> In k (keys l2) -> P (k, v) = true) ->
  foldM (fun diff kv =>
           match d_get (fst kv) l1 with
           | Some v => if negb (isnone v) && veq v (snd kv)
                       then do r <- d_pop (fst kv) diff; Ok (snd r)
                       else Ok diff
           | None => Ok diff
           end) l2 (filter P l1) =
  Ok (filter (fun it => P it && (isnone (snd it) || negb (item_in veq it l2))) l1).
Proof.
  induction l2 as [|[k v] l2 IH]; intros P ND1 ND2 HP; cbn [foldM].
  - f_equal. apply filter_ext. intros a. simpl. rewrite orb_true_r. now rewrite andb_true_r.
  - simpl in ND2. inversion ND2; subst. cbn [fst snd].
    destruct (d_get k l1) as [w|] eqn:G; unfold d_get in G.
    + destruct (negb (isnone w) && veq w v) eqn:E.
      * pose proof (l_get_Some_In _ _ _ G) as I.
        destruct (d_pop_filter P k w l1) as (r & Hr & Hs); auto; [apply HP; simpl; auto|].
        rewrite Hr. cbn [rbind]. rewrite Hs. rewrite IH; auto.
        -- f_equal. apply filter_ext_in. intros [x y] Ix. cbn [fst snd item_in existsb].
           destruct (String.eqb_spec x k) as [->|N].
           ++ rewrite (l_get_nodup_In k y l1 ND1 Ix) in G. injection G as ->.
              apply andb_true_iff in E as [E1 E2]. apply negb_true_iff in E1. rewrite E1. cbn.
              unfold item_eqb; simpl. rewrite String.eqb_refl, E2. simpl.
              now rewrite ?andb_false_r.
           ++ unfold item_eqb; simpl. destruct (String.eqb_spec x k); [congruence|]. simpl.
              rewrite andb_true_r. reflexivity.
        -- intros x y Ix Kx. rewrite HP; simpl; auto. destruct (String.eqb_spec x k) as [->|]; auto.
      * cbn [rbind]. rewrite IH; auto; [|intros x y Ix Kx; apply HP; simpl; auto].
        f_equal. apply filter_ext_in. intros [x y] Ix. cbn [fst snd item_in existsb].
        destruct (String.eqb_spec x k) as [->|N].
        -- rewrite (l_get_nodup_In k y l1 ND1 Ix) in G. injection G as ->.
           unfold item_eqb; simpl. rewrite String.eqb_refl. simpl.
           destruct (isnone w); simpl in *; auto. now rewrite E.
        -- unfold item_eqb; simpl. destruct (String.eqb_spec x k); [congruence|]. reflexivity.
    + cbn [rbind]. rewrite IH; auto; [|intros x y Ix Kx; apply HP; simpl; auto].
      f_equal. apply filter_ext_in. intros [x y] Ix. cbn [fst snd item_in existsb].
      destruct (String.eqb_spec x k) as [->|N].
      * rewrite (l_get_nodup_In k y l1 ND1 Ix) in G. congruence.
      * unfold item_eqb; simpl. destruct (String.eqb_spec x k); [congruence|]. reflexivity.
Qed.

Lemma difference_dicts_filter isnone l1 l2 :
  NoDup (keys l1) -> NoDup (keys l2) ->
  difference_dicts veq isnone l1 l2 =
  Ok (filter (fun it => isnone (snd it) || negb (item_in veq it l2)) l1).
Proof.
  intros ND1 ND2. unfold difference_dicts.
  pose proof (difference_dicts_gen isnone l1 l2 (fun _ => true) ND1 ND2 ltac:(auto)) as H.
  cbn [andb] in H. rewrite <- H. f_equal.
  symmetry. clear. induction l1; simpl; congruence.
Qed.
End Cmp.

(** ** graph paths *)
Lemma path_of_length (ns : list V) : List.length (path_of ns) = List.length ns.
Proof. unfold path_of. rewrite combine_length, map_length, seq_length. lia. Qed.

Lemma path_of_In (ns : list V) k n : In (k, n) (path_of ns) <-> exists i, k = str_nat i /\ nth_error ns i = Some n.
Proof.
  unfold path_of.
  assert (H : forall st, In (k, n) (combine (map str_nat (seq st (List.length ns))) ns) <->
              exists i, k = str_nat (st + i) /\ nth_error ns i = Some n).
  { induction ns as [|a ns IH]; intros st; simpl.
    - split; [tauto|]. intros (i & _ & E). destruct i; discriminate.
    - rewrite IH. split.
      + intros [E|(i & E & F)].
        * injection E as <- <-. exists 0. rewrite Nat.add_0_r. auto.
        * exists (S i). rewrite Nat.add_succ_r. auto.
      + intros (i & E & F). destruct i; simpl in F.
        * injection F as ->. left. rewrite Nat.add_0_r in E. now subst.
        * right. exists i. rewrite Nat.add_succ_r in E. auto. }
  apply (H 0).
Qed.

Lemma nth_error_prefix {A} (a b : list A) :
  (forall i x, nth_error a i = Some x -> nth_error b i = Some x) -> exists c, b = a ++ c.
Proof.
  revert b. induction a as [|x a IH]; intros b H; [now exists b|].
  destruct b as [|y b].
  - specialize (H 0 x eq_refl). discriminate.
  - specialize (H 0 x eq_refl) as H0. simpl in H0. injection H0 as ->.
    destruct (IH b) as [c ->]; [|now exists c].
    intros i z E. exact (H (S i) z E).
Qed.

Lemma path_contains_prefix (veq : V -> V -> bool) (veq_eq : forall a b, veq a b = true <-> a = b) (a b : list V) :
  compare_lists veq (path_of b) (path_of a) = true <-> is_prefix a b.
Proof.
  rewrite compare_lists_incl by auto. split.
  - intros H. apply nth_error_prefix. intros i x E.
    assert (I : In (str_nat i, x) (path_of a)) by (apply path_of_In; eauto).
    apply H, path_of_In in I as (j & Ej & F). apply str_nat_inj in Ej. now subst.
  - intros [c ->] [k n] I. apply path_of_In in I as (i & -> & E). apply path_of_In.
    exists i. split; auto. rewrite nth_error_app1; auto. apply nth_error_Some. congruence.
Qed.

Lemma path_of_snoc (ns : list V) n : path_of (ns ++ [n]) = path_of ns ++ [(str_nat (List.length ns), n)].
Proof.
  unfold path_of. rewrite app_length. simpl. rewrite Nat.add_1_r, seq_S, map_app. simpl.
  assert (L : List.length (map str_nat (seq 0 (List.length ns))) = List.length ns)
    by now rewrite map_length, seq_length.
  revert L. generalize (map str_nat (seq 0 (List.length ns))). generalize (str_nat (List.length ns)).
  induction ns as [|a ns IH]; intros s l L; destruct l; simpl in *; try discriminate; auto.
  f_equal. apply IH. lia.
Qed.
End Laws.

(** ** reachable objects: dictionary storage always comes with its flag *)
Section Reach.
Context {V : Type}.
Inductive reachable : adc V -> Prop :=
| r_new : reachable adc_new
| r_dict c : reachable c -> reachable (create_dictionary c)
| r_list c : reachable c -> reachable (create_list c)
| r_append c k v c' : reachable c -> adc_append c k v = Ok c' -> reachable c'
| r_set c k v c' : reachable c -> adc_setitem c k v = Ok c' -> reachable c'
| r_pop c k v c' : reachable c -> adc_pop c k = Ok (v, c') -> reachable c'
| r_extend c o c' : reachable c -> reachable o -> adc_extend c o = Ok c' -> reachable c'.

Definition good (c : adc V) : Prop :=
  match container c with
  | SNone => is_dict c = false /\ is_list c = false
  | SDict l => is_dict c = true /\ NoDup (keys l)
  | SList l => is_list c = true
  end.

Lemma reachable_good c : reachable c -> good c.
Proof.
  induction 1; unfold good in *; simpl; auto.
  - split; auto. constructor.
  - unfold adc_append in H0. destruct (is_dict c) eqn:D, (is_list c) eqn:L, (container c) eqn:C;
      try discriminate; injection H0 as <-; simpl; rewrite ?D, ?L, ?C; auto;
      try (split; [auto|apply nodup_d_set; tauto]).
  - unfold adc_setitem in H0. destruct (is_dict c) eqn:D, (is_list c) eqn:L, (container c) eqn:C;
      try discriminate; injection H0 as <-; simpl; rewrite ?D, ?L, ?C; auto;
      try (split; [auto|apply nodup_d_set; tauto]).
  - unfold adc_pop in H0. destruct (is_dict c) eqn:D, (is_list c) eqn:L, (container c) eqn:C;
      try discriminate; try (injection H0 as <- <-; simpl; rewrite ?D, ?L, ?C; auto; fail).
    + unfold d_pop in H0. destruct (d_get k l); simpl in H0; [|discriminate]. injection H0 as <- <-. simpl.
      split; auto. apply nodup_d_remove. tauto.
    + unfold d_pop in H0. destruct (d_get k l); simpl in H0; [|discriminate]. injection H0 as <- <-. simpl.
      split; auto. apply nodup_d_remove. tauto.
    + destruct (l_pop k l) as [[w l']|]; simpl in H0; [|discriminate]. injection H0 as <- <-. simpl. auto.
  - unfold adc_extend in H1. destruct (is_dict c && is_dict o) eqn:D.
    + destruct (container c) eqn:C, (container o) eqn:C'; try discriminate. injection H1 as <-. simpl.
      split; [tauto|]. apply nodup_d_update. tauto.
    + destruct (is_list c && is_list o) eqn:L; [|discriminate].
      destruct (container c) eqn:C, (container o) eqn:C'; try discriminate. injection H1 as <-. simpl. tauto.
Qed.
End Reach.
