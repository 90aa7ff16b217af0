(** C01 - C08: properties of the data containers. *)
From Coq Require Import List String Bool Arith.
From Verif Require Import Base Container ContainerSpec ContainerProofs ContainerHeap ContainerHeapProofs.
Import ListNotations.
Open Scope string_scope.
Open Scope list_scope.

(** C01.  After any history [h] of calls on a fresh dictionary-mode container, reading key
    [k] gives the last value written and not popped since ([expected]), [c[k]] and
    [c.pop(k)] raise KeyError exactly when there is none, a successful pop removes that key
    only, and iteration lists each live key once. *)
Theorem C01_dictionary_container_is_a_map :
  forall (V : Type) (h : list (op V)) (k : string),
  let c := drive dict_of (create_dictionary adc_new) h in
  adc_get c k = Ok (expected k h None) /\
  adc_getitem c k = match expected k h None with Some v => Ok (Some v) | None => Err KeyError end /\
  (match expected k h None with
   | None => adc_pop c k = Err KeyError
   | Some v => exists c', adc_pop c k = Ok (Some v, c') /\
               forall k', adc_get c' k' = Ok (if String.eqb k k' then None else expected k' h None)
   end) /\
  exists l, adc_iter c = Ok l /\ adc_len c = List.length l /\ NoDup (map fst l) /\
            (forall v, In (k, v) l <-> expected k h None = Some v).
Proof. exact @dict_refines_map. Qed.
Print Assumptions C01_dictionary_container_is_a_map.

Example C01_witness :
  let h := [Append "a" 1; SetItem "b" 2; Extend [("a", 3); ("c", 4)]; Pop "b"; Append "b" 5] in
  expected "a" h None = Some 3 /\ expected "b" h None = Some 5 /\
  adc_iter (drive dict_of (create_dictionary adc_new) h) = Ok [("a", 3); ("c", 4); ("b", 5)].
Proof. repeat split. Qed.

(** C02.  If [append]/[extend] only bring keys that are absent and assignment is used on
    existing keys, list mode and dictionary mode are indistinguishable. *)
Theorem C02_list_mode_agrees_with_dictionary_mode :
  forall (V : Type) (h : list (op V)), disciplined [] h ->
  let cd := drive dict_of (create_dictionary adc_new) h in
  let cl := drive list_of (create_list adc_new) h in
  (forall k, adc_get cl k = adc_get cd k) /\ adc_len cl = adc_len cd /\ adc_iter cl = adc_iter cd /\
  adc_values cl = adc_values cd /\
  (forall k, match adc_pop cd k, adc_pop cl k with
             | Ok (v, cd'), Ok (v', cl') => v = v' /\ adc_iter cd' = adc_iter cl'
             | Err e, Err e' => e = e'
             | _, _ => False
             end).
Proof. exact @list_agrees_with_dict. Qed.
Print Assumptions C02_list_mode_agrees_with_dictionary_mode.

Example C02_witness : disciplined []
  [Append "a" 1; Append "b" 2; SetItem "a" 7; Pop "b"; Extend [("b", 3); ("c", 4)]].
Proof.
  cbn. repeat split; auto; try congruence.
  - constructor; [intros [H|[]]; discriminate|]. constructor; [intros []|constructor].
  - intros k [<-|[<-|[]]]; reflexivity.
Qed.

(** C02, finding: assigning a missing key creates it in dictionary mode and is silently
    lost in list mode, and re-appending a key keeps the old value in list mode. *)
Theorem C02_modes_differ_without_discipline_refuted :
  exists (h h' : list (op nat)),
    h = [SetItem "k" 1] /\ h' = [Append "k" 1; Append "k" 2] /\
    adc_get (drive dict_of (create_dictionary adc_new) h) "k" = Ok (Some 1) /\
    adc_get (drive list_of (create_list adc_new) h) "k" = Ok None /\
    adc_get (drive dict_of (create_dictionary adc_new) h') "k" = Ok (Some 2) /\
    adc_get (drive list_of (create_list adc_new) h') "k" = Ok (Some 1).
Proof. do 2 eexists. repeat split. Qed.
Print Assumptions C02_modes_differ_without_discipline_refuted.

(** C03.  In list mode append-then-pop restores the container exactly and returns the
    appended value, whatever was stored under the key before; the oldest value is the one
    read; popping a missing key raises KeyError. *)
Theorem C03_list_append_pop_lifo :
  forall (V : Type) (l : list (string * V)) (k : string) (v : V),
  (exists c, adc_append (list_of l) k v = Ok c /\ adc_pop c k = Ok (Some v, list_of l) /\
             adc_get c k = Ok (Some (match find (fun it => String.eqb (fst it) k) l with
                                     | Some it => snd it | None => v end))) /\
  (~ In k (map fst l) -> adc_pop (list_of l) k = Err KeyError) /\
  (forall w c', adc_pop (list_of l) k = Ok (w, c') ->
     exists a x b, w = Some x /\ l = a ++ (k, x) :: b /\ c' = list_of (a ++ b) /\ ~ In k (map fst b)).
Proof.
  intros V l k v. split; [|split].
  - exists (list_of (l ++ [(k, v)])). split; [reflexivity|]. split.
    + unfold adc_pop; simpl. pose proof (l_pop_append k v l) as H. unfold l_append in H. rewrite H. reflexivity.
    + unfold adc_get; simpl. rewrite l_get_app. f_equal.
      induction l as [|[a b] l IH]; simpl; [now rewrite String.eqb_refl|].
      destruct (String.eqb a k); auto.
  - intros H. unfold adc_pop; simpl. now rewrite l_pop_missing.
  - intros w c'. unfold adc_pop; simpl. destruct (l_pop k l) as [[x l']|] eqn:E; simpl; [|discriminate].
    intros H; injection H as <- <-. apply l_pop_spec in E as (a & b & -> & -> & N).
    exists a, x, b. auto.
Qed.
Print Assumptions C03_list_append_pop_lifo.

Example C03_witness :
  adc_pop (list_of [("1", 10); ("0", 20); ("1", 30)]) "1" = Ok (Some 30, list_of [("1", 10); ("0", 20)]).
Proof. reflexivity. Qed.

(** C04.  Containment is reflexive and transitive whenever value equality is. *)
Theorem C04_containment_is_a_preorder :
  forall (V : Type) (veq : V -> V -> bool),
  (forall a, veq a a = true) ->
  (forall a b c, veq a b = true -> veq b c = true -> veq a c = true) ->
  (forall a b, veq a b = true -> veq b a = true) ->
  (forall l, adc_contains veq (list_of l) (list_of l) = Ok true) /\
  (forall l, NoDup (map fst l) -> adc_contains veq (dict_of l) (dict_of l) = Ok true) /\
  (forall mk, mk = list_of \/ mk = dict_of -> forall a b c,
     adc_contains veq (mk b) (mk a) = Ok true -> adc_contains veq (mk c) (mk b) = Ok true ->
     adc_contains veq (mk c) (mk a) = Ok true).
Proof.
  intros V veq R T S. split; [|split].
  - intros l. unfold adc_contains; simpl. now rewrite compare_lists_refl.
  - intros l ND. unfold adc_contains; simpl. now rewrite compare_dicts_refl.
  - intros mk M a b c. destruct M; subst mk; unfold adc_contains; simpl; intros H1 H2;
      injection H1 as H1; injection H2 as H2; f_equal.
    + eapply compare_lists_trans; eauto.
    + eapply compare_dicts_trans; eauto.
Qed.
Print Assumptions C04_containment_is_a_preorder.

(** C04.  On graph paths containment is the prefix relation on node sequences. *)
Theorem C04_path_containment_is_prefix :
  forall (V : Type) (veq : V -> V -> bool), (forall a b, veq a b = true <-> a = b) ->
  forall a b : list V,
  adc_contains veq (list_of (path_of b)) (list_of (path_of a)) = Ok true <-> is_prefix a b.
Proof.
  intros V veq E a b. rewrite <- (path_contains_prefix veq E). unfold adc_contains; simpl.
  split; [intros H; now injection H|intros ->; reflexivity].
Qed.
Print Assumptions C04_path_containment_is_prefix.

Example C04_witness :
  adc_contains Nat.eqb (list_of (path_of [0; 2; 5])) (list_of (path_of [0; 2])) = Ok true /\
  adc_contains Nat.eqb (list_of (path_of [0; 2; 5])) (list_of (path_of [0; 5])) = Ok false /\
  path_of [0; 2; 5] = [("0", 0); ("1", 2); ("2", 5)].
Proof. repeat split. Qed.

(** C05 is false of the code: for two containers that were never created [==] is True but
    [!=] raises TypeError. *)
Theorem C05_ne_is_not_eq_refuted :
  exists a b : adc nat, adc_eq Nat.eqb a b = Ok true /\ adc_ne Nat.eqb a b = Err TypeError.
Proof. exists adc_new, adc_new. split; reflexivity. Qed.
Print Assumptions C05_ne_is_not_eq_refuted.

(** C05, the part that holds: as soon as one of the two containers has been created. *)
Theorem C05_ne_is_not_eq_partial :
  forall (V : Type) (veq : V -> V -> bool) (a b : adc V),
  (is_dict a || is_list a || is_dict b || is_list b) = true ->
  match adc_eq veq a b, adc_ne veq a b with
  | Ok x, Ok y => y = negb x
  | Err e, Err e' => e = TypeError /\ e' = TypeError
  | _, _ => False
  end.
Proof.
  intros V veq a b H. unfold adc_eq, adc_ne.
  destruct (is_dict a), (is_list a), (is_dict b), (is_list b); simpl in *; auto; discriminate.
Qed.
Print Assumptions C05_ne_is_not_eq_partial.

Example C05_witness :
  adc_eq Nat.eqb (dict_of [("a", 1); ("b", 2)]) (dict_of [("b", 2); ("a", 1)]) = Ok true /\
  adc_eq Nat.eqb (list_of [("a", 1); ("b", 2)]) (list_of [("b", 2); ("a", 1)]) = Ok false /\
  adc_eq Nat.eqb (list_of []) (dict_of []) = Err TypeError.
Proof. repeat split. Qed.

(** C06.  Difference in list mode: the items of the first operand, in order, that do not
    occur in the second. *)
Theorem C06_list_difference :
  forall (V : Type) (veq : V -> V -> bool) (isnone : V -> bool), (forall a b, veq a b = true <-> a = b) ->
  forall l1 l2 : list (string * V),
  exists l, adc_difference veq isnone (list_of l1) (list_of l2) = Ok (list_of l) /\
    (forall it, In it l <-> In it l1 /\ ~ In it l2) /\
    (exists keep, l = filter keep l1) /\
    (forall it, count_occ_b (item_eqb veq) l it = if existsb (item_eqb veq it) l2 then 0
                else count_occ_b (item_eqb veq) l1 it).
Proof.
  intros V veq isnone E l1 l2. exists (difference_lists veq l1 l2). split; [reflexivity|]. split; [|split].
  - intros it. now apply difference_lists_spec.
  - eexists. reflexivity.
  - intros it. unfold difference_lists, item_in. induction l1 as [|x l1 IH]; simpl.
    + now destruct (existsb (item_eqb veq it) l2).
    + destruct (item_eqb veq it x) eqn:F.
      * apply item_eqb_eq in F; auto. subst x.
        destruct (existsb (item_eqb veq it) l2); simpl; auto.
        assert (item_eqb veq it it = true) as -> by (apply item_eqb_eq; auto). now rewrite IH.
      * destruct (existsb (item_eqb veq x) l2); simpl; auto. now rewrite F.
Qed.
Print Assumptions C06_list_difference.

(** C06.  Difference in dictionary mode, for containers holding no [None] values. *)
Theorem C06_dictionary_difference_partial :
  forall (V : Type) (veq : V -> V -> bool) (isnone : V -> bool) (l1 l2 : list (string * V)),
  (forall a b, veq a b = true <-> a = b) ->
  NoDup (map fst l1) -> NoDup (map fst l2) -> (forall it, In it l1 -> isnone (snd it) = false) ->
  exists l, adc_difference veq isnone (dict_of l1) (dict_of l2) = Ok (dict_of l) /\
    (forall it, In it l <-> In it l1 /\ ~ In it l2) /\ (exists keep, l = filter keep l1).
Proof.
  intros V veq isnone l1 l2 E N1 N2 HN. unfold adc_difference; simpl.
  rewrite difference_dicts_filter by auto. simpl. eexists; split; [reflexivity|].
  split; [|eexists; reflexivity].
  intros it. rewrite filter_In. split.
  - intros [I H]. split; auto. rewrite (HN _ I) in H. simpl in H. apply negb_true_iff in H.
    intros J. apply (item_in_In veq) in J; auto. congruence.
  - intros [I H]. split; auto. rewrite (HN _ I). simpl. apply negb_true_iff.
    destruct (item_in veq it l2) eqn:F; auto. apply item_in_In in F; auto. tauto.
Qed.
Print Assumptions C06_dictionary_difference_partial.

(** C06, finding: in dictionary mode an item whose value is [None] survives although the
    second operand contains it; in list mode the same item is removed. *)
Theorem C06_none_values_not_removed_refuted :
  exists l1 l2 : list (string * option nat),
  let eqo a b := match a, b with Some x, Some y => Nat.eqb x y | None, None => true | _, _ => false end in
  let isnone v := match v with None => true | Some _ => false end in
  In ("k", None) l1 /\ In ("k", None) l2 /\
  adc_difference eqo isnone (dict_of l1) (dict_of l2) = Ok (dict_of [("k", None)]) /\
  adc_difference eqo isnone (list_of l1) (list_of l2) = Ok (list_of []).
Proof. exists [("k", None); ("j", Some 1)], [("j", Some 1); ("k", None)]. repeat split; simpl; auto. Qed.
Print Assumptions C06_none_values_not_removed_refuted.

(** C06.  The operands must be in a common mode. *)
Theorem C06_difference_mode_mismatch :
  forall (V : Type) (veq : V -> V -> bool) isnone (a b : adc V),
  is_dict a && is_dict b = false -> is_list a && is_list b = false ->
  adc_difference veq isnone a b = Err TypeError.
Proof. intros V veq isnone a b H1 H2. unfold adc_difference. now rewrite H1, H2. Qed.
Print Assumptions C06_difference_mode_mismatch.

Example C06_witness :
  adc_difference Nat.eqb (fun _ => false) (list_of [("0", 5); ("1", 6); ("0", 7)]) (list_of [("0", 5); ("1", 9)])
    = Ok (list_of [("1", 6); ("0", 7)]) /\
  adc_difference Nat.eqb (fun _ => false) (dict_of [("0", 5); ("1", 6)]) (dict_of [("0", 5); ("1", 9)])
    = Ok (dict_of [("1", 6)]).
Proof. repeat split. Qed.

(** C07 is false of the code: a loop inside a loop over the same container ends the outer
    loop after one item, for every container with at least one item. *)
Theorem C07_nested_iteration_refuted :
  forall (A : Type) (env : nat -> list A) o i j x l fuel p t p',
  env o = x :: l -> i <> j ->
  exec env fuel (For o i [For o j []]) p = Some (t, p') -> seen i t = [x].
Proof. intros A env o i j x l fuel p t p'. apply nested_sees_one. Qed.
Print Assumptions C07_nested_iteration_refuted.

Example C07_nested_witness :
  exists t p', exec (fun _ => [10; 20; 30]) 20 (For 0 1 [For 0 2 []]) (fun _ => 0) = Some (t, p')
    /\ seen 1 t = [10] /\ seen 2 t = [10; 20; 30].
Proof. do 2 eexists. split; [vm_compute; reflexivity|]. split; reflexivity. Qed.

(** C07, finding: looking at the first item of a container inside a loop over it makes the
    loop run forever as soon as it has two items. *)
Theorem C07_peek_in_loop_diverges_refuted :
  forall (A : Type) (env : nat -> list A) o i x y l, env o = x :: y :: l ->
  forall fuel p, exec env fuel (For o i [Peek o]) p = None.
Proof.
  intros A env o i x y l H [|fuel] p; [reflexivity|]. rewrite exec_eq.
  eapply peek_loop_forever; eauto. unfold m_iter. rewrite upd_same. auto.
Qed.
Print Assumptions C07_peek_in_loop_diverges_refuted.

(** C07, the part that holds: a loop whose body iterates other containers only, however
    deeply nested, receives every item once, in order, in every finished run. *)
Theorem C07_iteration_visits_all_partial :
  forall (A : Type) (env : nat -> list A) o i body fuel p t p',
  existsb (iterates o) body = false -> existsb (tagged i) body = false ->
  exec env fuel (For o i body) p = Some (t, p') -> seen i t = env o.
Proof.
  intros A env o i body [|fuel] p t p' H1 H2 E; [discriminate|]. rewrite exec_eq in E.
  apply loop_visits_all in E; auto. rewrite E. unfold m_iter. now rewrite upd_same.
Qed.
Print Assumptions C07_iteration_visits_all_partial.

Example C07_witness :
  exists t p', exec (fun o => if Nat.eqb o 0 then [10; 20; 30] else [1; 2]) 40
                 (For 0 1 [Peek 1; For 1 2 []]) (fun _ => 0) = Some (t, p')
    /\ seen 1 t = [10; 20; 30] /\ seen 2 t = [1; 2; 1; 2; 1; 2].
Proof. do 2 eexists. split; [vm_compute; reflexivity|]. split; reflexivity. Qed.

(** C08 is false of the code in list mode: after [a.extend(b)], assigning through [a]
    changes what [b] holds. *)
Theorem C08_extend_shares_items_refuted :
  exists (h : @heap nat) (a b : cont),
    view h b = [("k", 1)] /\ view h a = [] /\
    view (h_set h (h_extend a b) "k" 2) b = [("k", 2)].
Proof. exists [("k", 1)], [], [0]. repeat split. Qed.
Print Assumptions C08_extend_shares_items_refuted.

(** C08, the part that holds: as long as two containers are not connected by an [extend] of
    one with the other, any interleaving of operations on both behaves as if each had been
    used alone (so the sharing-free model of Container.v is adequate for them). *)
Theorem C08_no_interference_without_sharing_partial :
  forall (V : Type) (l : list (bool * op V)),
  let '(h, a, b) := h_drive l in
  list_of (view h a) = drive list_of (create_list adc_new) (only true l) /\
  list_of (view h b) = drive list_of (create_list adc_new) (only false l).
Proof. intros V. exact heap_refines_values. Qed.
Print Assumptions C08_no_interference_without_sharing_partial.

Example C08_witness :
  let l := [(true, Append "x" 1); (false, Append "x" 2); (true, SetItem "x" 3); (false, Extend [("y", 4)]);
            (true, Pop "x"); (true, Append "z" 5)] in
  let '(h, a, b) := h_drive l in view h a = [("z", 5)] /\ view h b = [("x", 2); ("y", 4)].
Proof. split; reflexivity. Qed.

(** C87.  After any two histories, [==] of two dictionary-mode containers is True exactly
    when every key reads the same in both, whatever the order of the writes; of two list-mode
    containers exactly when they iterate over the same items in the same order. *)
Theorem C87_equality_is_equality_of_contents :
  forall (V : Type) (veq : V -> V -> bool), (forall a b, veq a b = true <-> a = b) ->
  (forall h h' : list (op V),
     exists b, adc_eq veq (drive dict_of (create_dictionary adc_new) h) (drive dict_of (create_dictionary adc_new) h') = Ok b /\
     (b = true <-> forall k, expected k h None = expected k h' None)) /\
  (forall l l' : list (string * V), exists b, adc_eq veq (list_of l) (list_of l') = Ok b /\ (b = true <-> l = l')).
Proof.
  intros V veq E. split.
  - intros h h'. destruct (drive_dict_inv h) as (l & -> & ND & G). destruct (drive_dict_inv h') as (l' & -> & ND' & G').
    eexists. split; [reflexivity|]. cbn [dict_of container storage_eqb]. unfold dict_eqb. rewrite Bool.andb_true_iff, Nat.eqb_eq. unfold compare_dictionaries. rewrite forallb_forall. split.
    + intros (L & F).
      assert (IN : forall k v, d_get k l' = Some v -> d_get k l = Some v).
      { intros k v H. apply l_get_Some_In in H. specialize (F _ H). cbn in F. destruct (d_get k l) as [w|]; [|discriminate]. apply E in F. now subst. }
      assert (INC : incl (keys l) (keys l')).
      { apply NoDup_length_incl; [exact ND'| |].
        - unfold keys. rewrite !map_length. rewrite L. apply le_n.
        - intros k I. destruct (d_get k l') as [v|] eqn:H; [|now apply l_get_None in H].
          apply IN in H. apply l_get_Some_In in H. apply (in_map fst) in H. exact H. }
      intros k. rewrite <- G, <- G'. destruct (d_get k l') as [v|] eqn:H; [now apply IN|].
      destruct (d_get k l) as [w|] eqn:H2; auto. exfalso. apply l_get_None in H. apply H, INC. apply l_get_Some_In in H2. apply (in_map fst) in H2. exact H2.
    + intros H. assert (D : forall k, d_get k l = d_get k l') by (intros k; now rewrite G, G').
      assert (SUB : forall a b : list (string * V), NoDup (keys a) -> (forall k, d_get k a = d_get k b) -> List.length a <= List.length b).
      { intros a b N X. rewrite <- (map_length fst a), <- (map_length fst b). apply NoDup_incl_length; [exact N|].
        intros k I. destruct (d_get k b) as [v|] eqn:Q; [apply l_get_Some_In in Q; now apply (in_map fst) in Q|].
        rewrite <- X in Q. now apply l_get_None in Q. }
      split; [apply Nat.le_antisymm; apply SUB; auto|].
      intros [k v] I. cbn. rewrite D. replace (d_get k l') with (Some v) by (symmetry; unfold d_get; now apply l_get_nodup_In). now apply E.
  - intros l l'. eexists. split; [reflexivity|]. cbn [list_of container storage_eqb]. revert l'.
    induction l as [|a l IH]; intros [|b l']; cbn [list_eqb]; [split; auto|split; discriminate|split; discriminate|].
    rewrite Bool.andb_true_iff, IH. rewrite item_eqb_eq by auto. split; [intros (-> & ->); auto|intros X; injection X as -> ->; auto].
Qed.
Print Assumptions C87_equality_is_equality_of_contents.

Example C87_witness :
  let h := [Append "a" 1; SetItem "b" 2; Pop "a"; Append "a" 3] in
  let h' := [SetItem "a" 3; Append "b" 2] in
  (forall k, expected k h None = expected k h' None) /\
  adc_eq Nat.eqb (drive dict_of (create_dictionary adc_new) h) (drive dict_of (create_dictionary adc_new) h') = Ok true /\
  adc_eq Nat.eqb (drive dict_of (create_dictionary adc_new) h) (drive dict_of (create_dictionary adc_new) [Append "b" 2]) = Ok false.
Proof.
  cbn zeta. split; [|split; reflexivity]. intros k. cbn [expected]. destruct (String.eqb_spec "a" k), (String.eqb_spec "b" k); auto. congruence.
Qed.
