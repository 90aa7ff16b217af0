From Coq Require Import List String Bool Arith Lia.
From Verif Require Import Base Container ContainerSpec ContainerProofs ContainerHeap.
Import ListNotations.
Open Scope list_scope.

Section IterP.
Context {A : Type}.
Variable env : nat -> list A.

Lemma exec_eq f s p : exec env (S f) s p =
  match s with
  | Peek o => Some ([], snd (m_next env (m_iter p o) o))
  | For o i body => exec_loop env f o i body (m_iter p o)
  end.
Proof. reflexivity. Qed.
Lemma exec_loop_eq f o i body p : exec_loop env (S f) o i body p =
  match m_next env p o with
  | (None, p') => Some ([], p')
  | (Some x, p') =>
      match exec_list env f body p' with
      | None => None
      | Some (t, p'') =>
          match exec_loop env f o i body p'' with
          | None => None
          | Some (t', p''') => Some ((i, x) :: t ++ t', p''')
          end
      end
  end.
Proof. reflexivity. Qed.
Lemma exec_list_eq f l p : exec_list env (S f) l p =
  match l with
  | [] => Some ([], p)
  | s :: l' =>
      match exec env f s p with
      | None => None
      | Some (t, p') =>
          match exec_list env f l' p' with
          | None => None
          | Some (t', p'') => Some (t ++ t', p'')
          end
      end
  end.
Proof. reflexivity. Qed.

Lemma upd_same p o n : upd p o n o = n.
Proof. unfold upd. now rewrite Nat.eqb_refl. Qed.
Lemma upd_other p o n x : x <> o -> upd p o n x = p x.
Proof. unfold upd. intros. destruct (Nat.eqb_spec x o); congruence. Qed.

Lemma m_next_other p o r p' x : m_next env p o = (r, p') -> x <> o -> p' x = p x.
Proof.
  unfold m_next. destruct (nth_error (env o) (p o)); intros E N; injection E as <- <-; auto.
  now apply upd_other.
Qed.

(** Code that does not iterate [o] leaves [o]'s iterator alone, and code
    without loops tagged [i] adds nothing to what [i] saw. *)
Lemma exec_frame fuel : forall o,
  (forall s p t p', iterates o s = false -> exec env fuel s p = Some (t, p') -> p' o = p o) /\
  (forall o' i body p t p', o' <> o -> existsb (iterates o) body = false ->
      exec_loop env fuel o' i body p = Some (t, p') -> p' o = p o) /\
  (forall l p t p', existsb (iterates o) l = false -> exec_list env fuel l p = Some (t, p') -> p' o = p o).
Proof.
  induction fuel as [|f IH]; intros o; [repeat split; intros; discriminate|].
  destruct (IH o) as (I1 & I2 & I3). repeat split.
  - intros [o'|o' i body] p t p' H E; cbn [iterates] in H; rewrite exec_eq in E.
    + apply Nat.eqb_neq in H.
      destruct (m_next env (m_iter p o') o') as [r q] eqn:M. cbn [snd] in E. injection E as <- <-.
      rewrite (m_next_other _ _ _ _ o M) by congruence. unfold m_iter. apply upd_other. congruence.
    + apply orb_false_iff in H as [H1 H2]. apply Nat.eqb_neq in H1.
      apply I2 in E; auto. rewrite E. unfold m_iter. apply upd_other. congruence.
  - intros o' i body p t p' N H E. rewrite ?exec_loop_eq, ?exec_list_eq in E.
    destruct (m_next env p o') as [[x|] q] eqn:M.
    + destruct (exec_list env f body q) as [[t1 q1]|] eqn:E1; [|discriminate].
      destruct (exec_loop env f o' i body q1) as [[t2 q2]|] eqn:E2; [|discriminate].
      injection E as <- <-. apply I2 in E2; auto. apply I3 in E1; auto.
      rewrite E2, E1. eapply m_next_other; eauto.
    + injection E as <- <-. eapply m_next_other; eauto.
  - intros l p t p' H E. rewrite ?exec_loop_eq, ?exec_list_eq in E. destruct l as [|s l]; [injection E as <- <-; auto|].
    cbn in H. apply orb_false_iff in H as [H1 H2].
    destruct (exec env f s p) as [[t1 q1]|] eqn:E1; [|discriminate].
    destruct (exec_list env f l q1) as [[t2 q2]|] eqn:E2; [|discriminate].
    injection E as <- <-. apply I3 in E2; auto. apply I1 in E1; auto. congruence.
Qed.

Lemma seen_app i (t t' : list (nat * A)) : seen i (t ++ t') = seen i t ++ seen i t'.
Proof. unfold seen. now rewrite filter_app, map_app. Qed.

Lemma exec_untagged fuel : forall i,
  (forall s p t p', tagged i s = false -> exec env fuel s p = Some (t, p') -> seen i t = []) /\
  (forall o' j body p t p', j <> i -> existsb (tagged i) body = false ->
      exec_loop env fuel o' j body p = Some (t, p') -> seen i t = []) /\
  (forall l p t p', existsb (tagged i) l = false -> exec_list env fuel l p = Some (t, p') -> seen i t = []).
Proof.
  induction fuel as [|f IH]; intros i; [repeat split; intros; discriminate|].
  destruct (IH i) as (I1 & I2 & I3). repeat split.
  - intros [o'|o' j body] p t p' H E; cbn [tagged] in H; rewrite exec_eq in E.
    + now injection E as <- <-.
    + apply orb_false_iff in H as [H1 H2]. apply Nat.eqb_neq in H1. eapply I2; eauto.
  - intros o' j body p t p' N H E. rewrite ?exec_loop_eq, ?exec_list_eq in E.
    destruct (m_next env p o') as [[x|] q] eqn:M; [|now injection E as <- <-].
    destruct (exec_list env f body q) as [[t1 q1]|] eqn:E1; [|discriminate].
    destruct (exec_loop env f o' j body q1) as [[t2 q2]|] eqn:E2; [|discriminate].
    injection E as <- <-. change ((j, x) :: t1 ++ t2) with ([(j, x)] ++ t1 ++ t2).
    rewrite !seen_app. rewrite (I3 _ _ _ _ H E1), (I2 _ _ _ _ _ _ N H E2).
    unfold seen; simpl. destruct (Nat.eqb_spec j i); [congruence|reflexivity].
  - intros l p t p' H E. rewrite ?exec_loop_eq, ?exec_list_eq in E. destruct l as [|s l]; [now injection E as <- <-|].
    cbn in H. apply orb_false_iff in H as [H1 H2].
    destruct (exec env f s p) as [[t1 q1]|] eqn:E1; [|discriminate].
    destruct (exec_list env f l q1) as [[t2 q2]|] eqn:E2; [|discriminate].
    injection E as <- <-. rewrite seen_app, (I1 _ _ _ _ H1 E1), (I3 _ _ _ _ H2 E2). reflexivity.
Qed.

Lemma skipn_nth {B} (l : list B) n x : nth_error l n = Some x -> skipn n l = x :: skipn (S n) l.
Proof. revert n. induction l; intros [|n] H; simpl in *; try discriminate; auto; congruence. Qed.

Lemma skipn_none {B} (l : list B) n : nth_error l n = None -> skipn n l = [].
Proof. intros H. apply skipn_all2. now apply nth_error_None. Qed.

Lemma loop_visits_all fuel : forall o i body p t p',
  existsb (iterates o) body = false -> existsb (tagged i) body = false ->
  exec_loop env fuel o i body p = Some (t, p') -> seen i t = skipn (p o) (env o).
Proof.
  induction fuel as [|f IH]; intros o i body p t p' H1 H2 E; [discriminate|].
  rewrite exec_loop_eq in E. unfold m_next in E. destruct (nth_error (env o) (p o)) as [x|] eqn:N.
  - destruct (exec_list env f body _) as [[t1 q1]|] eqn:E1; [|discriminate].
    destruct (exec_loop env f o i body q1) as [[t2 q2]|] eqn:E2; [|discriminate].
    injection E as <- <-. change ((i, x) :: t1 ++ t2) with ([(i, x)] ++ t1 ++ t2).
    rewrite !seen_app. destruct (exec_untagged f i) as (_ & _ & U). rewrite (U _ _ _ _ H2 E1).
    rewrite (IH _ _ _ _ _ _ H1 H2 E2).
    destruct (exec_frame f o) as (_ & _ & F). rewrite (F _ _ _ _ H1 E1). rewrite upd_same.
    unfold seen; simpl. rewrite Nat.eqb_refl. simpl. now rewrite (skipn_nth _ _ _ N).
  - injection E as <- <-. now rewrite skipn_none.
Qed.

(** termination: enough budget exists when no object is re-iterated inside a
    loop over itself is not needed here; the statement quantifies over all
    finished runs.  For loop-free bodies we also give existence. *)
Lemma simple_loop_terminates o i : forall n p,
  List.length (env o) - p o <= n -> exists t p', exec_loop env (S (S n)) o i [] p = Some (t, p').
Proof.
  induction n as [|n IH]; intros p H.
  - rewrite exec_loop_eq. unfold m_next. destruct (nth_error (env o) (p o)) eqn:N; eauto.
    assert (p o < List.length (env o)) by (apply nth_error_Some; congruence). lia.
  - rewrite exec_loop_eq. unfold m_next. destruct (nth_error (env o) (p o)) eqn:N; eauto.
    assert (p o < List.length (env o)) by (apply nth_error_Some; congruence).
    destruct (IH (upd p o (S (p o)))) as (t & p' & E); [rewrite upd_same; lia|].
    rewrite exec_list_eq, E. eauto.
Qed.

(** Nested loops over the same object: the outer loop receives one item. *)
Lemma inner_exhausts fuel : forall o j p t p',
  exec_loop env fuel o j [] p = Some (t, p') -> nth_error (env o) (p' o) = None.
Proof.
  induction fuel as [|f IH]; intros o j p t p' E; [discriminate|].
  rewrite exec_loop_eq in E. unfold m_next in E. destruct (nth_error (env o) (p o)) eqn:N.
  - destruct f; [discriminate|]. rewrite exec_list_eq in E.
    destruct (exec_loop env (S f) o j [] _) as [[t2 q2]|] eqn:E2; [|discriminate].
    injection E as <- <-. eapply IH; eauto.
  - injection E as <- <-. auto.
Qed.

Lemma nested_sees_one fuel o i j x l p t p' :
  env o = x :: l -> i <> j ->
  exec env fuel (For o i [For o j []]) p = Some (t, p') -> seen i t = [x].
Proof.
  intros Ho N E. destruct fuel as [|f]; [discriminate|]. rewrite exec_eq in E.
  destruct f as [|f]; [discriminate|]. rewrite exec_loop_eq in E.
  unfold m_next at 1, m_iter at 1 2 in E. rewrite upd_same, Ho in E. cbn [nth_error] in E.
  destruct (exec_list env f [For o j []] _) as [[t1 q1]|] eqn:E1; [|discriminate].
  destruct (exec_loop env f o i _ q1) as [[t2 q2]|] eqn:E2; [|discriminate].
  injection E as <- <-.
  assert (X : nth_error (env o) (q1 o) = None).
  { destruct f as [|f]; [discriminate|]. rewrite exec_list_eq in E1.
    destruct (exec env f (For o j []) _) as [[t3 q3]|] eqn:E3; [|discriminate].
    destruct (exec_list env f [] q3) as [[t4 q4]|] eqn:E4; [|discriminate].
    injection E1 as <- <-.
    destruct f as [|f]; [discriminate|]. rewrite exec_list_eq in E4. injection E4 as <- <-.
    rewrite exec_eq in E3. eapply inner_exhausts; eauto. }
  destruct f as [|f]; [discriminate|]. rewrite exec_loop_eq in E2. unfold m_next in E2. rewrite X in E2.
  injection E2 as <- <-.
  assert (X1 : seen i t1 = []).
  { destruct (exec_untagged (S f) i) as (_ & _ & U). refine (U [For o j []] _ _ _ _ E1).
    cbn. destruct (Nat.eqb_spec j i); [congruence|reflexivity]. }
  change ((i, x) :: t1 ++ []) with ([(i, x)] ++ t1 ++ []). rewrite !seen_app, X1.
  unfold seen; simpl. now rewrite Nat.eqb_refl.
Qed.

(** Peeking at an object inside a loop over it never ends. *)
Lemma peek_loop_forever o i x y l : env o = x :: y :: l ->
  forall fuel p, p o <= 1 -> exec_loop env fuel o i [Peek o] p = None.
Proof.
  intros Ho. induction fuel as [|f IH]; intros p Hp; auto.
  rewrite exec_loop_eq. unfold m_next at 1. rewrite Ho.
  assert (exists z, nth_error (x :: y :: l) (p o) = Some z) as [z Hz].
  { destruct (p o) as [|[|k]]; cbn; eauto; lia. }
  rewrite Hz. destruct (exec_list env f [Peek o] _) as [[t1 q1]|] eqn:E1; auto.
  rewrite IH; auto.
  destruct f as [|f]; [discriminate|]. rewrite exec_list_eq in E1.
  destruct (exec env f (Peek o) _) as [[t3 q3]|] eqn:E3; [|discriminate].
  destruct (exec_list env f [] q3) as [[t4 q4]|] eqn:E4; [|discriminate].
  injection E1 as <- <-. destruct f as [|f]; [discriminate|]. rewrite exec_list_eq in E4. injection E4 as <- <-.
  rewrite exec_eq in E3. injection E3 as <- <-. unfold m_next, m_iter. rewrite upd_same, Ho. cbn. rewrite upd_same. lia.
Qed.
End IterP.

(** ** heap *)
Section HeapP.
Context {V : Type}.
Implicit Types (h : @heap V) (c : cont).

Lemma view_app h c c' : view h (c ++ c') = view h c ++ view h c'.
Proof. unfold view. apply flat_map_app. Qed.

Definition valid h c := forall a, In a c -> a < List.length h.

Lemma view_ext h h' c : (forall a, In a c -> nth_error h a = nth_error h' a) -> view h c = view h' c.
Proof.
  unfold view. induction c as [|a c IH]; simpl; intros H; auto.
  rewrite H by auto. f_equal. apply IH. auto.
Qed.

Lemma write_length h a kv : List.length (write h a kv) = List.length h.
Proof. revert a; induction h; intros [|a']; simpl; auto. Qed.

Lemma write_other h a b kv : a <> b -> nth_error (write h a kv) b = nth_error h b.
Proof. revert a b; induction h; intros [|a'] [|b'] H; simpl; auto; congruence. Qed.

Lemma write_same h a kv : a < List.length h -> nth_error (write h a kv) a = Some kv.
Proof. revert a; induction h; intros [|a'] H; simpl in *; auto; try lia. apply IHh. lia. Qed.

Lemma h_set_length c k v : forall h, List.length (h_set h c k v) = List.length h.
Proof.
  unfold h_set. induction c as [|a c IH]; intros h; cbn [fold_left]; auto.
  rewrite IH. destruct (nth_error h a) as [[k' w]|]; auto. destruct (String.eqb k' k); auto. apply write_length.
Qed.

Lemma h_set_other c k v b : forall h, ~ In b c -> nth_error (h_set h c k v) b = nth_error h b.
Proof.
  unfold h_set. induction c as [|a c IH]; intros h H; cbn [fold_left]; auto.
  rewrite IH by (simpl in H; tauto). destruct (nth_error h a) as [[k' w]|]; auto.
  destruct (String.eqb k' k); auto. apply write_other. simpl in H. tauto.
Qed.

Lemma h_set_view c k v : forall h, NoDup c -> valid h c -> view (h_set h c k v) c = l_set k v (view h c).
Proof.
  induction c as [|a c IH]; intros h ND Hv; auto.
  inversion ND; subst.
  assert (Ha : a < List.length h) by (apply Hv; simpl; auto).
  destruct (nth_error h a) as [[k' w]|] eqn:E; [|apply nth_error_None in E; lia].
  set (h1 := if String.eqb k' k then write h a (k', v) else h).
  assert (S1 : h_set h (a :: c) k v = h_set h1 c k v).
  { unfold h_set at 1. cbn [fold_left]. rewrite E. reflexivity. }
  assert (L1 : List.length h1 = List.length h).
  { unfold h1. destruct (String.eqb k' k); auto. apply write_length. }
  assert (O1 : forall b, b <> a -> nth_error h1 b = nth_error h b).
  { intros b N. unfold h1. destruct (String.eqb k' k); auto. apply write_other. congruence. }
  assert (V1 : nth_error h1 a = Some (k', if String.eqb k' k then v else w)).
  { unfold h1. destruct (String.eqb k' k); auto. now apply write_same. }
  change (a :: c) with ([a] ++ c) at 2 3. rewrite !view_app, S1.
  assert (X : view h1 c = view h c).
  { apply view_ext. intros b I. apply O1. intros ->. tauto. }
  rewrite IH; auto.
  2:{ intros b I. rewrite L1. apply Hv. simpl; auto. }
  rewrite X. unfold view at 1 3. simpl. rewrite h_set_other by auto. rewrite V1, E. simpl.
  destruct (String.eqb k' k); reflexivity.
Qed.

Lemma view_length h c : valid h c -> List.length (view h c) = List.length c.
Proof.
  induction c as [|a c IH]; intros Hv; auto. unfold view in *. simpl. rewrite app_length, IH.
  - destruct (nth_error h a) eqn:E; auto. apply nth_error_None in E. specialize (Hv a (or_introl eq_refl)). lia.
  - intros b I. apply Hv. simpl; auto.
Qed.

Lemma view_remove h c n : valid h c -> view h (firstn n c ++ skipn (S n) c) = remove_at n (view h c).
Proof.
  revert n. induction c as [|a c IH]; intros n Hv; [destruct n; reflexivity|].
  assert (Ha : a < List.length h) by (apply Hv; simpl; auto).
  destruct (nth_error h a) as [kv|] eqn:E; [|apply nth_error_None in E; lia].
  destruct n as [|n].
  - simpl. unfold view at 2. simpl. rewrite E. reflexivity.
  - simpl firstn. simpl skipn. rewrite <- app_comm_cons. unfold view in *. simpl. rewrite E. simpl. f_equal.
    apply IH. intros b I. apply Hv. simpl; auto.
Qed.

Lemma h_pop_view h c k : valid h c ->
  match h_pop h c k, l_pop k (view h c) with
  | Ok (v, c'), Ok (v', l') => v = v' /\ view h c' = l'
  | Err e, Err e' => e = e'
  | _, _ => False
  end.
Proof.
  intros Hv. unfold h_pop, l_pop. destruct (l_last_pos k (view h c)) as [n|]; auto.
  destruct (nth_error (view h c) n) as [[k' v]|]; auto. split; auto. now apply view_remove.
Qed.

Lemma h_pop_shape h c k v c' : h_pop h c k = Ok (v, c') -> exists n, c' = firstn n c ++ skipn (S n) c.
Proof.
  unfold h_pop. destruct (l_last_pos k (view h c)) as [n|]; [|discriminate].
  destruct (nth_error (view h c) n) as [[k' w]|]; [|discriminate].
  intros E. exists n. congruence.
Qed.

Lemma In_firstn_skipn {B} n (c : list B) x : In x (firstn n c ++ skipn (S n) c) -> In x c.
Proof.
  rewrite in_app_iff. intros [I|I].
  - rewrite <- (firstn_skipn n c). apply in_or_app; auto.
  - rewrite <- (firstn_skipn (S n) c). apply in_or_app; auto.
Qed.

Lemma NoDup_firstn_skipn {B} n (c : list B) : NoDup c -> NoDup (firstn n c ++ skipn (S n) c).
Proof.
  revert n. induction c as [|a c IH]; intros n ND; [destruct n; constructor|].
  inversion ND; subst. destruct n; [simpl; auto|].
  change (NoDup (a :: (firstn n c ++ skipn (S n) c))). constructor; auto.
  intros I. apply H1. eapply (In_firstn_skipn n). exact I.
Qed.

Definition h_inv (s : @heap V * cont * cont) : Prop :=
  let '(h, a, b) := s in
  valid h a /\ valid h b /\ NoDup a /\ NoDup b /\ (forall x, In x a -> ~ In x b).

Lemma NoDup_app_seq (c : list nat) n m : NoDup c -> (forall x, In x c -> x < n) -> NoDup (c ++ seq n m).
Proof.
  intros ND H. induction ND as [|x c N ND IH]; simpl; [apply seq_NoDup|].
  constructor.
  - rewrite in_app_iff, in_seq. intros [I|I]; [auto|]. specialize (H x (or_introl eq_refl)). lia.
  - apply IH. intros y I. apply H. simpl; auto.
Qed.

Lemma view_fresh h kvs c : valid h c -> view (h ++ kvs) (c ++ seq (List.length h) (List.length kvs)) = view h c ++ kvs.
Proof.
  intros Hv. rewrite view_app. f_equal.
  - apply view_ext. intros a I. apply nth_error_app1. auto.
  - clear Hv c. revert h. induction kvs as [|kv kvs IH]; intros h; auto.
    simpl. unfold view in *. simpl. rewrite nth_error_app2, Nat.sub_diag by lia. simpl. f_equal.
    specialize (IH (h ++ [kv])). rewrite app_length in IH. simpl in IH.
    rewrite Nat.add_1_r, <- List.app_assoc in IH. exact IH.
Qed.

Lemma h_step s w o : h_inv s ->
  let '(h, a, b) := s in let '(h', a', b') := h_apply s (w, o) in
  h_inv (h', a', b') /\
  list_of (view h' a') = (if w then apply list_of (list_of (view h a)) o else list_of (view h a)) /\
  list_of (view h' b') = (if w then list_of (view h b) else apply list_of (list_of (view h b)) o).
Proof.
  destruct s as [[h a] b]. intros (Va & Vb & Na & Nb & D).
  assert (SEQ : forall (c : cont) n, c ++ [n] = c ++ seq n 1) by reflexivity.
  destruct o as [k v|k v|k|kvs]; destruct w; cbn [h_apply h_append].
  1,2,7,8: rewrite ?SEQ.
  - assert (F : forall c, valid h c -> view (h ++ [(k, v)]) c = view h c)
      by (intros c Hc; apply view_ext; intros x I; apply nth_error_app1; auto).
    split; [|split].
    + repeat split; auto.
      * intros x. rewrite in_app_iff, in_seq, app_length. simpl. intros [I|I]; [apply Va in I|]; lia.
      * intros x I. apply Vb in I. rewrite app_length. lia.
      * apply NoDup_app_seq; auto.
      * intros x. rewrite in_app_iff, in_seq. intros [I|I] J; [now apply (D x)|]. apply Vb in J. lia.
    + unfold apply, list_of; simpl. unfold with_container, l_append; simpl.
      rewrite (view_fresh h [(k, v)]) by auto. reflexivity.
    + now rewrite F.
  - assert (F : forall c, valid h c -> view (h ++ [(k, v)]) c = view h c)
      by (intros c Hc; apply view_ext; intros x I; apply nth_error_app1; auto).
    split; [|split].
    + repeat split; auto.
      * intros x I. apply Va in I. rewrite app_length. lia.
      * intros x. rewrite in_app_iff, in_seq, app_length. simpl. intros [I|I]; [apply Vb in I|]; lia.
      * apply NoDup_app_seq; auto.
      * intros x I. rewrite in_app_iff, in_seq. intros [J|J]; [now apply (D x)|]. apply Va in I. lia.
    + now rewrite F.
    + unfold apply, list_of; simpl. unfold with_container, l_append; simpl.
      rewrite (view_fresh h [(k, v)]) by auto. reflexivity.
  - split; [|split].
    + assert (F : forall c, valid h c -> view (h ++ kvs) c = view h c)
        by (intros c Hc; apply view_ext; intros x I; apply nth_error_app1; auto).
      repeat split; auto.
      * intros x. rewrite in_app_iff, in_seq, app_length. simpl. intros [I|I]; [apply Va in I|]; lia.
      * intros x I. apply Vb in I. rewrite app_length. lia.
      * apply NoDup_app_seq; auto.
      * intros x. rewrite in_app_iff, in_seq. intros [I|I] J; [now apply (D x)|]. apply Vb in J. lia.
    + unfold apply, list_of; simpl. unfold adc_extend, with_container; simpl. now rewrite view_fresh.
    + f_equal. apply view_ext; intros x I; apply nth_error_app1; auto.
  - split; [|split].
    + repeat split; auto.
      * intros x I. apply Va in I. rewrite app_length. lia.
      * intros x. rewrite in_app_iff, in_seq, app_length. simpl. intros [I|I]; [apply Vb in I|]; lia.
      * apply NoDup_app_seq; auto.
      * intros x I. rewrite in_app_iff, in_seq. intros [J|J]; [now apply (D x)|]. apply Va in I. lia.
    + f_equal. apply view_ext; intros x I; apply nth_error_app1; auto.
    + unfold apply, list_of; simpl. unfold adc_extend, with_container; simpl. now rewrite view_fresh.
  - split; [|split].
    + repeat split; auto; intros x I; rewrite h_set_length; auto.
    + unfold apply, list_of; simpl. unfold with_container; simpl. now rewrite h_set_view.
    + f_equal. apply view_ext. intros x I. apply h_set_other. intros J. now apply (D x).
  - split; [|split].
    + repeat split; auto; intros x I; rewrite h_set_length; auto.
    + f_equal. apply view_ext. intros x I. apply h_set_other. now apply D.
    + unfold apply, list_of; simpl. unfold with_container; simpl. now rewrite h_set_view.
  - pose proof (h_pop_view h a k Va) as P. unfold apply, list_of, adc_pop; cbn [is_dict is_list container].
    destruct (h_pop h a k) as [[v c']|] eqn:E; destruct (l_pop k (view h a)) as [[v' l']|] eqn:E3; try tauto;
      cbn [rbind fst snd].
    + destruct P as [-> P]. apply h_pop_shape in E as [n ->].
      split; [|split]; auto; [|unfold with_container; simpl is_dict; simpl is_list; now rewrite P].
      repeat split; auto.
      * intros x I. apply In_firstn_skipn in I. auto.
      * now apply NoDup_firstn_skipn.
      * intros x I. apply In_firstn_skipn in I. auto.
    + split; [|split]; auto. repeat split; auto.
  - pose proof (h_pop_view h b k Vb) as P. unfold apply, list_of, adc_pop; cbn [is_dict is_list container].
    destruct (h_pop h b k) as [[v c']|] eqn:E; destruct (l_pop k (view h b)) as [[v' l']|] eqn:E3; try tauto;
      cbn [rbind fst snd].
    + destruct P as [-> P]. apply h_pop_shape in E as [n ->].
      split; [|split]; auto; [|unfold with_container; simpl is_dict; simpl is_list; now rewrite P].
      repeat split; auto.
      * intros x I. apply In_firstn_skipn in I. auto.
      * now apply NoDup_firstn_skipn.
      * intros x I J. apply In_firstn_skipn in J. now apply (D x).
    + split; [|split]; auto. repeat split; auto.
Qed.

Lemma heap_refines_values l :
  let '(h, a, b) := h_drive l in
  list_of (view h a) = drive list_of (create_list (@adc_new V)) (only true l) /\
  list_of (view h b) = drive list_of (create_list (@adc_new V)) (only false l).
Proof.
  assert (H : h_inv (h_drive l) /\ let '(h, a, b) := h_drive l in
    list_of (view h a) = drive list_of (create_list (@adc_new V)) (only true l) /\
    list_of (view h b) = drive list_of (create_list (@adc_new V)) (only false l)).
  { induction l as [|[w o] l IH] using rev_ind.
    - split; [|split; reflexivity]. repeat split; try (intros ? []); constructor.
    - destruct IH as [I IH]. unfold h_drive in *. rewrite fold_left_app. cbn [fold_left].
      pose proof (h_step _ w o I) as S.
      destruct (fold_left h_apply l ([], [], [])) as [[h a] b].
      destruct (h_apply (h, a, b) (w, o)) as [[h' a'] b'].
      destruct S as (I' & Sa & Sb). split; auto. destruct IH as [IHa IHb].
      unfold only in *. rewrite !filter_app, !map_app. simpl. rewrite Sa, Sb, IHa, IHb.
      destruct w; simpl; rewrite ?List.app_nil_r; split; auto; now rewrite drive_snoc. }
  destruct (h_drive l) as [[h a] b]. tauto.
Qed.
End HeapP.
