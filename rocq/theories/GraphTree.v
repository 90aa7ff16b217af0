(** Correctness of the conversion of a staged graph into a tree (CG:100-167). *)
From Coq Require Import List Bool Arith ZArith QArith Lia Permutation.
From Verif Require Import Base Graph GraphSpec GraphProofs PlannerProofs.
Import ListNotations.
Open Scope nat_scope.
Open Scope list_scope.

Local Ltac sp := repeat match goal with |- _ /\ _ => split end.

Lemma succ_app ns ms e1 e2 x : succ (mkG ns (e1 ++ e2)) x = succ (mkG ms e1) x ++ succ (mkG ms e2) x.
Proof. unfold succ. simpl. now rewrite filter_app, map_app. Qed.

Lemma pred_app ns ms e1 e2 x : pred (mkG ns (e1 ++ e2)) x = pred (mkG ms e1) x ++ pred (mkG ms e2) x.
Proof. unfold pred. simpl. now rewrite filter_app, map_app. Qed.

Lemma succ_nodes ns ms e x : succ (mkG ns e) x = succ (mkG ms e) x.
Proof. reflexivity. Qed.

Lemma pred_nodes ns ms e x : pred (mkG ns e) x = pred (mkG ms e) x.
Proof. reflexivity. Qed.

Lemma succ_none ns e x : (forall a b, In (a, b) e -> a <> x) -> succ (mkG ns e) x = [].
Proof.
  unfold succ. simpl. intros H. induction e as [|[a b] e IH]; simpl; auto.
  destruct (Nat.eqb a x) eqn:E; [apply Nat.eqb_eq in E; subst; exfalso; eapply H; [left; reflexivity|reflexivity]|].
  apply IH. intros u v I. apply (H u v). now right.
Qed.

Lemma pred_none ns e x : ~ In x (map snd e) -> pred (mkG ns e) x = [].
Proof.
  unfold pred. simpl. intros H. induction e as [|[a b] e IH]; simpl; auto.
  destruct (Nat.eqb b x) eqn:E; [apply Nat.eqb_eq in E; subst; exfalso; apply H; now left|].
  apply IH. intros J. apply H. now right.
Qed.

Lemma pred_one ns e x : NoDup (map snd e) -> In x (map snd e) -> exists p, pred (mkG ns e) x = [p] /\ In (p, x) e.
Proof.
  induction e as [|[a b] e IH]; intros N I; [destruct I|]. inversion N as [|? ? N1 N2]; subst. simpl in *.
  change (pred (mkG ns ((a, b) :: e)) x) with (map fst (if Nat.eqb b x then (a, b) :: filter (fun e => Nat.eqb (snd e) x) e else filter (fun e => Nat.eqb (snd e) x) e)).
  destruct (Nat.eqb_spec b x) as [->|NE].
  - exists a. split; [|now left]. simpl. f_equal. apply (pred_none ns e x N1).
  - destruct I as [->|I]; [congruence|]. destruct (IH N2 I) as (p & Hp & J). exists p. split; [exact Hp|now right].
Qed.

Lemma nget_nset {V} k (v : V) d x : nget x (nset k v d) = if Nat.eqb x k then Some v else nget x d.
Proof.
  induction d as [|[a w] d IH]; simpl.
  - rewrite Nat.eqb_sym. destruct (Nat.eqb x k); reflexivity.
  - destruct (Nat.eqb_spec a k) as [->|NE]; simpl.
    + rewrite (Nat.eqb_sym k x). destruct (Nat.eqb_spec x k); reflexivity.
    + destruct (Nat.eqb_spec a x) as [->|NE']; [destruct (Nat.eqb_spec x k); [congruence|reflexivity]|]. exact IH.
Qed.

Lemma nget_keys {V} (d : list (nat * V)) k : In k (map fst d) <-> exists v, nget k d = Some v.
Proof.
  rewrite <- nget_Some. destruct (nget k d); split; try congruence; eauto. intros (v & H). discriminate.
Qed.

Lemma add_edge_fresh a k g : In a (g_nodes g) -> ~ In k (g_nodes g) -> (forall x y, In (x, y) (g_edges g) -> In y (g_nodes g)) ->
  add_edge a k g = mkG (g_nodes g ++ [k]) (g_edges g ++ [(a, k)]).
Proof.
  intros Ia Nk H. unfold add_edge, add_node. simpl. f_equal.
  - unfold set_add at 2. destruct (mem a (g_nodes g)) eqn:E; [|apply mem_In in Ia; congruence].
    unfold set_add. destruct (mem k (g_nodes g)) eqn:E'; [apply mem_In in E'; contradiction|reflexivity].
  - destruct (existsb (edge_eqb (a, k)) (g_edges g)) eqn:E; auto. apply existsb_exists in E as (e & I & Ee).
    apply edge_eqb_eq in Ee. subst e. exfalso. apply Nk. eapply H; exact I.
Qed.

Lemma seq_join g g3 g' : S g <= g3 -> g3 <= g' -> seq (S g) (g' - g) = S g :: seq (S (S g)) (g3 - S g) ++ seq (S g3) (g' - g3).
Proof.
  intros A B. replace (g' - g) with (S ((g3 - S g) + (g' - g3))) by lia. cbn [seq]. f_equal. rewrite seq_app. f_equal. f_equal. lia.
Qed.

(* ------------------------------------------------------------------ *)
(** ** copying a subtree *)

Section Copy.
Context {V : Type}.
Variables (g0 : digraph) (st : nat -> nat) (D : nat) (d0 : list (nat * V)).
Variables (old : nat -> Prop) (sB : nat -> list nat) (oB : nat -> nat).
Hypothesis old_in : forall x, old x -> In (oB x) (g_nodes g0).
Hypothesis old_data : forall x, old x -> exists v, nget (oB x) d0 = Some v.
Hypothesis old_closed : forall x y, old x -> In y (sB x) -> old y /\ st (oB y) = S (st (oB x)).
Hypothesis old_perm : forall x, old x -> Permutation (map oB (sB x)) (succ g0 (oB x)).
Hypothesis old_deep : forall x, old x -> st (oB x) <= D.

(** The tree still holds the part to be copied; [c] is the copy that is being completed. *)
Record ready (T : digraph) (d : list (nat * V)) (g c : nat) (o : nat -> nat) : Prop := {
  rd_old : forall x, old x -> In x (g_nodes T) /\ x <> c /\ succ T x = sB x /\ o x = oB x /\ nget x d = nget (oB x) d0;
  rd_max : forall x, In x (g_nodes T) -> x <= g;
  rd_ends : forall a b, In (a, b) (g_edges T) -> In a (g_nodes T) /\ In b (g_nodes T);
  rd_c : In c (g_nodes T) }.

(** What copying adds: nodes [g+1..g'], one edge into each, leaving [c] or a new node. *)
Record extends (T : digraph) (d : list (nat * V)) (g c lev : nat) (o : nat -> nat) (T' : digraph) (d' : list (nat * V)) (g' : nat) (o' : nat -> nat) (N : list (nat * nat)) : Prop := {
  ex_ge : g <= g';
  ex_nodes : g_nodes T' = g_nodes T ++ seq (S g) (g' - g);
  ex_edges : g_edges T' = g_edges T ++ N;
  ex_heads : map snd N = seq (S g) (g' - g);
  ex_tails : forall a b, In (a, b) N -> a = c \/ g < a <= g';
  ex_o : forall t, t <= g -> o' t = o t /\ nget t d' = nget t d;
  ex_new : forall t, g < t <= g' -> In (o' t) (g_nodes g0) /\ nget t d' = nget (o' t) d0 /\
     Permutation (map o' (succ T' t)) (succ g0 (o' t)) /\ lev < st (o' t);
  ex_keys : forall t, In t (map fst d') <-> In t (map fst d) \/ g < t <= g' }.

Lemma foldM_cons {A B} (F : A -> B -> res A) x l a : foldM F (x :: l) a = do b <- F a x; foldM F l b.
Proof. reflexivity. Qed.

Lemma graph_eta g : g = mkG (g_nodes g) (g_edges g).
Proof. now destruct g. Qed.

Lemma extends_succ T d g c lev o T' d' g' o' N x : extends T d g c lev o T' d' g' o' N -> x <= g -> x <> c -> succ T' x = succ T x.
Proof.
  intros X Lx Nc. rewrite (graph_eta T'), (ex_edges _ _ _ _ _ _ _ _ _ _ _ X), (succ_app _ (g_nodes T)), <- graph_eta.
  rewrite (succ_none _ N), List.app_nil_r; auto. intros a b I ->. destruct (ex_tails _ _ _ _ _ _ _ _ _ _ _ X _ _ I); lia.
Qed.

Definition step (f : nat) (c : nat) := fun (s : tstate) x =>
  let '(tree, data, greatest) := s in
  let k := S greatest in
  let tree := add_edge c k tree in
  do v <- @nfetch V x data;
  duplicate_below f x (tree, nset k v data, k).

Definition copies f lev := forall x c T d o, old x -> lev <= st (oB x) -> D < st (oB x) + f -> ready T d c c o -> succ T c = [] ->
  exists T' d' g' o' N, duplicate_below f x (T, d, c) = Ok (T', d', g') /\
  extends T d c c lev o T' d' g' o' N /\ map o' (succ T' c) = map oB (sB x).

Lemma copy_loop f lev : copies f (S lev) ->
  forall l c g T d o, (forall x, In x l -> old x /\ lev < st (oB x) /\ D < st (oB x) + f) -> ready T d g c o ->
  exists T' d' g' o' N, foldM (step f c) l (T, d, g) = Ok (T', d', g') /\
  extends T d g c lev o T' d' g' o' N /\ map o' (succ T' c) = map o (succ T c) ++ map oB l.
Proof.
  intros C. induction l as [|x l IH]; intros c g T d o H R.
  - exists T, d, g, o, []. sp; [reflexivity| |now rewrite List.app_nil_r].
    split; rewrite ?Nat.sub_diag; simpl; rewrite ?List.app_nil_r; auto; try tauto; try (intros; lia).
    intros t. split; auto. intros [?|?]; auto; lia.
  - destruct (H x) as (Ox & Lx & Dx); [now left|]. destruct (rd_old _ _ _ _ _ R x Ox) as (_ & _ & _ & _ & Ed).
    destruct (old_data x Ox) as [v Ev].
    rewrite foldM_cons. unfold step at 1. unfold nfetch. rewrite Ed, Ev. cbn [rbind].
    set (k := S g). pose proof (rd_c _ _ _ _ _ R) as Ic. pose proof (rd_max _ _ _ _ _ R) as M. pose proof (rd_ends _ _ _ _ _ R) as EN.
    assert (Nk : ~ In k (g_nodes T)) by (intros I; apply M in I; unfold k in I; lia).
    assert (Lc : c <= g) by now apply M.
    rewrite (add_edge_fresh c k T Ic Nk) by (intros a b I; now apply EN in I).
    set (T2 := mkG (g_nodes T ++ [k]) (g_edges T ++ [(c, k)])). set (d2 := nset k v d).
    set (o2 := fun t => if Nat.eqb t k then oB x else o t).
    assert (o2k : o2 k = oB x) by (unfold o2; now rewrite Nat.eqb_refl).
    assert (o2n : forall t, t <= g -> o2 t = o t) by (intros t Lt; unfold o2; destruct (Nat.eqb_spec t k); [unfold k in *; lia|auto]).
    assert (d2n : forall t, t <= g -> nget t d2 = nget t d).
    { intros t Lt. unfold d2. rewrite nget_nset. destruct (Nat.eqb_spec t k); [unfold k in *; lia|auto]. }
    assert (S2 : forall t, t <> c -> succ T2 t = succ T t).
    { intros t Nt. unfold T2. rewrite (succ_app _ (g_nodes T)), <- graph_eta, (succ_none _ [(c, k)]), List.app_nil_r; auto.
      intros a b [E|[]]; injection E as <- <-; auto. }
    assert (S2c : succ T2 c = succ T c ++ [k]).
    { unfold T2. rewrite (succ_app _ (g_nodes T)), <- graph_eta. f_equal. unfold succ. simpl. now rewrite Nat.eqb_refl. }
    assert (SK : succ T k = []).
    { rewrite (graph_eta T). apply succ_none. intros a b I ->. apply Nk. now apply EN in I. }
    assert (R2 : ready T2 d2 k k o2).
    { split.
      - intros y Oy. destruct (rd_old _ _ _ _ _ R y Oy) as (Iy & Ny & Sy & Oy' & Dy). assert (Ly : y <= g) by now apply M.
        rewrite o2n, d2n, S2 by auto. sp; auto; [simpl; apply in_app_iff; auto|unfold k; lia].
      - intros y Iy. simpl in Iy. apply in_app_iff in Iy as [Iy|[<-|[]]]; auto. apply M in Iy. unfold k. lia.
      - intros a b I. simpl in I |- *. rewrite !in_app_iff. apply in_app_iff in I as [I|[E|[]]]; [apply EN in I; tauto|].
        injection E as <- <-. simpl. auto.
      - simpl. apply in_app_iff. simpl. auto. }
    destruct (C x k T2 d2 o2 Ox Lx Dx R2) as (T3 & d3 & g3 & o3 & N3 & E3 & X3 & SX3). { rewrite S2; auto. unfold k; lia. }
    fold k. rewrite E3. cbn [rbind]. clear E3.
    pose proof (ex_ge _ _ _ _ _ _ _ _ _ _ _ X3) as Lk. pose proof (ex_nodes _ _ _ _ _ _ _ _ _ _ _ X3) as NO3.
    pose proof (ex_edges _ _ _ _ _ _ _ _ _ _ _ X3) as ED3. pose proof (ex_heads _ _ _ _ _ _ _ _ _ _ _ X3) as HD3.
    pose proof (ex_tails _ _ _ _ _ _ _ _ _ _ _ X3) as TL3. pose proof (ex_o _ _ _ _ _ _ _ _ _ _ _ X3) as OO3.
    pose proof (ex_new _ _ _ _ _ _ _ _ _ _ _ X3) as NW3. pose proof (ex_keys _ _ _ _ _ _ _ _ _ _ _ X3) as KY3.
    assert (S3 : forall t, t <= g -> succ T3 t = succ T2 t).
    { intros t Lt. apply (extends_succ _ _ _ _ _ _ _ _ _ _ _ t X3); unfold k; lia. }
    assert (R3 : ready T3 d3 g3 c o3).
    { split.
      - intros y Oy. destruct (rd_old _ _ _ _ _ R y Oy) as (Iy & Ny & Sy & Oy' & Dy). assert (Ly : y <= g) by now apply M.
        destruct (OO3 y) as [E1 E2]; [unfold k; lia|]. rewrite E1, E2, o2n, d2n, S3, S2 by auto. sp; auto.
        rewrite NO3. simpl. rewrite !in_app_iff. auto.
      - intros y. rewrite NO3. simpl. rewrite !in_app_iff, in_seq. simpl. intros [[I|[<-|[]]]|I]; [apply M in I; unfold k in Lk; lia|lia|lia].
      - intros a b. rewrite ED3, in_app_iff. intros [I|I].
        + rewrite NO3, !in_app_iff. apply (rd_ends _ _ _ _ _ R2) in I. tauto.
        + rewrite NO3, !in_app_iff. split.
          * destruct (TL3 a b I) as [->|L]; [left; simpl; apply in_app_iff; simpl; auto|]. right. apply in_seq. lia.
          * right. rewrite <- HD3. now apply (in_map snd) in I.
      - rewrite NO3. simpl. rewrite !in_app_iff. auto. }
    destruct (IH c g3 T3 d3 o3) as (T' & d' & g' & o' & N & E' & X' & SX'); auto. { intros y Iy. apply H. now right. }
    exists T', d', g', o', ((c, k) :: N3 ++ N). rewrite E'.
    pose proof (ex_ge _ _ _ _ _ _ _ _ _ _ _ X') as Lg. unfold k in Lk. sp; auto.
    2:{ rewrite SX', S3 by auto. rewrite S2c, !map_app, <- app_assoc. simpl. f_equal.
        - apply map_ext_in. intros t It. assert (t <= g). { apply M. apply succ_In in It. now apply EN in It. }
          destruct (OO3 t) as [E1 _]; [unfold k; lia|]. rewrite E1. now apply o2n.
        - destruct (OO3 k) as [E1 _]; [lia|]. rewrite E1, o2k. reflexivity. }
    split.
    + lia.
    + rewrite (ex_nodes _ _ _ _ _ _ _ _ _ _ _ X'), NO3. unfold T2. simpl g_nodes. rewrite <- !app_assoc. f_equal.
      unfold k. now rewrite (seq_join g g3 g') by lia.
    + rewrite (ex_edges _ _ _ _ _ _ _ _ _ _ _ X'), ED3. unfold T2. simpl g_edges. now rewrite <- !app_assoc.
    + simpl. rewrite map_app, HD3, (ex_heads _ _ _ _ _ _ _ _ _ _ _ X').
      unfold k. now rewrite (seq_join g g3 g') by lia.
    + intros a b [E|I]; [injection E as <- <-; auto|]. apply in_app_iff in I as [I|I].
      * destruct (TL3 a b I) as [->|L]; right; unfold k in *; lia.
      * destruct (ex_tails _ _ _ _ _ _ _ _ _ _ _ X' a b I) as [->|L]; [auto|right; lia].
    + intros t Lt. destruct (ex_o _ _ _ _ _ _ _ _ _ _ _ X' t) as [E1 E2]; [lia|]. destruct (OO3 t) as [E3 E4]; [unfold k; lia|].
      rewrite E1, E2, E3, E4, o2n, d2n; auto.
    + intros t Lt. destruct (le_lt_dec t g3) as [L3|L3]; [|apply (ex_new _ _ _ _ _ _ _ _ _ _ _ X'); lia].
      destruct (ex_o _ _ _ _ _ _ _ _ _ _ _ X' t L3) as [E1 E2]. rewrite E1, E2.
      assert (ES : succ T' t = succ T3 t) by (apply (extends_succ _ _ _ _ _ _ _ _ _ _ _ t X' L3); lia).
      assert (EM : map o' (succ T' t) = map o3 (succ T3 t)).
      { rewrite ES. apply map_ext_in. intros y Iy. apply (ex_o _ _ _ _ _ _ _ _ _ _ _ X'). apply (rd_max _ _ _ _ _ R3).
        apply succ_In in Iy. now apply (rd_ends _ _ _ _ _ R3) in Iy. }
      rewrite EM. destruct (Nat.eq_dec t k) as [->|NE].
      * destruct (OO3 k (le_n _)) as [E3 E4]. rewrite E3, E4, o2k. unfold d2. rewrite nget_nset, Nat.eqb_refl, SX3. sp; auto.
      * destruct (NW3 t) as (A1 & A2 & A3 & A4); [unfold k in *; lia|]. sp; auto. lia.
    + intros t. rewrite (ex_keys _ _ _ _ _ _ _ _ _ _ _ X'), KY3. unfold d2. rewrite !nget_keys. setoid_rewrite nget_nset.
      split.
      * intros [[[w E1]|L]|L]; [|right; unfold k in *; lia|right; lia].
        destruct (Nat.eqb_spec t k) as [->|NE]; [right; unfold k; lia|left; eauto].
      * intros [[w E1]|L].
        -- left. left. destruct (Nat.eqb_spec t k); eauto.
        -- destruct (Nat.eq_dec t k) as [->|NE]; [left; left; rewrite Nat.eqb_refl; eauto|]. unfold k in *.
           destruct (le_lt_dec t g3); [left; right; lia|right; lia].
Qed.

Lemma copies_below : forall f lev, copies f lev.
Proof.
  induction f as [|f IH]; intros lev x c T d o Ox Lx Dx R SC.
  - pose proof (old_deep x Ox). lia.
  - destruct (rd_old _ _ _ _ _ R x Ox) as (Ix & Nx & Sx & _).
    cbn [duplicate_below snd fst]. unfold neighbours.
    replace (mem x (g_nodes T)) with true by (symmetry; now apply mem_In). cbn [rbind]. rewrite Sx.
    destruct (copy_loop f lev (IH (S lev)) (sB x) c c T d o) as (T' & d' & g' & o' & N & E & X & S); auto.
    { intros y Iy. destruct (old_closed x y Ox Iy) as [Oy Sy]. rewrite Sy. sp; auto; lia. }
    exists T', d', g', o', N. sp; auto. rewrite S, SC. reflexivity.
Qed.
End Copy.

(* ------------------------------------------------------------------ *)
(** ** the conversion, layer by layer *)

Section Layers.
Context {V : Type}.
Variables (ord : nat -> list nat -> list nat) (g0 : digraph) (root : nat) (st : nat -> nat) (D : nat) (d0 : list (nat * V)) (gmax : nat).
Hypothesis SG : staged g0 root st D.
Hypothesis data0 : forall n, In n (g_nodes g0) -> exists v, nget n d0 = Some v.
Hypothesis max0 : forall n, In n (g_nodes g0) -> n <= gmax.
Hypothesis ORD : enumerates ord.

(** [Pr a b]: the edge from [a] to [b] has been dealt with; [o] sends copies to their originals. *)
Record Inv (k : nat) (Pr : nat -> nat -> bool) (T : digraph) (d : list (nat * V)) (g : nat) (o : nat -> nat) : Prop := {
  iv_ends : forall a b, In (a, b) (g_edges T) -> In a (g_nodes T) /\ In b (g_nodes T);
  iv_nodup : NoDup (g_nodes T);
  iv_max : forall t, In t (g_nodes T) -> t <= g;
  iv_gmax : gmax <= g;
  iv_orig : forall t, In t (g_nodes g0) -> o t = t;
  iv_in : forall t, In t (g_nodes T) -> In (o t) (g_nodes g0);
  iv_kind : forall t, In t (g_nodes T) -> ~ In t (g_nodes g0) -> gmax < t /\ k <= st (o t) /\ 1 <= st (o t);
  iv_data : forall t, In t (g_nodes T) \/ In t (g_nodes g0) -> nget t d = nget (o t) d0;
  iv_succ : forall t, In t (g_nodes T) \/ In t (g_nodes g0) -> Permutation (map o (succ T t)) (filter (Pr (o t)) (succ g0 (o t)));
  iv_pred1 : forall t a, In (a, t) (g_edges g0) -> Pr a t = true -> exists p, pred T t = [p];
  iv_pred0 : forall t, In t (g_nodes g0) -> (forall a, In (a, t) (g_edges g0) -> Pr a t = false) -> pred T t = [];
  iv_copy : forall t, In t (g_nodes T) -> ~ In t (g_nodes g0) -> exists p, pred T t = [p];
  iv_keys : forall t, In t (map fst d) <-> In t (map fst d0) \/ gmax < t <= g;
  iv_all : forall t, gmax < t <= g -> In t (g_nodes T) }.

Lemma inv_ext k Pr Pr' T d g o : (forall a b, In (a, b) (g_edges g0) -> Pr a b = Pr' a b) -> Inv k Pr T d g o -> Inv k Pr' T d g o.
Proof.
  intros H []. constructor; auto.
  - intros t It. rewrite iv_succ0 by auto. erewrite filter_ext_in; [reflexivity|]. intros b Ib. apply H. now apply succ_In in Ib.
  - intros t a I E. apply (iv_pred2 t a I). now rewrite H.
  - intros t I E. apply iv_pred3; auto. intros a Ia. rewrite H; auto.
Qed.

Lemma inv_weaken k k' Pr T d g o : k' <= k -> Inv k Pr T d g o -> Inv k' Pr T d g o.
Proof.
  intros L []. constructor; auto. intros t I N. destruct (iv_kind0 t I N) as (A & B & C). sp; auto; lia.
Qed.

Lemma inv_add_node k Pr T d g o q : In q (g_nodes g0) -> Inv k Pr T d g o -> Inv k Pr (add_node q T) d g o.
Proof.
  intros Iq []. assert (NO : forall t, In t (g_nodes (add_node q T)) <-> t = q \/ In t (g_nodes T)) by (intros t; apply set_add_In).
  constructor; auto.
  - intros a b I. rewrite !NO. apply iv_ends0 in I. tauto.
  - now apply set_add_NoDup.
  - intros t. rewrite NO. intros [->|I]; auto. apply max0 in Iq. lia.
  - intros t. rewrite NO. intros [->|I]; auto. now rewrite iv_orig0.
  - intros t. rewrite NO. intros [->|I] N; [contradiction|auto].
  - intros t. rewrite NO. intros [[->|I]|I]; auto.
  - intros t. rewrite NO. intros [[->|I]|I]; apply iv_succ0; auto.
  - intros t. rewrite NO. intros [->|I] N; [contradiction|apply iv_copy0; auto].
  - intros t L. rewrite NO. auto.
Qed.

Lemma add_edge_node a b g : add_edge a b (add_node a g) = add_edge a b g.
Proof.
  unfold add_edge, add_node. simpl. replace (set_add a (set_add a (g_nodes g))) with (set_add a (g_nodes g)); auto.
  unfold set_add at 2. destruct (mem a (set_add a (g_nodes g))) eqn:E; auto.
  assert (In a (set_add a (g_nodes g))) as I by (apply set_add_In; auto). apply mem_In in I. congruence.
Qed.

Lemma filter_one f n l : NoDup l -> In n l -> f n = false -> Permutation (filter (fun x => f x || Nat.eqb x n) l) (filter f l ++ [n]).
Proof.
  induction l as [|x l IH]; intros N I F; [destruct I|]. inversion N as [|? ? N1 N2]; subst. simpl.
  destruct (Nat.eqb_spec x n) as [->|NE].
  - rewrite orb_true_r, F. replace (filter (fun x => f x || Nat.eqb x n) l) with (filter f l).
    + apply Permutation_cons_append.
    + apply filter_ext_in. intros y Iy. destruct (Nat.eqb_spec y n) as [->|]; [contradiction|]. now rewrite orb_false_r.
  - destruct I as [->|I]; [congruence|]. rewrite orb_false_r. destruct (f x); [simpl; constructor|]; apply IH; auto.
Qed.

Definition plus (Pr : nat -> nat -> bool) (q n : nat) (a b : nat) : bool := Pr a b || (Nat.eqb a q && Nat.eqb b n).

Lemma plus_filter Pr q n a : a <> q -> filter (plus Pr q n a) (succ g0 a) = filter (Pr a) (succ g0 a).
Proof.
  intros NE. apply filter_ext. intros b. unfold plus. destruct (Nat.eqb_spec a q); [contradiction|]. now rewrite orb_false_r.
Qed.

Lemma plus_filter_same Pr q n : In (q, n) (g_edges g0) -> Pr q n = false ->
  Permutation (filter (plus Pr q n q) (succ g0 q)) (filter (Pr q) (succ g0 q) ++ [n]).
Proof.
  intros I F. erewrite filter_ext; [apply filter_one; [apply succ_NoDup; apply (sg_edges _ _ _ _ SG)|now apply succ_In|exact F]|].
  intros b. unfold plus. now rewrite Nat.eqb_refl.
Qed.

Lemma tree_eta (T : digraph) : mkG (g_nodes T) (g_edges T) = T.
Proof. now destruct T. Qed.

(** First predecessor: the node itself is attached. *)
Lemma inv_attach Pr T d g o p n : In (p, n) (g_edges g0) -> Inv (st n) Pr T d g o ->
  (forall a, In (a, n) (g_edges g0) -> Pr a n = false) -> Inv (st n) (plus Pr p n) (add_edge p n T) d g o.
Proof.
  intros I IV0 F. destruct (sg_ends _ _ _ _ SG _ _ I) as [Ip In_].
  assert (IV : Inv (st n) Pr (add_node n (add_node p T)) d g o) by (apply inv_add_node; auto; apply inv_add_node; auto).
  pose proof (iv_pred0 _ _ _ _ _ _ IV0 n In_ F) as P0.
  assert (TE : add_edge p n T = mkG (g_nodes (add_node n (add_node p T))) (g_edges T ++ [(p, n)])).
  { rewrite <- (add_edge_edges_new p n T); [reflexivity|]. intros J. apply pred_In in J. rewrite P0 in J. destruct J. }
  rewrite TE. set (NS := g_nodes (add_node n (add_node p T))) in *.
  assert (SS : forall t, succ (mkG NS (g_edges T ++ [(p, n)])) t = succ T t ++ (if Nat.eqb p t then [n] else [])).
  { intros t. rewrite (succ_app _ (g_nodes T)), tree_eta. f_equal. unfold succ. simpl. destruct (Nat.eqb p t); reflexivity. }
  assert (PP : forall t, pred (mkG NS (g_edges T ++ [(p, n)])) t = pred T t ++ (if Nat.eqb n t then [p] else [])).
  { intros t. rewrite (pred_app _ (g_nodes T)), tree_eta. f_equal. unfold pred. simpl. destruct (Nat.eqb n t); reflexivity. }
  pose proof (sg_next _ _ _ _ SG _ _ I) as SN.
  destruct IV as [E1 E2 E3 E4 E5 E6 E7 E8 E9 E10 E11 E12 E13 E14].
  constructor; cbn [g_nodes]; auto.
  - intros a b. simpl. rewrite in_app_iff. intros [J|[E|[]]]; [apply E1; auto|]. injection E as <- <-.
    unfold NS. simpl. rewrite !set_add_In. auto.
  - intros t It. rewrite SS, map_app. specialize (E9 t It).
    assert (J : succ (add_node n (add_node p T)) t = succ T t) by reflexivity. rewrite J in E9.
    destruct (Nat.eqb_spec p t) as [<-|NE].
    + rewrite (E5 p Ip) in *. simpl. rewrite (E5 n In_). rewrite plus_filter_same; auto. now apply Permutation_app_tail.
    + simpl. rewrite List.app_nil_r, plus_filter; auto. intros EO.
      destruct (in_dec Nat.eq_dec t (g_nodes g0)) as [I0|I0]; [rewrite E5 in EO; auto|].
      destruct It as [It|It]; [|contradiction]. destruct (E7 t It I0) as (_ & L & _). rewrite EO in L. lia.
  - intros t a J E. rewrite PP. destruct (Nat.eqb_spec n t) as [<-|NE].
    + rewrite P0. simpl. eauto.
    + destruct (E10 t a J) as [x Hx]; [|exists x; rewrite List.app_nil_r; exact Hx].
      unfold plus in E. destruct (Nat.eqb_spec t n); [congruence|]. now rewrite andb_false_r, orb_false_r in E.
  - intros t J E. rewrite PP. destruct (Nat.eqb_spec n t) as [<-|NE].
    + specialize (E p I). unfold plus in E. rewrite !Nat.eqb_refl in E. rewrite orb_true_r in E. discriminate.
    + rewrite List.app_nil_r. apply E11; auto. intros a Ia. specialize (E a Ia). unfold plus in E. now apply orb_false_iff in E.
  - intros t It N. rewrite PP. destruct (Nat.eqb_spec n t) as [<-|NE]; [contradiction|]. rewrite List.app_nil_r. now apply E12.
Qed.

(** Further predecessors: a copy of the subtree is attached. *)
Lemma inv_copy Pr T d g o p q n f : In (p, n) (g_edges g0) -> In (q, n) (g_edges g0) -> D < st n + f -> Inv (st n) Pr T d g o ->
  Pr p n = true -> Pr q n = false -> (forall a b, In (a, b) (g_edges g0) -> st n < st b -> Pr a b = true) ->
  exists T' d' g' o', (do v <- nfetch n d; duplicate_below f n (add_edge q (S g) T, nset (S g) v d, S g)) = Ok (T', d', g') /\
  Inv (st n) (plus Pr q n) T' d' g' o'.
Proof.
  intros Ip I Df IV0 Pp Pq FULL. destruct (sg_ends _ _ _ _ SG _ _ I) as [Iq In_].
  rewrite <- add_edge_node. assert (IV : Inv (st n) Pr (add_node q T) d g o) by now apply inv_add_node.
  assert (HQ : In q (g_nodes (add_node q T))) by (simpl; apply set_add_In; auto). clear IV0.
  revert HQ IV. generalize (add_node q T). clear T. intros T HQ IV.
  pose proof (sg_next _ _ _ _ SG _ _ I) as SN. set (c := S g).
  destruct IV as [E1 E2 E3 E4 E5 E6 E7 E8 E9 E10 E11 E12 E13 E14].
  assert (HN : In n (g_nodes T)).
  { destruct (E10 n p Ip Pp) as [x Hx]. assert (J : In x (pred T n)) by (rewrite Hx; simpl; auto). apply pred_In in J. now apply E1 in J. }
  assert (NC : ~ In c (g_nodes T)) by (intros J; apply E3 in J; unfold c in J; lia).
  destruct (data0 n In_) as [v Hv]. assert (Hv' : nget n d = Some v) by (rewrite E8, E5; auto).
  unfold nfetch. rewrite Hv'. cbn [rbind]. rewrite (add_edge_fresh q c T HQ NC) by (intros a b J; now apply E1 in J).
  set (T2 := mkG (g_nodes T ++ [c]) (g_edges T ++ [(q, c)])). set (d2 := nset c v d).
  set (o2 := fun t => if Nat.eqb t c then n else o t).
  assert (o2c : o2 c = n) by (unfold o2; now rewrite Nat.eqb_refl).
  assert (o2n : forall t, t <= g -> o2 t = o t) by (intros t Lt; unfold o2; destruct (Nat.eqb_spec t c); [unfold c in *; lia|auto]).
  assert (d2n : forall t, t <= g -> nget t d2 = nget t d).
  { intros t Lt. unfold d2. rewrite nget_nset. destruct (Nat.eqb_spec t c); [unfold c in *; lia|auto]. }
  assert (S2 : forall t, succ T2 t = succ T t ++ (if Nat.eqb q t then [c] else [])).
  { intros t. unfold T2. rewrite (succ_app _ (g_nodes T)), tree_eta. f_equal. unfold succ. simpl. destruct (Nat.eqb q t); reflexivity. }
  assert (P2 : forall t, pred T2 t = pred T t ++ (if Nat.eqb c t then [q] else [])).
  { intros t. unfold T2. rewrite (pred_app _ (g_nodes T)), tree_eta. f_equal. unfold pred. cbn [g_edges filter snd]. destruct (Nat.eqb c t); reflexivity. }
  assert (QO : o q = q) by auto.
  assert (Lq : q <= g) by auto.
  assert (PF : forall x, In x (g_nodes T) -> st n <= st (o x) -> Permutation (map o (succ T x)) (succ g0 (o x))).
  { intros x Ix Lx. rewrite E9 by auto. rewrite (filter_ext_in _ (fun _ => true)).
    - clear. induction (succ g0 (o x)) as [|y l IH]; simpl; auto.
    - intros b Ib. apply FULL; [now apply succ_In in Ib|]. apply succ_In in Ib. apply (sg_next _ _ _ _ SG) in Ib. lia. }
  assert (CLOSED : forall x y, In x (g_nodes T) -> In y (succ T x) -> In y (g_nodes T) /\ st (o y) = S (st (o x))).
  { intros x y Ix Iy. split; [apply succ_In in Iy; now apply E1 in Iy|].
    assert (J : In (o y) (map o (succ T x))) by (apply in_map; auto). eapply Permutation_in in J; [|apply E9; auto].
    apply filter_In in J as [J _]. apply succ_In in J. now apply (sg_next _ _ _ _ SG) in J. }
  set (old := fun x => In x (g_nodes T) /\ st n <= st (o x)).
  assert (H1 : forall x, old x -> In (o x) (g_nodes g0)) by (intros x [Ix _]; auto).
  assert (H2 : forall x, old x -> exists w, nget (o x) d0 = Some w) by (intros x [Ix _]; auto).
  assert (H3 : forall x y, old x -> In y (succ T x) -> old y /\ st (o y) = S (st (o x))).
  { intros x y [Ix Lx] Iy. destruct (CLOSED x y Ix Iy) as [A B]. unfold old. sp; auto. lia. }
  assert (H4 : forall x, old x -> Permutation (map o (succ T x)) (succ g0 (o x))) by (intros x [Ix Lx]; now apply PF).
  assert (H5 : forall x, old x -> st (o x) <= D) by (intros x [Ix _]; apply (sg_last _ _ _ _ SG); auto).
  assert (H6 : old n) by (split; auto; now rewrite E5).
  assert (H7 : ready d0 old (succ T) o T2 d2 c c o2).
  { split.
    - intros x [Ix Lx]. assert (Lg : x <= g) by auto. rewrite o2n, d2n, S2 by auto.
      destruct (Nat.eqb_spec q x) as [<-|NE]; [rewrite QO in Lx; lia|]. rewrite List.app_nil_r. sp; auto; [simpl; apply in_app_iff; auto|unfold c; lia].
    - intros y. simpl. rewrite in_app_iff. intros [J|[<-|[]]]; auto. apply E3 in J. unfold c. lia.
    - intros a b. simpl. rewrite !in_app_iff. intros [J|[EE|[]]]; [apply E1 in J; tauto|]. injection EE as <- <-. simpl. auto.
    - simpl. apply in_app_iff. simpl. auto. }
  assert (H8 : succ T2 c = []).
  { rewrite S2. destruct (Nat.eqb_spec q c); [unfold c in *; lia|]. rewrite List.app_nil_r. rewrite <- (tree_eta T). apply succ_none.
    intros a b J ->. apply NC. now apply E1 in J. }
  assert (H9 : copies (V := V) g0 st D d0 old (succ T) o f (st n)) by (apply copies_below; auto).
  destruct (H9 n c T2 d2 o2) as (T' & d' & g' & o' & N & E & X & SX); auto; try (rewrite E5; auto).
  exists T', d', g', o'. split; [exact E|]. clear E.
  destruct X as [X1 X2 X3 X4 X5 X6 X7 X8].
  assert (S' : forall t, t <= g -> succ T' t = succ T2 t).
  { intros t Lt. rewrite <- (tree_eta T'), X3, (succ_app _ (g_nodes T2)), tree_eta, (succ_none _ N), List.app_nil_r; auto.
    intros a b J ->. destruct (X5 _ _ J); unfold c in *; lia. }
  assert (P' : forall t, pred T' t = pred T2 t ++ pred (mkG [] N) t).
  { intros t. now rewrite <- (tree_eta T'), X3, (pred_app _ []). }
  assert (NN : NoDup (map snd N)) by (rewrite X4; apply seq_NoDup).
  assert (PN : forall t, t <= c -> pred T' t = pred T2 t).
  { intros t Lt. rewrite P', (pred_none _ N), List.app_nil_r; auto. rewrite X4, in_seq. lia. }
  assert (NODES : forall t, In t (g_nodes T') <-> In t (g_nodes T) \/ c <= t <= g').
  { intros t. rewrite X2. simpl. rewrite !in_app_iff, in_seq. simpl. split; [intros [[J|[J|[]]]|J]; auto; right; lia|].
    intros [J|J]; auto. destruct (Nat.eq_dec t c); [left; right; left; congruence|right; lia]. }
  assert (SMALL : forall t, In t (g_nodes T) -> t <= g) by auto.
  assert (LOW : forall t, In t (g_nodes T) \/ In t (g_nodes g0) -> t <= g /\ o' t = o t /\ nget t d' = nget t d).
  { intros t It. assert (t <= g) by (destruct It as [It|It]; [auto|apply max0 in It; lia]). destruct (X6 t) as [A B]; [unfold c; lia|].
    rewrite A, B, o2n, d2n; auto. }
  assert (NEWS : forall t, c <= t <= g' -> In (o' t) (g_nodes g0) /\ nget t d' = nget (o' t) d0 /\
     Permutation (map o' (succ T' t)) (succ g0 (o' t)) /\ st n <= st (o' t)).
  { intros t Lt. destruct (Nat.eq_dec t c) as [->|NE].
    - destruct (X6 c (le_n _)) as [A B]. rewrite A, B, o2c. unfold d2. rewrite nget_nset, Nat.eqb_refl. sp; auto.
      rewrite SX. rewrite <- (E5 n In_) at 2. apply PF; auto. now rewrite E5.
    - destruct (X7 t) as (A1 & A2 & A3 & A4); [lia|]. sp; auto. lia. }
  assert (OM : forall t, In t (g_nodes T) -> map o' (succ T t) = map o (succ T t)).
  { intros t It. apply map_ext_in. intros y Iy. apply LOW. left. now apply (CLOSED t y). }
  constructor.
  - intros a b. rewrite X3, in_app_iff, !NODES. intros [J|J].
    + simpl in J. apply in_app_iff in J as [J|[EE|[]]]; [apply E1 in J; tauto|]. injection EE as <- <-. split; auto; right; lia.
    + split.
      * right. destruct (X5 _ _ J) as [->|L]; [lia|]. lia.
      * right. assert (K : In b (map snd N)) by now apply (in_map snd) in J. rewrite X4, in_seq in K. lia.
  - rewrite X2. simpl. rewrite <- app_assoc. simpl. change (c :: seq (S c) (g' - c)) with (seq c (S (g' - c))).
    apply NoDup_app_join; auto; [apply seq_NoDup|]. intros x Ix J. apply in_seq in J. apply SMALL in Ix. unfold c in J. lia.
  - intros t. rewrite NODES. intros [J|J]; [apply SMALL in J; unfold c in *; lia|lia].
  - unfold c in *. lia.
  - intros t J. rewrite (proj1 (proj2 (LOW t (or_intror J)))). auto.
  - intros t. rewrite NODES. intros [J|J]; [rewrite (proj1 (proj2 (LOW t (or_introl J)))); auto|now apply NEWS].
  - intros t. rewrite NODES. intros [J|J] K; [rewrite (proj1 (proj2 (LOW t (or_introl J)))); auto|].
    destruct (NEWS t J) as (_ & _ & _ & L). unfold c in *. sp; lia.
  - intros t. rewrite NODES. intros J.
    assert (K : (In t (g_nodes T) \/ In t (g_nodes g0)) \/ c <= t <= g') by tauto. clear J. destruct K as [K|K]; [|now apply NEWS].
    destruct (LOW t K) as (_ & A & B). rewrite A, B. auto.
  - intros t. rewrite NODES. intros J.
    assert (K : (In t (g_nodes T) \/ In t (g_nodes g0)) \/ c <= t <= g') by tauto. clear J. destruct K as [K|K].
    + destruct (LOW t K) as (L & A & _). rewrite A, S', S2, map_app by auto.
      assert (OM' : map o' (succ T t) = map o (succ T t)).
      { apply map_ext_in. intros y Iy. apply LOW. left. apply succ_In in Iy. now apply E1 in Iy. }
      rewrite OM'. destruct (Nat.eqb_spec q t) as [<-|NE].
      * rewrite QO. simpl. destruct (X6 c (le_n _)) as [OC _]. rewrite OC, o2c. rewrite plus_filter_same; auto.
        apply Permutation_app_tail. rewrite <- QO at 2 3. auto.
      * simpl. rewrite List.app_nil_r, plus_filter; auto. intros EO.
        destruct (in_dec Nat.eq_dec t (g_nodes g0)) as [I0|I0]; [rewrite E5 in EO; auto|].
        destruct K as [K|K]; [|contradiction]. destruct (E7 t K I0) as (_ & LL & _). rewrite EO in LL. lia.
    + destruct (NEWS t K) as (A1 & A2 & A3 & A4). rewrite A3. rewrite (filter_ext_in _ (fun _ => true)).
      * clear. induction (succ g0 (o' t)) as [|y l IH]; simpl; auto.
      * intros b Ib. unfold plus. rewrite FULL; auto; [now apply succ_In in Ib|]. apply succ_In in Ib. apply (sg_next _ _ _ _ SG) in Ib. lia.
  - intros t a J EE. assert (It : In t (g_nodes g0)) by (now apply (sg_ends _ _ _ _ SG) in J).
    apply max0 in It as Lt. rewrite PN, P2 by (unfold c; lia). destruct (Nat.eqb_spec c t); [unfold c in *; lia|]. rewrite List.app_nil_r.
    unfold plus in EE. apply orb_true_iff in EE as [EE|EE]; [eauto|]. apply andb_true_iff in EE as [_ EE]. apply Nat.eqb_eq in EE. subst t. eauto.
  - intros t It EE. apply max0 in It as Lt. rewrite PN, P2 by (unfold c; lia). destruct (Nat.eqb_spec c t); [unfold c in *; lia|]. rewrite List.app_nil_r.
    apply E11; auto. intros a Ia. specialize (EE a Ia). unfold plus in EE. now apply orb_false_iff in EE.
  - intros t. rewrite NODES. intros [J|J] K.
    + rewrite PN, P2 by (apply SMALL in J; unfold c; lia). destruct (Nat.eqb_spec c t) as [<-|]; [contradiction|]. rewrite List.app_nil_r. auto.
    + rewrite P', P2. assert (P0 : pred T t = []).
      { rewrite <- (tree_eta T). apply pred_none. intros L. apply in_map_iff in L as ([a b] & EE & L). simpl in EE. subst b. apply E1 in L as [_ L]. apply SMALL in L. unfold c in J. lia. }
      rewrite P0. destruct (Nat.eqb_spec c t) as [<-|NE].
      * rewrite (pred_none _ N); [simpl; eauto|]. rewrite X4, in_seq. lia.
      * simpl. destruct (pred_one [] N t) as (x & Hx & _); eauto. rewrite X4, in_seq. lia.
  - intros t. rewrite X8. unfold d2. rewrite nget_keys. setoid_rewrite nget_nset. split.
    + intros [[w EE]|J]; [|right; unfold c in *; lia]. destruct (Nat.eqb_spec t c) as [->|NE]; [right; unfold c in *; lia|].
      assert (J : In t (map fst d)) by (apply nget_keys; eauto). apply E13 in J as [J|J]; auto. right. unfold c in *. lia.
    + intros J. destruct (Nat.eqb_spec t c) as [->|NE]; [left; eauto|]. 
      assert (K : In t (map fst d) \/ c < t <= g').
      { destruct J as [J|J]; [left; apply E13; auto|]. destruct (le_lt_dec t g); [left; apply E13; right; lia|right; unfold c in *; lia]. }
      destruct K as [K|K]; auto. left. now apply nget_keys.
  - intros t J. apply NODES. destruct (le_lt_dec t g); [left; apply E14; lia|right; unfold c; lia].
Qed.

Definition full (n : nat) (Pr : nat -> nat -> bool) := forall a b, In (a, b) (g_edges g0) -> st n < st b -> Pr a b = true.

Lemma copies_loop f n p : In (p, n) (g_edges g0) -> D < st n + f ->
  forall rest Pr T d g o, Inv (st n) Pr T d g o -> Pr p n = true -> full n Pr -> NoDup rest ->
  (forall q, In q rest -> In (q, n) (g_edges g0) /\ Pr q n = false) ->
  exists T' d' g' o', foldM (fun (s : tstate) q =>
      let '(tree, data, greatest) := s in
      let k := S greatest in
      let tree := add_edge q k tree in
      do v <- nfetch n data;
      duplicate_below f n (tree, nset k v data, k)) rest (T, d, g) = Ok (T', d', g') /\
    Inv (st n) (fun a b => Pr a b || (Nat.eqb b n && mem a rest)) T' d' g' o'.
Proof.
  intros Ip Df. induction rest as [|q rest IH]; intros Pr T d g o IV Pp FU ND H.
  - exists T, d, g, o. split; auto. eapply inv_ext; [|exact IV]. intros a b _. simpl. now rewrite andb_false_r, orb_false_r.
  - inversion ND as [|? ? N1 N2]; subst. destruct (H q) as [Iq Pq]; [now left|].
    destruct (inv_copy Pr T d g o p q n f) as (T1 & d1 & g1 & o1 & E1 & IV1); auto.
    rewrite foldM_cons. cbv zeta. rewrite E1. cbn [rbind].
    destruct (IH (plus Pr q n) T1 d1 g1 o1) as (T' & d' & g' & o' & E' & IV'); auto.
    + unfold plus. now rewrite Pp.
    + intros a b I L. unfold plus. now rewrite (FU a b I L).
    + intros x Ix. destruct (H x) as [A B]; [now right|]. split; auto. unfold plus. rewrite B.
      destruct (Nat.eqb_spec x q) as [->|]; [contradiction|reflexivity].
    + exists T', d', g', o'. split; auto. eapply inv_ext; [|exact IV']. intros a b _. unfold plus. simpl.
      destruct (Pr a b), (Nat.eqb a q), (Nat.eqb b n), (mem a rest); reflexivity.
Qed.

Lemma common_step f n preds Pr T d g o : In n (g_nodes g0) -> D < st n + f -> Inv (st n) Pr T d g o -> full n Pr ->
  (forall a, In (a, n) (g_edges g0) -> Pr a n = false) -> NoDup preds -> preds <> [] ->
  (forall q, In q preds <-> In (q, n) (g_edges g0)) ->
  exists T' d' g' o', duplicate_common f preds n (T, d, g) = Ok (T', d', g') /\
    Inv (st n) (fun a b => Pr a b || Nat.eqb b n) T' d' g' o'.
Proof.
  intros In_ Df IV FU F ND NE H. destruct preds as [|p rest]; [congruence|]. inversion ND as [|? ? N1 N2]; subst.
  assert (Ip : In (p, n) (g_edges g0)) by (apply H; now left).
  pose proof (inv_attach Pr T d g o p n Ip IV F) as IV1.
  destruct (copies_loop f n p Ip Df rest (plus Pr p n) (add_edge p n T) d g o) as (T' & d' & g' & o' & E & IV'); auto.
  - unfold plus. now rewrite !Nat.eqb_refl, orb_true_r.
  - intros a b I L. unfold plus. now rewrite (FU a b I L).
  - intros q Iq. split; [apply H; now right|]. unfold plus. rewrite F by (apply H; now right).
    destruct (Nat.eqb_spec q p) as [->|]; [contradiction|reflexivity].
  - exists T', d', g', o'. split; [exact E|]. eapply inv_ext; [|exact IV'].
    intros a b I. unfold plus. destruct (Nat.eqb_spec b n) as [->|NB]; [|now rewrite andb_false_r, !orb_false_r].
    apply H in I. simpl in I. destruct (Pr a n); auto. simpl. destruct (Nat.eqb_spec a p); auto.
    destruct I as [->|I]; [congruence|]. apply mem_In in I. now rewrite I.
Qed.

(** Edges dealt with when the nodes [done] of stage [k] and all later stages are finished. *)
Definition upto (k : nat) (done : list nat) (a b : nat) : bool := (k <? st b) || mem b done.

Lemma set_update_fresh l : NoDup l -> NoDup (set_update [] l) /\ forall x, In x (set_update [] l) <-> In x l.
Proof. intros N. split; [apply set_update_NoDup; constructor|]. intros x. rewrite set_update_In. simpl. tauto. Qed.

Lemma layer_step f k : 1 <= k -> D < k + f -> forall L done next i T d g o,
  (forall n, In n L -> In n (g_nodes g0) /\ st n = k /\ ~ In n done) -> NoDup L -> NoDup next -> Inv k (upto k done) T d g o ->
  exists next' j T' d' g' o', layer ord g0 f L next i (T, d, g) = Ok (next', j, (T', d', g')) /\
    Inv k (upto k (done ++ L)) T' d' g' o' /\ NoDup next' /\
    (forall x, In x next' <-> In x next \/ exists n, In n L /\ In (x, n) (g_edges g0)).
Proof.
  intros K1 Df. induction L as [|n L IH]; intros done next i T d g o H ND NN IV.
  - exists next, i, T, d, g, o. rewrite List.app_nil_r. sp; auto. intros x. split; auto. intros [?|(n & [] & _)]; auto.
  - inversion ND as [|? ? N1 N2]; subst. destruct (H n) as (In_ & Sn & Nd); [now left|].
    cbn [layer]. unfold predecessors. replace (mem n (g_nodes g0)) with true by (symmetry; now apply mem_In). cbn [rbind].
    set (preds := set_update [] (pred g0 n)).
    destruct (set_update_fresh (pred g0 n)) as [NP IP]; [apply pred_NoDup; apply (sg_edges _ _ _ _ SG)|].
    assert (NR : n <> root) by (intros ->; assert (st root = 0) by (now apply (sg_root _ _ _ _ SG)); lia).
    destruct (sg_pred _ _ _ _ SG n In_ NR) as [a0 Ia0].
    assert (Ia0' : In a0 preds) by (apply IP; now apply pred_In).
    destruct (set_update next preds) as [|z zs] eqn:Ez.
    { exfalso. assert (J : In a0 (set_update next preds)) by (apply set_update_In; auto). rewrite Ez in J. destruct J. }
    rewrite <- Ez. clear z zs Ez.
    pose proof (ORD i preds) as PO.
    destruct (common_step f n (ord i preds) (upto k done) T d g o) as (T1 & d1 & g1 & o1 & E1 & IV1); auto.
    + lia.
    + rewrite Sn. exact IV.
    + intros a b I LL. unfold upto. rewrite Sn in LL. apply Nat.ltb_lt in LL. now rewrite LL.
    + intros a I. unfold upto. rewrite Sn, Nat.ltb_irrefl. simpl. destruct (mem n done) eqn:E; auto. apply mem_In in E. contradiction.
    + eapply Permutation_NoDup; [symmetry; exact PO|exact NP].
    + intros E. rewrite E in PO. apply Permutation_nil in PO. rewrite PO in Ia0'. destruct Ia0'.
    + intros q. rewrite <- pred_In, <- IP. split; intros J; [eapply Permutation_in; [exact PO|exact J]|eapply Permutation_in; [symmetry; exact PO|exact J]].
    + rewrite E1. cbn [rbind]. rewrite Sn in IV1.
      destruct (IH (done ++ [n]) (set_update next preds) (S i) T1 d1 g1 o1) as (next' & j & T' & d' & g' & o' & E' & IV' & NN' & IN'); auto.
      * intros m Im. destruct (H m) as (A & B & C); [now right|]. sp; auto. rewrite in_app_iff. simpl. intros [?|[->|[]]]; contradiction.
      * apply set_update_NoDup; auto.
      * eapply inv_ext; [|exact IV1]. intros a b I. unfold upto, mem. rewrite existsb_app. simpl. rewrite orb_false_r, orb_assoc. reflexivity.
      * exists next', j, T', d', g', o'. rewrite <- app_assoc in IV'. sp; auto. intros x. rewrite IN', set_update_In. unfold preds at 1. rewrite IP, pred_In. split.
        -- intros [[?|J]|(m & Im & J)]; auto; right; [exists n|exists m]; simpl; auto.
        -- intros [?|(m & [<-|Im] & J)]; eauto.
Qed.

Lemma layers_step f : forall k rounds current i T d g o, k < rounds -> D < f ->
  (forall n, In n current <-> In n (g_nodes g0) /\ st n = k) -> NoDup current -> k <= D -> Inv k (upto k []) T d g o ->
  exists T' d' g' o', layers ord g0 rounds f current i (T, d, g) = Ok (T', d', g') /\ Inv 0 (fun _ _ => true) T' d' g' o'.
Proof.
  induction k as [|k IH]; intros rounds current i T d g o Lr Df H ND LD IV; (destruct rounds as [|rounds]; [lia|]); cbn [layers].
  - assert (ER : ord i current = [root]).
    { assert (PC : Permutation current [root]).
      { apply NoDup_Permutation; auto; [constructor; [intros []|constructor]|]. intros x. rewrite H. simpl.
        pose proof (sg_first _ _ _ _ SG) as F. assert (IR : In root (g_nodes g0)) by (destruct (g_nodes g0); [discriminate|]; injection F as ->; now left).
        split; [intros [A B]; left; symmetry; now apply (sg_root _ _ _ _ SG)|]. intros [<-|[]]. split; auto. now apply (sg_root _ _ _ _ SG). }
      apply Permutation_length_1_inv. symmetry. rewrite (ORD i current). exact PC. }
    assert (IR : In root (g_nodes g0)).
    { pose proof (sg_first _ _ _ _ SG) as F. destruct (g_nodes g0); [discriminate|]. injection F as ->. now left. }
    rewrite ER. cbn [layer]. unfold predecessors. replace (mem root (g_nodes g0)) with true by (symmetry; now apply mem_In). cbn [rbind].
    assert (PR : pred g0 root = []).
    { destruct (pred g0 root) as [|x l] eqn:E; auto. assert (J : In x (pred g0 root)) by (rewrite E; now left).
      apply pred_In in J. apply (sg_next _ _ _ _ SG) in J. assert (st root = 0) by (now apply (sg_root _ _ _ _ SG)). lia. }
    rewrite PR. simpl. exists T, d, g, o. split; auto. eapply inv_ext; [|exact IV]. intros a b I. unfold upto. simpl.
    apply (sg_next _ _ _ _ SG) in I. rewrite I. reflexivity.
  - pose proof (ORD i current) as PO.
    destruct (layer_step f (S k)) with (L := ord i current) (done := @nil nat) (next := @nil nat) (i := S i) (T := T) (d := d) (g := g) (o := o)
      as (next & j & T1 & d1 & g1 & o1 & E1 & IV1 & NN1 & IN1); auto; try lia.
    + intros n In_. eapply Permutation_in in In_; [|exact PO]. apply H in In_ as [A B]. sp; auto.
    + eapply Permutation_NoDup; [symmetry; exact PO|exact ND].
    + constructor.
    + rewrite E1. cbn [rbind]. 
      assert (HN : forall n, In n next <-> In n (g_nodes g0) /\ st n = k).
      { intros n. rewrite IN1. simpl. split.
        - intros [[]|(m & Im & J)]. eapply Permutation_in in Im; [|exact PO]. apply H in Im as [_ B]. split; [now apply (sg_ends _ _ _ _ SG) in J|].
          apply (sg_next _ _ _ _ SG) in J. lia.
        - intros [A B]. right. destruct (sg_succ _ _ _ _ SG n A) as [m J]; [lia|]. exists m. split; auto.
          eapply Permutation_in; [symmetry; exact PO|]. apply H. split; [now apply (sg_ends _ _ _ _ SG) in J|]. apply (sg_next _ _ _ _ SG) in J. lia. }
      destruct next as [|z zs] eqn:Ez.
      { exfalso. assert (Kin : exists m, In m current).
        { destruct current as [|m ?]; [|exists m; now left]. exfalso.
          assert (ER : ord i [] = []) by (apply Permutation_nil; symmetry; exact PO).
          (* the stage is never empty: walk down from the root *)
          assert (G : forall s, s <= D -> exists m, In m (g_nodes g0) /\ st m = s).
          { induction s as [|s IHs]; intros Ls.
            - exists root. pose proof (sg_first _ _ _ _ SG) as F. assert (In root (g_nodes g0)) by (destruct (g_nodes g0); [discriminate|]; injection F as ->; now left).
              split; auto. now apply (sg_root _ _ _ _ SG).
            - destruct IHs as (m & Im & Sm); [lia|]. destruct (sg_succ _ _ _ _ SG m Im) as [b J]; [lia|]. exists b.
              split; [now apply (sg_ends _ _ _ _ SG) in J|]. apply (sg_next _ _ _ _ SG) in J. lia. }
          destruct (G (S k) LD) as (m & Im & Sm). apply (H m). auto. }
        destruct Kin as [m Im]. apply H in Im as [A B]. assert (NR : m <> root) by (intros ->; assert (st root = 0) by (now apply (sg_root _ _ _ _ SG)); lia).
        destruct (sg_pred _ _ _ _ SG m A NR) as [a J]. apply (HN a). split; [now apply (sg_ends _ _ _ _ SG) in J|].
        apply (sg_next _ _ _ _ SG) in J. lia. }
      destruct (IH rounds (z :: zs) j T1 d1 g1 o1) as (T' & d' & g' & o' & E' & IV'); auto; try lia.
      { apply (inv_weaken (S k)); [lia|]. eapply inv_ext; [|exact IV1]. intros a b I. unfold upto. simpl. rewrite orb_false_r.
        destruct (Nat.ltb_spec k (st b)) as [L|L].
        - destruct (Nat.ltb_spec (S k) (st b)) as [L'|L']; auto. simpl. apply mem_In. eapply Permutation_in; [symmetry; exact PO|].
          apply H. split; [now apply (sg_ends _ _ _ _ SG) in I|lia].
        - destruct (Nat.ltb_spec (S k) (st b)); [lia|]. simpl. destruct (mem b (ord i current)) eqn:E; auto. apply mem_In in E.
          eapply Permutation_in in E; [|exact PO]. apply H in E. lia. }
      exists T', d', g', o'. auto.
Qed.
End Layers.

(* ------------------------------------------------------------------ *)
(** ** searching the graph *)

Inductive reach (g : digraph) : nat -> nat -> Prop :=
| reach_refl n : reach g n n
| reach_step a b c : In (a, b) (g_edges g) -> reach g b c -> reach g a c.

Section Search.
Variables (g : digraph) (root : nat) (st : nat -> nat) (D : nat).
Hypothesis SG : staged g root st D.

Lemma greatest_spec : forall f n m, In n (g_nodes g) -> D < st n + f -> n <= m ->
  exists r, search_greatest f g n m = Ok r /\ m <= r /\ forall x, reach g n x -> x <= r.
Proof.
  induction f as [|f IH]; intros n m In_ Df Lm; [pose proof (sg_last _ _ _ _ SG n In_); lia|].
  cbn [search_greatest]. unfold neighbours. replace (mem n (g_nodes g)) with true by (symmetry; now apply mem_In). cbn [rbind].
  assert (G : forall l m, (forall x, In x l -> In (n, x) (g_edges g)) -> exists r,
     foldM (fun m x => search_greatest f g x (if m <? x then x else m)) l m = Ok r /\ m <= r /\ forall y x, In y l -> reach g y x -> x <= r).
  { induction l as [|y l IHl]; intros m0 H; [exists m0; sp; auto; intros ? ? []|].
    assert (Iy : In (n, y) (g_edges g)) by (apply H; now left). cbn [foldM].
    destruct (IH y (if m0 <? y then y else m0)) as (r & E & L1 & R1).
    - now apply (sg_ends _ _ _ _ SG) in Iy.
    - apply (sg_next _ _ _ _ SG) in Iy. lia.
    - destruct (Nat.ltb_spec m0 y); lia.
    - rewrite E. cbn [rbind]. destruct (IHl r) as (r' & E' & L2 & R2); [intros x Ix; apply H; now right|].
      exists r'. sp; auto; [destruct (Nat.ltb_spec m0 y); lia|]. intros z x [<-|Iz] RX; [apply R1 in RX; lia|eauto]. }
  destruct (G (succ g n) m) as (r & E & L & R). { intros x Ix. now apply succ_In. }
  exists r. sp; auto. intros x RX. inversion RX as [|? b ? Ib RB]; subst; [lia|]. apply (R b); auto. now apply succ_In.
Qed.

Lemma last_spec : forall f n acc, In n (g_nodes g) -> D < st n + f -> NoDup acc ->
  exists r, search_last g f n acc = Ok r /\ NoDup r /\ forall x, In x r <-> In x acc \/ (reach g n x /\ succ g x = []).
Proof.
  induction f as [|f IH]; intros n acc In_ Df ND; [pose proof (sg_last _ _ _ _ SG n In_); lia|].
  cbn [search_last]. unfold neighbours. replace (mem n (g_nodes g)) with true by (symmetry; now apply mem_In). cbn [rbind].
  assert (G : forall l acc, (forall x, In x l -> In (n, x) (g_edges g)) -> NoDup acc -> exists r,
     foldM (fun acc x => search_last g f x acc) l acc = Ok r /\ NoDup r /\
     forall x, In x r <-> In x acc \/ exists y, In y l /\ reach g y x /\ succ g x = []).
  { induction l as [|y l IHl]; intros m0 H N0; [exists m0; sp; auto; intros x; split; auto; intros [?|(y & [] & _)]; auto|].
    assert (Iy : In (n, y) (g_edges g)) by (apply H; now left). cbn [foldM].
    destruct (IH y m0) as (r & E & N1 & R1); auto.
    - now apply (sg_ends _ _ _ _ SG) in Iy.
    - apply (sg_next _ _ _ _ SG) in Iy. lia.
    - rewrite E. cbn [rbind]. destruct (IHl r) as (r' & E' & N2 & R2); [intros x Ix; apply H; now right|auto|].
      exists r'. sp; auto. intros x. rewrite R2, R1. split.
      + intros [[?|?]|(z & Iz & ?)]; auto; right; [exists y|exists z]; simpl; auto.
      + intros [?|(z & [<-|Iz] & ?)]; eauto. }
  destruct (G (succ g n) acc) as (r & E & N & R); auto. { intros x Ix. now apply succ_In. }
  rewrite E. cbn [rbind]. destruct (succ g n) as [|y l] eqn:Es.
  - exists (set_add n r). sp; auto; [now apply set_add_NoDup|]. intros x. rewrite set_add_In, R. split.
    + intros [->|[?|(y & [] & _)]]; auto. right. split; auto. constructor.
    + intros [?|[RX EX]]; auto. inversion RX as [|? b ? Ib RB]; subst; auto. apply succ_In in Ib. rewrite Es in Ib. destruct Ib.
  - exists r. sp; auto. intros x. rewrite R, <- Es. split.
    + intros [?|(z & Iz & RZ & EZ)]; auto. right. split; auto. apply reach_step with z; auto. now apply succ_In.
    + intros [?|[RX EX]]; auto. inversion RX as [|? b ? Ib RB]; subst; [congruence|]. right. exists b. sp; auto. now apply succ_In.
Qed.

Lemma root_in : In root (g_nodes g).
Proof. pose proof (sg_first _ _ _ _ SG) as F. destruct (g_nodes g); [discriminate|]. injection F as ->. now left. Qed.

Lemma root_stage : st root = 0.
Proof. apply (sg_root _ _ _ _ SG); auto. apply root_in. Qed.

Lemma reach_snoc a b c : reach g a b -> In (b, c) (g_edges g) -> reach g a c.
Proof. induction 1; intros; [apply reach_step with c; auto; constructor|apply reach_step with b; auto]. Qed.

Lemma all_reach : forall s n, In n (g_nodes g) -> st n = s -> reach g root n.
Proof.
  induction s as [|s IH]; intros n In_ E.
  - apply (sg_root _ _ _ _ SG) in E; auto. subst. constructor.
  - assert (NR : n <> root) by (intros ->; rewrite root_stage in E; lia). destruct (sg_pred _ _ _ _ SG n In_ NR) as [a Ia].
    apply reach_snoc with a; auto. apply IH; [now apply (sg_ends _ _ _ _ SG) in Ia|]. apply (sg_next _ _ _ _ SG) in Ia. lia.
Qed.

Lemma reach_in a b : In a (g_nodes g) -> reach g a b -> In b (g_nodes g).
Proof. intros I H. induction H as [|a b c E R IH]; auto. apply IH. now apply (sg_ends _ _ _ _ SG) in E. Qed.

Lemma last_stage n : In n (g_nodes g) -> (succ g n = [] <-> st n = D).
Proof.
  intros In_. split.
  - intros E. pose proof (sg_last _ _ _ _ SG n In_). destruct (Nat.eq_dec (st n) D); auto.
    destruct (sg_succ _ _ _ _ SG n In_) as [b Ib]; [lia|]. apply succ_In in Ib. rewrite E in Ib. destruct Ib.
  - intros E. destruct (succ g n) as [|b l] eqn:Es; auto. assert (Ib : In b (succ g n)) by (rewrite Es; now left).
    apply succ_In in Ib. pose proof (sg_next _ _ _ _ SG _ _ Ib). apply (sg_ends _ _ _ _ SG) in Ib as [_ Ib].
    apply (sg_last _ _ _ _ SG) in Ib. lia.
Qed.
End Search.

(* ------------------------------------------------------------------ *)
(** ** the whole conversion *)

Lemma NoDup_map_inj {A B} (f : A -> B) l x y : NoDup (map f l) -> In x l -> In y l -> f x = f y -> x = y.
Proof.
  induction l as [|a l IH]; intros N Ix Iy E; [destruct Ix|]. inversion N as [|? ? N1 N2]; subst.
  destruct Ix as [->|Ix], Iy as [->|Iy]; auto; exfalso; apply N1; [rewrite E|rewrite <- E]; now apply in_map.
Qed.

Section Whole.
Context {V : Type}.
Variables (ord : nat -> list nat -> list nat) (g0 : digraph) (root : nat) (st : nat -> nat) (D : nat) (d0 : list (nat * V)).
Hypothesis SG : staged g0 root st D.
Hypothesis data0 : forall n, In n (g_nodes g0) -> exists v, nget n d0 = Some v.
Hypothesis ORD : enumerates ord.

Lemma inv_unfolds gmax T d g o : 1 <= D -> Inv g0 st d0 gmax 0 (fun _ _ => true) T d g o ->
  arborescence T root /\ unfolds g0 d0 root T d o /\ NoDup (g_nodes T) /\
  (forall n, In n (g_nodes g0) -> In n (g_nodes T)) /\
  (forall n, In n (map fst d) <-> In n (map fst d0) \/ (In n (g_nodes T) /\ ~ In n (g_nodes g0)) \/ gmax < n <= g).
Proof.
  intros L1 [i_ends i_nodup i_max i_gmax i_orig i_in i_kind i_data i_succ i_pred1 i_pred0 i_copy i_keys i_all]. pose proof (root_in g0 root st D SG) as IR. pose proof (root_stage g0 root st D SG) as SR.
  assert (PERM : forall t, In t (g_nodes T) \/ In t (g_nodes g0) -> Permutation (map o (succ T t)) (succ g0 (o t))).
  { intros t It. rewrite i_succ by auto. clear. induction (succ g0 (o t)) as [|y l IH]; simpl; auto. }
  assert (ALL : forall n, In n (g_nodes g0) -> In n (g_nodes T)).
  { intros n In_. destruct (Nat.eq_dec n root) as [->|NR].
    - destruct (sg_succ _ _ _ _ SG root IR) as [b Ib]; [lia|]. pose proof (PERM root (or_intror IR)) as P. rewrite (i_orig root IR) in P.
      apply succ_In in Ib. eapply Permutation_in in Ib; [|symmetry; exact P]. apply in_map_iff in Ib as (y & _ & Iy).
      apply succ_In in Iy. now apply i_ends in Iy.
    - destruct (sg_pred _ _ _ _ SG n In_ NR) as [a Ia]. destruct (i_pred1 n a Ia eq_refl) as [p Hp].
      assert (J : In p (pred T n)) by (rewrite Hp; now left). apply pred_In in J. now apply i_ends in J. }
  assert (EDGE : forall a b, In (a, b) (g_edges T) -> In (o a, o b) (g_edges g0)).
  { intros a b I. apply succ_In. eapply Permutation_in; [apply PERM; left; now apply i_ends in I|]. apply in_map. now apply succ_In. }
  assert (P0 : pred T root = []).
  { apply i_pred0; auto. intros a Ia. apply (sg_next _ _ _ _ SG) in Ia. lia. }
  assert (P1 : forall n, In n (g_nodes T) -> n <> root -> exists p, pred T n = [p]).
  { intros n In_ NR. destruct (in_dec Nat.eq_dec n (g_nodes g0)) as [I0|I0]; auto.
    destruct (sg_pred _ _ _ _ SG n I0 NR) as [a Ia]. eauto. }
  assert (RCH : forall s n, In n (g_nodes T) -> st (o n) = s -> exists ns, rooted T root ns /\ hd_error (rev ns) = Some n).
  { induction s as [|s IH]; intros n In_ E.
    - destruct (in_dec Nat.eq_dec n (g_nodes g0)) as [I0|I0]; [|destruct (i_kind n In_ I0) as (_ & _ & ?); lia].
      rewrite i_orig in E by auto. apply (sg_root _ _ _ _ SG) in E; auto. subst n. exists [root]. sp; auto. split; simpl; auto.
    - assert (NR : n <> root) by (intros ->; rewrite i_orig in E; auto; lia). destruct (P1 n In_ NR) as [p Hp].
      assert (J : In (p, n) (g_edges T)) by (apply pred_In; rewrite Hp; now left).
      destruct (IH p) as (ns & [H1 H2] & H3); [now apply i_ends in J|apply EDGE in J; apply (sg_next _ _ _ _ SG) in J; lia|].
      exists (ns ++ [n]). rewrite rev_app_distr. sp; auto. split; [destruct ns; [discriminate|exact H1]|].
      clear - H2 H3 J. induction ns as [|a ns IH]; [exact I|]. destruct ns as [|b ns].
      + simpl in *. injection H3 as ->. auto.
      + destruct H2 as [H2 H4]. split; auto. apply IH; auto. simpl in H3 |- *. 
        destruct (rev ns ++ [b]) eqn:E; [destruct (rev ns); discriminate|]. exact H3. }
  sp; auto.
  - unfold arborescence. sp; auto. intros n In_. eapply RCH; eauto.
  - constructor; auto.
    + intros ms [H W]. split; [destruct ms; [discriminate|]; simpl in *; injection H as ->; now rewrite i_orig|].
      clear H. induction ms as [|a ms IH]; [exact I|]. destruct ms as [|b ms]; [exact I|]. destruct W as [W1 W2]. split; [now apply EDGE|now apply IH].
    + assert (UP : forall ns n t, walk g0 (n :: ns) -> In t (g_nodes T) -> o t = n -> exists ms, walk T (t :: ms) /\ map o (t :: ms) = n :: ns).
      { induction ns as [|b ns IH]; intros n t W It E; [exists []; simpl; rewrite E; auto|]. destruct W as [W1 W2].
        subst n. apply succ_In in W1. eapply Permutation_in in W1; [|symmetry; apply PERM; auto]. apply in_map_iff in W1 as (y & Ey & Iy).
        apply succ_In in Iy. destruct (IH b y W2) as (ms & A & B); auto; [now apply i_ends in Iy|].
        exists (y :: ms). split; [split; auto|]. simpl in B |- *. now rewrite B. }
      intros ns [H W]. destruct ns as [|n ns]; [discriminate|]. simpl in H. injection H as ->.
      destruct (UP ns root root W) as (ms & A & B); auto. exists (root :: ms). split; auto. split; auto.
    + assert (ONE : forall ms ms' t, walk T (t :: ms) -> walk T (t :: ms') -> map o ms = map o ms' -> ms = ms').
      { induction ms as [|a ms IH]; intros [|b ms'] t W W' E; try discriminate; auto. destruct W as [W1 W2], W' as [W1' W2'].
        simpl in E. injection E as E1 E2. assert (a = b) as <-.
        { apply (NoDup_map_inj o (succ T t)); auto; [|now apply succ_In|now apply succ_In].
          eapply Permutation_NoDup; [symmetry; apply PERM; left; now apply i_ends in W1|]. apply succ_NoDup. apply (sg_edges _ _ _ _ SG). }
        f_equal. apply (IH ms' a); auto. }
      intros ms ms' [H W] [H' W'] E. destruct ms as [|a ms]; [discriminate|]. destruct ms' as [|a' ms']; [discriminate|].
      simpl in H, H'. injection H as ->. injection H' as ->. f_equal. simpl in E. injection E as E. eapply ONE; eauto.
  - intros n. rewrite i_keys. split; [tauto|]. intros [?|[[A B]|?]]; auto. right. destruct (i_kind n A B) as (? & _). split; auto.
Qed.

Lemma tree_unfolds : List.length (g_nodes g0) = S (List.length (g_edges g0)) -> arborescence g0 root /\ unfolds g0 d0 root g0 d0 (fun n => n).
Proof.
  intros L. pose proof (root_in g0 root st D SG) as IR. pose proof (root_stage g0 root st D SG) as SR.
  assert (PN : Permutation (remove Nat.eq_dec root (g_nodes g0)) (map snd (g_edges g0))).
  { pose proof (sg_nodes _ _ _ _ SG) as ND. assert (NR : NoDup (remove Nat.eq_dec root (g_nodes g0))).
    { clear - ND. induction ND as [|x l Nx ND IH]; simpl; [constructor|]. destruct (Nat.eq_dec root x); auto. constructor; auto.
      intros J. apply in_remove in J. tauto. }
    apply NoDup_Permutation_bis; auto.
    - rewrite map_length. assert (LR : forall l, NoDup l -> In root l -> S (List.length (remove Nat.eq_dec root l)) = List.length l).
      { clear. induction l as [|x l IH]; intros ND I; [destruct I|]. inversion ND as [|? ? N1 N2]; subst. simpl.
        destruct (Nat.eq_dec root x) as [<-|NE]; [now rewrite notin_remove|]. destruct I as [->|I]; [congruence|]. simpl. now rewrite IH. }
      specialize (LR _ ND IR). lia.
    - intros n J. apply in_remove in J as [J NE]. destruct (sg_pred _ _ _ _ SG n J NE) as [a Ia]. now apply (in_map snd) in Ia. }
  assert (NH : NoDup (map snd (g_edges g0))).
  { eapply Permutation_NoDup; [exact PN|]. pose proof (sg_nodes _ _ _ _ SG) as ND. clear - ND.
    induction ND as [|x l Nx ND IH]; simpl; [constructor|]. destruct (Nat.eq_dec root x); auto. constructor; auto.
    intros J. apply in_remove in J. tauto. }
  split.
  - unfold arborescence. sp; auto.
    + destruct (pred g0 root) as [|x l] eqn:E; auto. assert (J : In x (pred g0 root)) by (rewrite E; now left).
      apply pred_In in J. apply (sg_next _ _ _ _ SG) in J. lia.
    + intros n In_ NR. destruct (sg_pred _ _ _ _ SG n In_ NR) as [a Ia]. rewrite <- (tree_eta g0).
      destruct (pred_one (g_nodes g0) (g_edges g0) n NH) as (p & Hp & _); eauto. now apply (in_map snd) in Ia.
    + intros n In_. assert (G : forall s m, In m (g_nodes g0) -> st m = s -> exists ns, rooted g0 root ns /\ hd_error (rev ns) = Some m).
      { induction s as [|s IH]; intros m Im E.
        - apply (sg_root _ _ _ _ SG) in E; auto. subst m. exists [root]. sp; auto. split; simpl; auto.
        - assert (NR : m <> root) by (intros ->; lia). destruct (sg_pred _ _ _ _ SG m Im NR) as [p J].
          destruct (IH p) as (ns & [H1 H2] & H3); [now apply (sg_ends _ _ _ _ SG) in J|apply (sg_next _ _ _ _ SG) in J; lia|].
          exists (ns ++ [m]). rewrite rev_app_distr. sp; auto. split; [destruct ns; [discriminate|exact H1]|].
          clear - H2 H3 J. induction ns as [|a ns IH]; [exact I|]. destruct ns as [|b ns].
          + simpl in *. injection H3 as ->. auto.
          + destruct H2 as [H2 H4]. split; auto. apply IH; auto. simpl in H3 |- *. 
            destruct (rev ns ++ [b]) eqn:E'; [destruct (rev ns); discriminate|]. exact H3. }
      eapply G; eauto.
  - constructor; auto.
    + intros ms H. now rewrite map_id.
    + intros ns H. exists ns. now rewrite map_id.
    + intros ms ms' _ _ E. now rewrite !map_id in E.
Qed.

Lemma convert_spec fuel : D + 2 <= fuel ->
  exists T d o, convert ord g0 fuel d0 = Ok (T, d) /\ arborescence T root /\ unfolds g0 d0 root T d o /\ NoDup (g_nodes T) /\
    ((forall n, In n (map fst d0) <-> In n (g_nodes g0)) -> forall n, In n (map fst d) <-> In n (g_nodes T)) /\
    (forall n, In n (g_nodes g0) -> In n (g_nodes T) /\ nget n d = nget n d0) /\
    (forall a b, In (a, b) (g_edges T) -> In a (g_nodes T) /\ In b (g_nodes T)).
Proof.
  intros LF. pose proof (root_in g0 root st D SG) as IR. pose proof (root_stage g0 root st D SG) as SR.
  unfold convert. unfold is_tree. pose proof (sg_first _ _ _ _ SG) as F.
  destruct (g_nodes g0) as [|r rest] eqn:EN; [discriminate|]. rewrite <- EN in *. clear r rest EN F. cbn [rbind].
  destruct (Nat.eqb (List.length (g_nodes g0)) (S (List.length (g_edges g0))) && weakly_connected g0) eqn:ET.
  - apply andb_true_iff in ET as [ET _]. apply Nat.eqb_eq in ET. destruct (tree_unfolds ET) as [A B].
    exists g0, d0, (fun n => n). sp; auto; [apply (sg_nodes _ _ _ _ SG)|apply (sg_ends _ _ _ _ SG)].
  - assert (D1 : 1 <= D).
    { destruct D as [|D']; [|lia]. exfalso.
      assert (ALL : forall n, In n (g_nodes g0) -> n = root).
      { intros n In_. pose proof (sg_last _ _ _ _ SG n In_). apply (sg_root _ _ _ _ SG); auto. lia. }
      assert (EE : g_edges g0 = []).
      { destruct (g_edges g0) as [|[a b] l] eqn:E; auto. assert (J : In (a, b) (g_edges g0)) by (rewrite E; now left).
        pose proof (sg_next _ _ _ _ SG _ _ J). apply (sg_ends _ _ _ _ SG) in J as [_ J]. apply (sg_last _ _ _ _ SG) in J. lia. }
      assert (EN : g_nodes g0 = [root]).
      { pose proof (sg_nodes _ _ _ _ SG) as ND. destruct (g_nodes g0) as [|x [|y l]] eqn:E; [destruct IR|f_equal; apply ALL; now left|].
        exfalso. assert (x = y) by (rewrite (ALL x), (ALL y); simpl; auto). subst. inversion ND as [|? ? N1 _]. apply N1. now left. }
      unfold weakly_connected in ET. rewrite EE, EN in ET. simpl in ET.
      unfold set_update, touching in ET. rewrite EE in ET. simpl in ET. rewrite Nat.eqb_refl in ET. discriminate. }
    unfold find_greatest, find_last, get_first_node. pose proof (sg_first _ _ _ _ SG) as F.
    destruct (g_nodes g0) as [|r rest] eqn:EN; [discriminate|]. simpl in F. injection F as ->. rewrite <- EN in *. clear rest EN. cbn [rbind].
    destruct (greatest_spec g0 root st D SG fuel root root IR) as (gm & EG & _ & GM); [lia|lia|]. rewrite EG. cbn [rbind].
    destruct (last_spec g0 root st D SG fuel root [] IR) as (last & EL & NL & HL); [lia|constructor|]. rewrite EL. cbn [rbind].
    assert (MX : forall n, In n (g_nodes g0) -> n <= gm) by (intros n In_; apply GM; eapply all_reach; eauto).
    assert (INIT : Inv g0 st d0 gm D (upto st D []) empty_graph d0 gm (fun n => n)).
    { constructor; simpl; auto; try (intros; contradiction); try (intros; lia); try tauto.
      - constructor.
      - intros t [[]|It]. rewrite (filter_ext_in _ (fun _ => false)); [clear; induction (succ g0 t); simpl; auto|].
        intros b Ib. unfold upto. simpl. rewrite orb_false_r. apply Nat.ltb_ge. apply succ_In in Ib. apply (sg_ends _ _ _ _ SG) in Ib as [_ Ib].
        now apply (sg_last _ _ _ _ SG).
      - intros t a I E. unfold upto in E. simpl in E. rewrite orb_false_r in E. apply Nat.ltb_lt in E.
        apply (sg_ends _ _ _ _ SG) in I as [_ I]. apply (sg_last _ _ _ _ SG) in I. lia.
      - intros t. split; auto. intros [?|?]; auto. lia. }
    destruct (layers_step ord g0 root st D d0 gm SG data0 MX ORD fuel D fuel last 0 empty_graph d0 gm (fun n => n)) as (T & d & g & o & E & IV); auto; try lia.
    { intros n. rewrite HL. simpl. split.
      - intros [[]|[RX EX]]. assert (In n (g_nodes g0)) by (eapply reach_in; eauto). split; auto. now apply (last_stage g0 root st D SG).
      - intros [A B]. right. split; [eapply all_reach; eauto|]. now apply (last_stage g0 root st D SG). }
    rewrite E. cbn [rbind fst]. exists T, d, o. destruct (inv_unfolds gm T d g o D1 IV) as (A & B & C & D2 & K). sp; auto.
    + intros HK n. rewrite K, HK. split.
      * intros [?|[[? _]|L]]; auto. now apply (iv_all _ _ _ _ _ _ _ _ _ _ IV).
      * intros In_. destruct (in_dec Nat.eq_dec n (g_nodes g0)); auto.
    + intros n In_. split; auto. rewrite (iv_data _ _ _ _ _ _ _ _ _ _ IV) by auto. now rewrite (iv_orig _ _ _ _ _ _ _ _ _ _ IV).
    + apply (iv_ends _ _ _ _ _ _ _ _ _ _ IV).
Qed.
End Whole.

(* ------------------------------------------------------------------ *)
(** ** the data keeps one entry per node *)

Section Keys.
Context {V : Type}.

Lemma nset_keys k (v : V) d : NoDup (map fst d) -> NoDup (map fst (nset k v d)).
Proof.
  induction d as [|[j w] d IH]; intros N; simpl; [repeat constructor; auto|]. inversion N as [|? ? N1 N2]; subst.
  destruct (Nat.eqb_spec j k) as [->|NE]; simpl; constructor; auto. intros I. apply nget_keys in I as (x & Ex).
  rewrite nget_nset in Ex. destruct (Nat.eqb_spec j k); [contradiction|]. apply N1. apply nget_keys. eauto.
Qed.

Lemma foldM_inv {A S} (Q : S -> Prop) (f : S -> A -> res S) l : (forall s a s', Q s -> f s a = Ok s' -> Q s') ->
  forall s s', Q s -> foldM f l s = Ok s' -> Q s'.
Proof.
  intros H. induction l as [|a l IH]; intros s s' Qs E; simpl in E; [now injection E as <-|].
  destruct (f s a) as [s1|] eqn:E1; [|discriminate]. cbn [rbind] in E. eauto.
Qed.

Definition one_entry (s : @tstate V) : Prop := NoDup (map fst (snd (fst s))).

Lemma below_keys : forall f n s s', one_entry s -> duplicate_below f n s = Ok s' -> one_entry s'.
Proof.
  induction f as [|f IH]; intros n s s' H E; [discriminate|]. cbn [duplicate_below] in E.
  destruct (neighbours _ _) as [l|]; [|discriminate]. cbn [rbind] in E. revert E. apply foldM_inv; auto.
  intros [[T d] g] x s1 Q E. destruct (nfetch x d) as [v|]; [|discriminate]. cbn [rbind] in E. eapply IH; [|exact E].
  unfold one_entry in *. simpl in *. now apply nset_keys.
Qed.

Lemma common_keys f preds n s s' : one_entry s -> duplicate_common f preds n s = Ok s' -> one_entry s'.
Proof.
  unfold duplicate_common. destruct preds as [|p rest]; [discriminate|]. destruct s as [[T d] g]. intros H. apply foldM_inv; auto.
  intros [[T1 d1] g1] q s1 Q E. destruct (nfetch n d1) as [v|]; [|discriminate]. cbn [rbind] in E. eapply below_keys; [|exact E].
  unfold one_entry in *. simpl in *. now apply nset_keys.
Qed.

Lemma layer_keys ord g f : forall L next i s next' j s', one_entry s -> layer ord g f L next i s = Ok (next', j, s') -> one_entry s'.
Proof.
  induction L as [|n L IH]; intros next i s next' j s' H E; cbn [layer] in E; [now injection E as <- <- <-|].
  destruct (predecessors g n) as [l|]; [|discriminate]. cbn [rbind] in E.
  destruct (set_update next (set_update [] l)) eqn:Es; [now injection E as <- <- <-|].
  destruct (duplicate_common _ _ _ _) as [s1|] eqn:E1; [|discriminate]. cbn [rbind] in E. eapply IH; [|exact E]. eapply common_keys; eauto.
Qed.

Lemma layers_keys ord g f : forall r cur i s s', one_entry s -> layers ord g r f cur i s = Ok s' -> one_entry s'.
Proof.
  induction r as [|r IH]; intros cur i s s' H E; [discriminate|]. cbn [layers] in E.
  destruct (layer _ _ _ _ _ _ _) as [[[next j] s1]|] eqn:E1; [|discriminate]. cbn [rbind] in E.
  apply layer_keys in E1; auto. destruct next; [now injection E as <-|]. eapply IH; eauto.
Qed.

Lemma convert_keys ord g f (d : list (nat * V)) T d' : NoDup (map fst d) -> convert ord g f d = Ok (T, d') -> NoDup (map fst d').
Proof.
  unfold convert. intros N E. destruct (is_tree g) as [[]|]; [injection E as <- <-; auto| |discriminate]. cbn [rbind] in E.
  destruct (find_greatest f g); [|discriminate]. cbn [rbind] in E. destruct (find_last g f); [|discriminate]. cbn [rbind] in E.
  destruct (layers _ _ _ _ _ _ _) as [[[T1 d1] g1]|] eqn:E1; [|discriminate]. cbn [rbind fst] in E. injection E as <- <-.
  now apply layers_keys in E1.
Qed.
End Keys.
