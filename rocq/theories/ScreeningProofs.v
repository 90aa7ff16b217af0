(** Proofs about the screening model: its constraints are the operations of ScreeningSpec.v. *)
From Coq Require Import List Bool Arith ZArith QArith Qpower Qabs Qround Lia Lqa.
From Verif Require Import Base GraphData GraphDataProofs CasesProofs Cases Screening ScreeningSpec.
Import ListNotations.
Open Scope nat_scope.
Open Scope list_scope.

Local Ltac sp := repeat match goal with |- _ /\ _ => split end.
Local Ltac step H := repeat (match type of H with
  | rbind ?m _ = Ok _ => let E := fresh "E" in destruct m eqn:E; cbn [rbind] in H; [|discriminate]
  end).

(** ** Sums *)

Lemma qsum_app a b : (qsum (a ++ b) == qsum a + qsum b)%Q.
Proof. unfold qsum. induction a as [|x a IH]; cbn [app fold_right]; [ring|]. rewrite IH. ring. Qed.
Lemma qsum_ext {X} (f g : X -> Q) l : (forall x, In x l -> (f x == g x)%Q) -> (qsum (map f l) == qsum (map g l))%Q.
Proof. unfold qsum. induction l as [|x l IH]; intros H; cbn [map fold_right]; [reflexivity|]. rewrite (H x (or_introl eq_refl)), IH; [reflexivity|]. intros y I. apply H. now right. Qed.
Lemma qsum_add {X} (f g : X -> Q) l : (qsum (map (fun x => f x + g x) l) == qsum (map f l) + qsum (map g l))%Q.
Proof. unfold qsum. induction l as [|x l IH]; cbn [map fold_right]; [ring|]. rewrite IH. ring. Qed.
Lemma qsum_scale {X} (q : Q) (f : X -> Q) l : (qsum (map (fun x => q * f x) l) == q * qsum (map f l))%Q.
Proof. unfold qsum. induction l as [|x l IH]; cbn [map fold_right]; [ring|]. rewrite IH. ring. Qed.
Lemma qsum_zero {X} (f : X -> Q) l : (forall x, In x l -> (f x == 0)%Q) -> (qsum (map f l) == 0)%Q.
Proof. unfold qsum. induction l as [|x l IH]; intros H; cbn [map fold_right]; [reflexivity|]. rewrite (H x (or_introl eq_refl)), IH; [ring|]. intros y I. apply H. now right. Qed.
Lemma qsum_filter {X} (p : X -> bool) (f : X -> Q) l : (qsum (map f (filter p l)) == qsum (map (fun x => if p x then f x else 0) l))%Q.
Proof. unfold qsum. induction l as [|x l IH]; cbn [filter map fold_right]; [reflexivity|]. destruct (p x); cbn [map fold_right]; rewrite IH; ring. Qed.
Lemma qsum_swap {X Y} (f : X -> Y -> Q) l m : (qsum (map (fun x => qsum (map (f x) m)) l) == qsum (map (fun y => qsum (map (fun x => f x y) l)) m))%Q.
Proof.
  induction l as [|x l IH].
  - cbn. symmetry. apply qsum_zero. reflexivity.
  - cbn [map]. change (qsum (qsum (map (f x) m) :: map (fun x0 => qsum (map (f x0) m)) l)) with (qsum (map (f x) m) + qsum (map (fun x0 => qsum (map (f x0) m)) l))%Q.
    rewrite IH, <- qsum_add. apply qsum_ext. intros y _. reflexivity.
Qed.
Lemma qsum_le {X} (f g : X -> Q) l : (forall x, In x l -> (f x <= g x)%Q) -> (qsum (map f l) <= qsum (map g l))%Q.
Proof. unfold qsum. induction l as [|x l IH]; intros H; cbn [map fold_right]; [lra|]. pose proof (H x (or_introl eq_refl)). assert (forall y, In y l -> (f y <= g y)%Q) by (intros; apply H; now right). specialize (IH H1). lra. Qed.
Lemma qsum_lt {X} (f g : X -> Q) l x : In x l -> (f x < g x)%Q -> (forall x, In x l -> (f x <= g x)%Q) -> (qsum (map f l) < qsum (map g l))%Q.
Proof.
  induction l as [|y l IH]; intros I L H; [destruct I|]. cbn [map]. unfold qsum in *. cbn [fold_right].
  pose proof (H y (or_introl eq_refl)) as Hy. assert (Hl : forall y, In y l -> (f y <= g y)%Q) by (intros; apply H; now right). destruct I as [->|I].
  - pose proof (qsum_le f g l Hl) as G. unfold qsum in G. lra.
  - specialize (IH I L Hl). lra.
Qed.
Lemma qsum_prod {X Y} (f : X -> Y -> Q) l m : (qsum (map (fun i => f (fst i) (snd i)) (list_prod l m)) == qsum (map (fun x => qsum (map (f x) m)) l))%Q.
Proof.
  induction l as [|x l IH]; [reflexivity|]. cbn [list_prod]. rewrite map_app, qsum_app, IH, map_map. reflexivity.
Qed.

(** A sum over a list of names in which every element counts for its own name only. *)
Lemma sum_by_name (f : Q) (x : Z) zs : NoDup zs -> (qsum (map (fun z => if Z.eqb x z then f else 0) zs) == if in_dec Z.eq_dec x zs then f else 0)%Q.
Proof.
  induction zs as [|z zs IH]; intros N; [reflexivity|]. inversion_clear N as [|? ? Nz Nd]. specialize (IH Nd). cbn [map]. unfold qsum in *. cbn [fold_right].
  rewrite IH. destruct (Z.eqb_spec x z) as [->|Ne]; destruct (in_dec Z.eq_dec _ (z :: zs)) as [I|I]; destruct (in_dec Z.eq_dec _ zs) as [J|J]; try ring.
  all: exfalso; cbn in I; intuition congruence.
Qed.

Lemma map_nth_seq {X} (l : list X) d : map (fun i => nth i l d) (seq 0 (List.length l)) = l.
Proof. induction l as [|x l IH]; cbn [List.length seq map nth]; auto. f_equal. rewrite <- seq_shift, map_map. exact IH. Qed.

(** The elements of all the buses together are all the elements, if they all are at some bus. *)
Lemma sum_over_buses zs n (at_bus : nat -> Z) (f : nat -> Q) : NoDup zs -> (forall i, i < n -> In (at_bus i) zs \/ (f i == 0)%Q) ->
  (total (List.length zs) (fun b => total_where n (fun i => Z.eqb (at_bus i) (nth b zs 0%Z)) f) == total n f)%Q.
Proof.
  intros N H. unfold total, total_where.
  rewrite <- (map_map (fun b => nth b zs 0%Z) (fun z => qsum (map f (filter (fun i => Z.eqb (at_bus i) z) (seq 0 n))))), map_nth_seq.
  etransitivity; [apply qsum_ext; intros z _; apply (qsum_filter (fun i => Z.eqb (at_bus i) z))|]. cbv beta.
  rewrite (qsum_swap (fun z i => if Z.eqb (at_bus i) z then f i else 0%Q)). apply qsum_ext. intros i I. apply in_seq in I.
  rewrite (sum_by_name (f i) (at_bus i) zs N). destruct (in_dec Z.eq_dec (at_bus i) zs); [reflexivity|]. destruct (H i) as [?|E]; [lia|contradiction|now rewrite E].
Qed.

(** ** Positions and expressions *)

Lemma eval_esum s l : (eval s (esum l) == qsum (map (eval s) l))%Q.
Proof.
  unfold esum. assert (G : forall l a, (eval s (fold_left EAdd l a) == eval s a + qsum (map (eval s) l))%Q).
  { clear. induction l as [|x l IH]; intros a; cbn [fold_left map]; [cbn; ring|]. rewrite IH. cbn [eval]. unfold qsum. cbn [fold_right]. ring. }
  rewrite G. cbn [eval]. ring.
Qed.

Lemma positions_from_spec z : forall l i, positions_from i z l = filter (fun j => Z.eqb (nth (j - i) l 0%Z) z) (seq i (List.length l)).
Proof.
  induction l as [|x l IH]; intros i; [reflexivity|]. cbn [positions_from List.length seq filter]. rewrite Nat.sub_diag. cbn [nth]. rewrite (IH (S i)).
  assert (E : filter (fun j => Z.eqb (nth (j - S i) l 0%Z) z) (seq (S i) (List.length l)) = filter (fun j => Z.eqb (nth (j - i) (x :: l) 0%Z) z) (seq (S i) (List.length l))).
  { apply filter_ext_in. intros j I. apply in_seq in I. replace (j - i) with (S (j - S i)) by lia. reflexivity. }
  rewrite E. reflexivity.
Qed.
Lemma positions_spec z l : positions z l = filter (fun j => Z.eqb (nth j l 0%Z) z) (seq 0 (List.length l)).
Proof. unfold positions. rewrite positions_from_spec. apply filter_ext. intros j. now rewrite Nat.sub_0_r. Qed.

Lemma filter_first (p : nat -> bool) : forall n i x r, filter p (seq i n) = x :: r -> p x = true /\ i <= x < i + n /\ forall j, i <= j < x -> p j = false.
Proof.
  induction n as [|n IH]; intros i x r H; cbn [seq filter] in H; [discriminate|]. destruct (p i) eqn:E.
  - inversion H; subst. sp; auto; lia.
  - apply IH in H as (A & B & C). sp; auto; try lia. intros j L. destruct (Nat.eq_dec j i) as [->|]; auto. apply C. lia.
Qed.
Lemma positions_first z l n r : positions z l = n :: r -> first_at z l n.
Proof.
  rewrite positions_spec. intros H. apply filter_first in H as (A & B & C). apply Z.eqb_eq in A. split.
  - rewrite (nth_error_nth' l 0%Z) by lia. now rewrite A.
  - intros j L E. specialize (C j ltac:(lia)). apply Z.eqb_neq in C. apply C. symmetry. apply nth_error_nth with (d := 0%Z) in E. now rewrite E.
Qed.
Lemma first_at_unique {X} (x : X) l i j : first_at x l i -> first_at x l j -> i = j.
Proof. intros [A B] [C D]. destruct (Nat.lt_trichotomy i j) as [L|[L|L]]; auto; exfalso; [apply (D i L A)|apply (B j L C)]. Qed.
Lemma positions_nil z l : positions z l = [] -> ~ In z l.
Proof.
  rewrite positions_spec. intros H I. apply (In_nth l z 0%Z) in I as (n & L & E).
  assert (J : In n (filter (fun j => Z.eqb (nth j l 0%Z) z) (seq 0 (List.length l)))) by (apply filter_In; split; [apply in_seq; lia|now apply Z.eqb_eq]). rewrite H in J. destruct J.
Qed.
Lemma positions_in z l : In z l -> exists n r, positions z l = n :: r /\ first_at z l n.
Proof. intros I. destruct (positions z l) as [|n r] eqn:E; [now apply positions_nil in E|]. exists n, r. split; auto. eapply positions_first; eauto. Qed.
Lemma index_of_ok z l n : index_of z l = Ok n -> first_at z l n.
Proof. unfold index_of. destruct (positions z l) as [|i r] eqn:E; [discriminate|]. intros H. inversion H; subst. eapply positions_first; eauto. Qed.
Lemma first_at_lt {X} (x : X) l i : first_at x l i -> i < List.length l.
Proof. intros [A _]. apply nth_error_Some. congruence. Qed.
Lemma first_at_In {X} (x : X) l i : first_at x l i -> In x l.
Proof. intros [A _]. eapply nth_error_In; eauto. Qed.

Lemma at_val {X} (l : list X) i a d : at_ l i = Ok a -> nth i l d = a.
Proof. intros H. apply at_nth in H. now apply nth_error_nth. Qed.

(** ** Polynomials *)

Fixpoint from_low (l : list Q) (x : Q) : Q := match l with [] => 0 | a :: r => from_low r x * x + a end%Q.
Lemma polynomial_low c x : polynomial c x = from_low (rev c) x.
Proof.
  unfold polynomial. rewrite <- (rev_involutive c) at 1. rewrite <- fold_left_rev_right, rev_involutive. induction (rev c) as [|a l IH]; [reflexivity|]. cbn [fold_right from_low]. now rewrite IH.
Qed.
Lemma low_powers l x : (from_low l x == total (List.length l) (fun e => nth e l 0 * Qpower x (Z.of_nat e)))%Q.
Proof.
  unfold total. induction l as [|a l IH]; [reflexivity|]. cbn [from_low List.length seq map].
  change (qsum (nth 0 (a :: l) 0 * Qpower x (Z.of_nat 0) :: map (fun e => nth e (a :: l) 0 * Qpower x (Z.of_nat e)) (seq 1 (List.length l))))%Q
    with ((nth 0 (a :: l) 0 * Qpower x (Z.of_nat 0)) + qsum (map (fun e => nth e (a :: l) 0 * Qpower x (Z.of_nat e)) (seq 1 (List.length l))))%Q.
  rewrite <- seq_shift, map_map. rewrite IH. rewrite (qsum_ext (fun e => nth (S e) (a :: l) 0 * Qpower x (Z.of_nat (S e)))%Q (fun e => x * (nth e l 0 * Qpower x (Z.of_nat e)))%Q).
  - rewrite qsum_scale. cbn [nth Z.of_nat Qpower]. ring.
  - intros e _. cbn [nth]. rewrite Nat2Z.inj_succ. unfold Z.succ. assert (E : (Qpower x (Z.of_nat e + 1) == Qpower x (Z.of_nat e) * x)%Q).
    { destruct (Qeq_dec x 0) as [Zx|Zx]; [|rewrite Qpower_plus by auto; reflexivity].
      rewrite Zx. rewrite Qpower_0 by lia. ring. }
    rewrite E. ring.
Qed.
Lemma poly_at_ok n c x y : List.length c = n -> poly_at n c x = Ok y -> (y == polynomial c x)%Q.
Proof.
  intros L. unfold poly_at. destruct n as [|m].
  { destruct c; [|discriminate]. cbn. discriminate. }
  intros H. step H.
  assert (Pi : forall e, e <= m -> py_index c (Z.of_nat (S m) - 1 - Z.of_nat e) = Ok (nth e (rev c) 0%Q)).
  { intros e Le. unfold py_index. destruct (Z.ltb_spec (Z.of_nat (S m) - 1 - Z.of_nat e) 0); [lia|]. destruct (Z.ltb_spec (Z.of_nat (S m) - 1 - Z.of_nat e) 0); [lia|].
    replace (Z.to_nat (Z.of_nat (S m) - 1 - Z.of_nat e)) with (List.length c - S e) by lia.
    rewrite (nth_error_nth' c 0%Q) by lia. rewrite rev_nth by lia. reflexivity. }
  assert (G : forall es acc, (forall e, In e es -> e <= m) -> foldM (fun acc e => do ce <- py_index c (Z.of_nat (S m) - 1 - Z.of_nat e); Ok (acc + ce * Qpower x (Z.of_nat e)))%Q es acc = Ok y ->
    (y == acc + qsum (map (fun e => nth e (rev c) 0 * Qpower x (Z.of_nat e)) es))%Q).
  { clear H. induction es as [|e es IH]; intros acc B H; cbn [foldM] in H; [inversion H; subst; cbn; ring|]. rewrite Pi in H by (apply B; now left). cbn [rbind] in H.
    apply IH in H; [|intros; apply B; now right]. rewrite H. unfold qsum. cbn [map fold_right]. ring. }
  apply G in H; [|intros e I; apply in_seq in I; lia]. rewrite H. rewrite polynomial_low, low_powers. rewrite rev_length, L. unfold total. cbn [seq map]. replace (S m - 1) with m by lia.
  pose proof (Pi 0 ltac:(lia)) as P0. rewrite Z.sub_0_r in P0. rewrite P0 in E. inversion E; subst. unfold qsum. cbn [fold_right Z.of_nat Qpower]. ring.
Qed.
Lemma poly_at_total n c x : 0 < n -> List.length c = n -> exists y, poly_at n c x = Ok y.
Proof.
  intros P L. unfold poly_at.
  assert (Pi : forall e, e < n -> exists q, py_index c (Z.of_nat n - 1 - Z.of_nat e) = Ok q).
  { intros e Le. unfold py_index. destruct (Z.ltb_spec (Z.of_nat n - 1 - Z.of_nat e) 0); [lia|]. destruct (Z.ltb_spec (Z.of_nat n - 1 - Z.of_nat e) 0); [lia|].
    rewrite (nth_error_nth' c 0%Q) by lia. eauto. }
  destruct (Pi 0 P) as (q & Eq). rewrite Z.sub_0_r in Eq. rewrite Eq. cbn [rbind].
  assert (G : forall es acc, (forall e, In e es -> e < n) -> exists y, foldM (fun acc e => do ce <- py_index c (Z.of_nat n - 1 - Z.of_nat e); Ok (acc + ce * Qpower x (Z.of_nat e)))%Q es acc = Ok y).
  { induction es as [|e es IH]; intros acc B; cbn [foldM]; [eauto|]. destruct (Pi e) as (v & ->); [apply B; now left|]. cbn [rbind]. apply IH. intros; apply B; now right. }
  apply G. intros e I. apply in_seq in I. lia.
Qed.

(** ** The loops over the index sets *)

Lemma mapM_each {X} (f : X -> res constr) l cs P : mapM f l = Ok cs -> (Forall P cs <-> forall i, In i l -> forall c, f i = Ok c -> P c).
Proof.
  intros H. apply mapM_Ok in H. induction H as [|i c l cs E F IH].
  - split; [intros _ i []|constructor].
  - split.
    + intros G. inversion_clear G as [|? ? Gc Gs]. intros j [<-|I] c' Ec; [congruence|]. apply (proj1 IH Gs j I); auto.
    + intros G. constructor; [apply (G i (or_introl eq_refl)); auto|]. apply IH. intros j I. apply G. now right.
Qed.
Lemma mapM_some {X Y} (f : X -> res Y) l ys : mapM f l = Ok ys -> forall i, In i l -> exists y, f i = Ok y.
Proof. intros H. apply mapM_Ok in H. induction H as [|i c l cs E F IH]; intros j I; [destruct I|]. destruct I as [<-|I]; eauto. Qed.

Section Over.
Variables (n k p t : nat).
Lemma over2_each f cs P : over2 n k f = Ok cs -> (Forall P cs <-> forall i j, i < n -> j < k -> forall c, f i j = Ok c -> P c).
Proof.
  intros H. rewrite (mapM_each _ _ _ P H). split.
  - intros G i j Li Lj. apply (G (i, j)). apply in_prod; apply in_seq; lia.
  - intros G [i j] I. apply in_prod_iff in I as [I J]. apply in_seq in I, J. cbn [fst snd]. apply G; lia.
Qed.
Lemma over3_each f cs P : over3 n k t f = Ok cs -> (Forall P cs <-> forall i j l, i < n -> j < k -> l < t -> forall c, f i j l = Ok c -> P c).
Proof.
  intros H. rewrite (mapM_each _ _ _ P H). split.
  - intros G i j l Li Lj Ll. apply (G (i, j, l)). apply in_prod; [apply in_prod|]; apply in_seq; lia.
  - intros G [[i j] l] I. apply in_prod_iff in I as [I L]. apply in_prod_iff in I as [I J]. apply in_seq in I, J, L. cbn [fst snd]. apply G; lia.
Qed.
Lemma over4_each f cs P : over4 n k p t f = Ok cs -> (Forall P cs <-> forall i j h l, i < n -> j < k -> h < p -> l < t -> forall c, f i j h l = Ok c -> P c).
Proof.
  intros H. rewrite (mapM_each _ _ _ P H). split.
  - intros G i j h l Li Lj Lh Ll. apply (G (i, j, h, l)). apply in_prod; [apply in_prod; [apply in_prod|]|]; apply in_seq; lia.
  - intros G [[[i j] h] l] I. apply in_prod_iff in I as [I L]. apply in_prod_iff in I as [I K]. apply in_prod_iff in I as [I J]. apply in_seq in I, J, K, L. cbn [fst snd]. apply G; lia.
Qed.
Lemma over2_some f cs : over2 n k f = Ok cs -> forall i j, i < n -> j < k -> exists c, f i j = Ok c.
Proof. intros H i j Li Lj. apply (mapM_some _ _ _ H (i, j)). apply in_prod; apply in_seq; lia. Qed.
Lemma over3_some f cs : over3 n k t f = Ok cs -> forall i j l, i < n -> j < k -> l < t -> exists c, f i j l = Ok c.
Proof. intros H i j l Li Lj Ll. apply (mapM_some _ _ _ H (i, j, l)). apply in_prod; [apply in_prod|]; apply in_seq; lia. Qed.
Lemma over4_some f cs : over4 n k p t f = Ok cs -> forall i j h l, i < n -> j < k -> h < p -> l < t -> exists c, f i j h l = Ok c.
Proof. intros H i j h l Li Lj Lh Ll. apply (mapM_some _ _ _ H (i, j, h, l)). apply in_prod; [apply in_prod; [apply in_prod|]|]; apply in_seq; lia. Qed.
Lemma over2_total f : (forall i j, i < n -> j < k -> exists c, f i j = Ok c) -> exists cs, over2 n k f = Ok cs.
Proof. intros H. apply mapM_total. intros [i j] I. apply in_prod_iff in I as [I J]. apply in_seq in I, J. cbn [fst snd]. apply H; lia. Qed.
Lemma over3_total f : (forall i j l, i < n -> j < k -> l < t -> exists c, f i j l = Ok c) -> exists cs, over3 n k t f = Ok cs.
Proof. intros H. apply mapM_total. intros [[i j] l] I. apply in_prod_iff in I as [I L]. apply in_prod_iff in I as [I J]. apply in_seq in I, J, L. cbn [fst snd]. apply H; lia. Qed.
Lemma over4_total f : (forall i j h l, i < n -> j < k -> h < p -> l < t -> exists c, f i j h l = Ok c) -> exists cs, over4 n k p t f = Ok cs.
Proof. intros H. apply mapM_total. intros [[[i j] h] l] I. apply in_prod_iff in I as [I L]. apply in_prod_iff in I as [I K]. apply in_prod_iff in I as [I J]. apply in_seq in I, J, K, L. cbn [fst snd]. apply H; lia. Qed.
End Over.

(** ** The rules, one by one *)

Section Rules.
Variable M : mpc.
Variable A : setup.
Variable s : var -> Q.

Lemma demand_ok peak col l n p : demand M peak col = Ok l -> at_ l n = Ok p -> n < no_bus M -> p = nth n (match peak with [] => col | _ => peak end) 0%Q.
Proof.
  unfold demand. intros H. step H. inversion H; subst. clear H. intros G L. destruct peak as [|q peak]; [|symmetry; now apply (at_val _ _ _ 0%Q) in G].
  apply mapM_Ok in E. apply at_nth in G.
  assert (K : forall i m l0, Forall2 (fun b a => at_ col b = Ok a) (seq i m) l0 -> forall n p, nth_error l0 n = Some p -> at_ col (i + n) = Ok p).
  { clear. intros i m. revert i. induction m as [|m IH]; intros i l0 F n p Hn; cbn [seq] in F; inversion F as [|? ? ? ? Ha Fa]; subst; [destruct n; discriminate|].
    destruct n as [|n]; cbn in Hn; [inversion Hn; subst; now rewrite Nat.add_0_r|]. rewrite <- Nat.add_succ_comm. eapply IH; eauto. }
  specialize (K _ _ _ E _ _ G). cbn [Nat.add] in K. symmetry. now apply (at_val _ _ _ 0%Q) in K.
Qed.

Lemma gen_off_spec g off : gen_off M A g = Ok off -> (off = false <-> runs M A g).
Proof.
  unfold gen_off, runs. destruct (gen_status A).
  - intros H. step H. apply (at_val _ _ _ 0%Z) in E. inversion H; subst off. rewrite E. destruct (Z.eqb_spec a 0); split; try congruence. intros F. now specialize (F eq_refl).
  - intros H. inversion H. split; [discriminate|reflexivity].
Qed.
Lemma gen_max_spec g k t c : gen_max M A g k t = Ok c -> (sat s c <->
  (~ runs M A g -> (s (Pgen g k t) == 0)%Q) /\
  (runs M A g -> exists n, first_at (nth g (gen_bus M) 0%Z) (bus_i M) n /\ (s (Pgen g k t) <= nth n (mult A) 0 * nth g (pmax M) 0)%Q)).
Proof.
  unfold gen_max. intros H. step H. apply gen_off_spec in E. destruct a.
  - assert (N : ~ runs M A g) by (intros R; apply E in R; discriminate). inversion H; subst c. cbn [sat eval]. split; [intros S; split; [auto|contradiction]|intros [S _]; auto].
  - assert (R : runs M A g) by now apply E. step H. inversion H; subst c. cbn [sat eval]. apply (at_val _ _ _ 0%Z) in E0. apply (at_val _ _ _ 0%Q) in E2, E3. rewrite E0, E3.
    destruct (positions a (bus_i M)) as [|n r] eqn:Ep; [discriminate|]. apply positions_first in Ep. cbn in E1. inversion E1; subst a0. split.
    + intros S. split; [contradiction|]. intros _. exists n. rewrite E2. auto.
    + intros [_ S]. destruct (S R) as (m & Fm & Lm). rewrite (first_at_unique _ _ _ _ Fm Ep), E2 in Lm. auto.
Qed.
Lemma gen_min_spec g k t c : gen_min M A g k t = Ok c -> (sat s c <->
  (~ runs M A g -> (s (Pgen g k t) == 0)%Q) /\ (runs M A g -> (nth g (pmin M) 0 <= s (Pgen g k t))%Q)).
Proof.
  unfold gen_min. intros H. step H. apply gen_off_spec in E. destruct a.
  - assert (N : ~ runs M A g) by (intros R; apply E in R; discriminate). inversion H; subst c. cbn [sat eval]. split; [intros S; split; [auto|contradiction]|intros [S _]; auto].
  - assert (R : runs M A g) by now apply E. step H. inversion H; subst c. cbn [sat eval]. apply (at_val _ _ _ 0%Q) in E0. rewrite E0. split; [intros S; split; [contradiction|auto]|intros [_ S]; auto].
Qed.

Lemma gen_cost_spec pieces : gen_cost M = Ok pieces -> forall g, g < no_gen M -> exists ps, nth_error pieces g = Some ps /\
  exists hi, at_ (pmax M) g = Ok hi /\ if Qle_bool hi 0 then ps = [(0, 0); (0, 0); (0, 0)]%Q else gen_pieces M g = Ok ps.
Proof.
  unfold gen_cost. destruct (gc_model M) as [|mo ms] eqn:Em; [discriminate|]. rewrite <- Em. clear Em. intros H. step H. inversion H; subst. clear H. revert E.
  set (F := fun (st : bool * list (list (Q * Q))) (g : nat) => _).
  assert (G : forall n i st r, List.length (snd st) = i -> foldM F (seq i n) st = Ok r ->
    (forall g, g < i -> nth_error (snd r) g = nth_error (snd st) g) /\ forall g, i <= g < i + n -> exists ps, nth_error (snd r) g = Some ps /\ exists hi, at_ (pmax M) g = Ok hi /\ if Qle_bool hi 0 then ps = [(0, 0); (0, 0); (0, 0)]%Q else gen_pieces M g = Ok ps).
  { induction n as [|n IH]; intros i st r L H; cbn [seq foldM] in H; [inversion H; subst; split; auto; intros; lia|].
    destruct (F st i) as [st'|] eqn:Ef; cbn [rbind] in H; [|discriminate].
    assert (S : exists ps, st' = (true, snd st ++ [ps]) /\ exists hi, at_ (pmax M) i = Ok hi /\ if Qle_bool hi 0 then ps = [(0, 0); (0, 0); (0, 0)]%Q else gen_pieces M i = Ok ps).
    { unfold F in Ef. destruct (at_ (gc_model M) i) as [mo'|]; cbn [rbind] in Ef; [|discriminate]. destruct (Z.eqb mo' 1); [discriminate|].
      destruct (at_ (pmax M) i) as [hi|]; cbn [rbind] in Ef; [|discriminate]. destruct (Qle_bool hi 0) eqn:Eq.
      - destruct (fst st); [|discriminate]. inversion Ef. eexists. split; [reflexivity|]. eexists. split; [reflexivity|]. rewrite Eq. reflexivity.
      - destruct (gen_pieces M i) as [ps|]; cbn [rbind] in Ef; [|discriminate]. inversion Ef. eexists. split; [reflexivity|]. eexists. split; [reflexivity|]. rewrite Eq. reflexivity. }
    destruct S as (ps & -> & hi & Eh & Hp). apply IH in H; [|cbn [snd]; rewrite app_length; cbn; lia]. destruct H as [H1 H2]. cbn [snd] in H1. split.
    - intros g Lg. rewrite H1 by lia. rewrite nth_error_app1 by lia. reflexivity.
    - intros g Lg. destruct (Nat.eq_dec g i) as [->|Ne]; [|apply H2; lia]. exists ps. split; [|eauto]. rewrite H1 by lia. rewrite nth_error_app2 by lia. rewrite L, Nat.sub_diag. reflexivity. }
  intros E g Lg. apply G in E as [_ E]; [|reflexivity]. apply E. lia.
Qed.

Lemma pw_cost_spec pieces g k p t c : gen_cost M = Ok pieces -> g < no_gen M -> p < 3 -> List.length (nth g (gc_cost M) []) = nth g (gc_ncost M) 0 ->
  pw_cost pieces g k p t = Ok c -> (sat s c <->
  if Qle_bool (nth g (pmax M) 0%Q) 0 then (0 <= s (Cgen g k t))%Q else
  (cost_at M g (breakpoint M g p) * (breakpoint M g (S p) - s (Pgen g k t)) + cost_at M g (breakpoint M g (S p)) * (s (Pgen g k t) - breakpoint M g p)
       <= s (Cgen g k t) * (nth g (pmax M) 0 / 3))%Q).
Proof.
  intros Hc Lg Lp Ln H. destruct (gen_cost_spec _ Hc g Lg) as (ps & En & hi & Eh & Hp). unfold pw_cost in H. unfold at_ at 1 in H. rewrite En in H. cbn [rbind] in H. step H. inversion H; subst c. clear H.
  cbn [sat eval]. pose proof (at_val _ _ _ 0%Q Eh) as Vh. rewrite Vh. destruct (Qle_bool hi 0) eqn:Eq.
  { subst ps. assert (a = (0, 0)%Q) as -> by (destruct p as [|[|[|p]]]; cbn in E; [inversion E; reflexivity..|lia]). cbn [fst snd]. split; intros; lra. }
  assert (Ph : (0 < hi)%Q) by (apply Qnot_le_lt; intros F; apply Qle_bool_iff in F; congruence).
  unfold gen_pieces in Hp. rewrite Eh in Hp. destruct (at_ (pmin M) g) as [lo|] eqn:E1; cbn [rbind] in Hp; [|discriminate].
  destruct (at_ (gc_ncost M) g) as [n|] eqn:E2; cbn [rbind] in Hp; [|discriminate]. destruct (at_ (gc_cost M) g) as [cf|] eqn:E3; cbn [rbind] in Hp; [|discriminate].
  apply (at_val _ _ _ 0%Q) in E1. apply (at_val _ _ _ 0) in E2. apply (at_val _ _ _ (@nil Q)) in E3. unfold cost_at, breakpoint. rewrite Vh, E1, E3. rewrite E2, E3 in Ln.
  cbn [mapM] in Hp.
  destruct (poly_at n cf lo) as [y0|] eqn:P0; cbn [rbind] in Hp; [|discriminate].
  destruct (poly_at n cf (lo + hi / 3)) as [y1|] eqn:P1; cbn [rbind] in Hp; [|discriminate].
  destruct (poly_at n cf (lo + hi / 3 + hi / 3)) as [y2|] eqn:P2; cbn [rbind] in Hp; [|discriminate].
  destruct (poly_at n cf (lo + hi / 3 + hi / 3 + hi / 3)) as [y3|] eqn:P3; cbn [rbind] in Hp; [|discriminate].
  apply poly_at_ok in P0, P1, P2, P3; auto. inversion Hp; subst ps. clear Hp.
  assert (Pe : forall x y, (x == y)%Q -> (polynomial cf x == polynomial cf y)%Q).
  { intros x y Exy. rewrite !polynomial_low. induction (rev cf) as [|a' l IH]; cbn [from_low]; [reflexivity|]. rewrite IH, Exy. reflexivity. }
  assert (Sec : forall x0 y0 x1 y1 X C, (0 < x1 - x0)%Q -> (fst (secant x0 y0 x1 y1) * X + snd (secant x0 y0 x1 y1) <= C <-> y0 * (x1 - X) + y1 * (X - x0) <= C * (x1 - x0))%Q).
  { clear. intros x0 y0 x1 y1 X C D. unfold secant. cbn [fst snd].
    assert (Ek : ((y1 - y0) / (x1 - x0) * (x1 - x0) == y1 - y0)%Q) by (field; lra). set (k := ((y1 - y0) / (x1 - x0))%Q) in *.
    assert (E : ((k * X + (y1 - x1 * k)) * (x1 - x0) == y0 * (x1 - X) + y1 * (X - x0))%Q).
    { transitivity ((k * (x1 - x0)) * (X - x1) + y1 * (x1 - x0))%Q; [ring|]. rewrite Ek. ring. }
    rewrite <- E. split; intros H; [apply Qmult_le_compat_r; [auto|lra]|]. apply Qmult_le_r in H; auto. }
  set (d := (hi / 3)%Q) in *. assert (Pd : (0 < d)%Q) by (unfold d; apply Qlt_shift_div_l; lra).
  destruct p as [|[|[|p]]]; cbn in E; [inversion E; subst a; clear E..|lia]; rewrite Sec by lra.
  - rewrite P0, P1. change (inject_Z (Z.of_nat 0)) with 0%Q. change (inject_Z (Z.of_nat 1)) with 1%Q. rewrite (Pe (lo + 0 * d)%Q lo) by ring. rewrite (Pe (lo + 1 * d)%Q (lo + d)%Q) by ring.
    setoid_replace (lo + d - lo)%Q with d by ring. setoid_replace (lo + 1 * d)%Q with (lo + d)%Q by ring. setoid_replace (lo + 0 * d)%Q with lo by ring. reflexivity.
  - rewrite P1, P2. change (inject_Z (Z.of_nat 1)) with 1%Q. change (inject_Z (Z.of_nat 2)) with 2%Q. rewrite (Pe (lo + 1 * d)%Q (lo + d)%Q) by ring. rewrite (Pe (lo + 2 * d)%Q (lo + d + d)%Q) by ring.
    setoid_replace (lo + d + d - (lo + d))%Q with d by ring. setoid_replace (lo + 1 * d)%Q with (lo + d)%Q by ring. setoid_replace (lo + 2 * d)%Q with (lo + d + d)%Q by ring. reflexivity.
  - rewrite P2, P3. change (inject_Z (Z.of_nat 2)) with 2%Q. change (inject_Z (Z.of_nat 3)) with 3%Q. rewrite (Pe (lo + 2 * d)%Q (lo + d + d)%Q) by ring. rewrite (Pe (lo + 3 * d)%Q (lo + d + d + d)%Q) by ring.
    setoid_replace (lo + d + d + d - (lo + d + d))%Q with d by ring. setoid_replace (lo + 2 * d)%Q with (lo + d + d)%Q by ring. setoid_replace (lo + 3 * d)%Q with (lo + d + d + d)%Q by ring. reflexivity.
Qed.

Lemma branch_out_spec b k out : branch_out M A b k = Ok out -> (out = false <-> in_service M A b k).
Proof.
  unfold branch_out, in_service. intros H. step H. inversion H; subst out. clear H. apply (at_val _ _ _ (@nil Z)) in E0. apply (at_val _ _ _ 0%Z) in E1. rewrite E0, E1. clear E0 E1.
  destruct (line_status A).
  - step E. inversion E; subst a. apply (at_val _ _ _ 0%Z) in E0. rewrite E0. clear E0. destruct (Z.eqb_spec a1 0), (Z.eqb_spec a2 0); cbn; split; try congruence; intuition congruence.
  - inversion E; subst a. destruct (Z.eqb_spec a1 0); cbn; split; try congruence; intuition congruence.
Qed.
Lemma dcpf_spec b k t c : dcpf M A b k t = Ok c -> (sat s c <-> (in_service M A b k -> exists f n, first_at (nth b (f_bus M) 0%Z) (bus_i M) f /\ first_at (nth b (t_bus M) 0%Z) (bus_i M) n /\
    (s (Pbra b k t) * nth b (br_x M) 0 == m_base M * (s (Ang f k t) - s (Ang n k t)))%Q)).
Proof.
  unfold dcpf. intros H. step H. destruct (Qeq_bool (m_base M) 0) eqn:Eb; [discriminate|]. step H. apply branch_out_spec in E4.
  apply (at_val _ _ _ 0%Q) in E. apply (at_val _ _ _ 0%Z) in E0, E2. apply index_of_ok in E1, E3. rewrite E, E0, E2. destruct a4.
  - inversion H; subst c. cbn [sat]. split; [|auto]. intros _ I. apply E4 in I. discriminate.
  - assert (I : in_service M A b k) by now apply E4. destruct (Qeq_bool (a / m_base M) 0) eqn:Ex; [discriminate|]. inversion H; subst c. cbn [sat eval].
    assert (Nb : ~ (m_base M == 0)%Q) by (intros F; apply Qeq_bool_iff in F; congruence). assert (Na : ~ (a / m_base M == 0)%Q) by (intros F; apply Qeq_bool_iff in F; congruence).
    assert (Na' : ~ (a == 0)%Q) by (intros F; apply Na; rewrite F; field; auto).
    assert (Q : forall P d, (P == / (a / m_base M) * d <-> P * a == m_base M * d)%Q).
    { intros P d. split; intros G; [rewrite G; field; auto|]. rewrite <- (Qmult_inj_r _ _ a) by auto. rewrite G. field. auto. }
    rewrite Q. split.
    + intros G _. exists a1, a3. auto.
    + intros G. destruct (G I) as (f & n & Ff & Fn & G'). now rewrite (first_at_unique _ _ _ _ E1 Ff), (first_at_unique _ _ _ _ E3 Fn).
Qed.
Lemma slack_spec k t c : slack M k t = Ok c -> (sat s c <-> exists b, reference M b /\ (s (Ang b k t) == 0)%Q).
Proof.
  unfold slack. intros H. step H. destruct a as [b|]; [|discriminate]. inversion H; subst c. clear H. cbn [sat eval].
  assert (G : forall n r, foldM (fun acc b => do ty <- at_ (bus_type M) b; Ok (if Z.eqb ty 3 then Some b else acc)) (seq 0 n) None = Ok r ->
    match r with Some b => b < n /\ nth b (bus_type M) 0%Z = 3%Z /\ forall j, b < j < n -> nth j (bus_type M) 0%Z <> 3%Z | None => True end).
  { clear. induction n as [|n IH]; intros r H; [cbn in H; inversion H; exact I|]. rewrite seq_S in H. cbn [Nat.add] in H.
    assert (Fa : forall l l' a0, foldM (fun acc b => do ty <- at_ (bus_type M) b; Ok (if Z.eqb ty 3 then Some b else acc)) (l ++ l') a0 =
      do a1 <- foldM (fun acc b => do ty <- at_ (bus_type M) b; Ok (if Z.eqb ty 3 then Some b else acc)) l a0; foldM (fun acc b => do ty <- at_ (bus_type M) b; Ok (if Z.eqb ty 3 then Some b else acc)) l' a1).
    { induction l as [|x l IHl]; intros l' a0; [reflexivity|]. cbn [app foldM]. destruct (at_ (bus_type M) x); cbn [rbind]; auto. }
    rewrite Fa in H. destruct (foldM _ (seq 0 n) None) as [r0|]; cbn [rbind] in H; [|discriminate]. specialize (IH _ eq_refl). cbn [foldM] in H.
    destruct (at_ (bus_type M) n) as [ty|] eqn:Et; cbn [rbind] in H; [|discriminate]. apply (at_val _ _ _ 0%Z) in Et. destruct (Z.eqb_spec ty 3) as [E3|N3].
    - inversion H; subst r. sp; [lia|congruence|intros; lia].
    - inversion H; subst r. destruct r0 as [b|]; [|exact I]. destruct IH as (A & B & C). sp; [lia|auto|]. intros j Lj. destruct (Nat.eq_dec j n) as [->|]; [congruence|]. apply C. lia. }
  apply G in E. cbn in E. split; [intros S; exists b; split; auto|]. intros (b' & (L' & T' & U') & S'). destruct E as (L & T & U).
  assert (b' = b) as ->; [|auto]. destruct (Nat.lt_trichotomy b' b) as [Lt|[Lt|Lt]]; auto; exfalso; [apply (U' b)|apply (U b')]; auto.
Qed.
Lemma capacity_spec b k t c : capacity M A b k t = Ok c -> (sat s c <-> (~ in_service M A b k -> (s (Pbra b k t) == 0)%Q) /\
  (in_service M A b k -> ~ (nth b (rate_a M) 0 == 0)%Q -> (s (Pbra b k t) <= nth b (rate_a M) 0 + nth b (prev A) 0 + s (ICbra b t))%Q)).
Proof.
  unfold capacity. intros H. step H. apply branch_out_spec in E. destruct a.
  - assert (N : ~ in_service M A b k) by (intros R; apply E in R; discriminate). inversion H; subst c. cbn [sat eval]. split; [intros S; split; [auto|contradiction]|intros [S _]; auto].
  - assert (R : in_service M A b k) by now apply E. step H. apply (at_val _ _ _ 0%Q) in E0. rewrite E0. destruct (Qeq_bool a 0) eqn:Eq.
    + apply Qeq_bool_iff in Eq. inversion H; subst c. cbn [sat]. split; [intros _; split; [contradiction|intros; contradiction]|auto].
    + assert (Nq : ~ (a == 0)%Q) by (intros F; apply Qeq_bool_iff in F; congruence). step H. inversion H; subst c. cbn [sat eval]. apply (at_val _ _ _ 0%Q) in E1. rewrite E1. split.
      * intros S. split; [contradiction|]. intros _ _. lra.
      * intros [_ S]. specialize (S R Nq). lra.
Qed.
Lemma capacity_n_spec b k t c : capacity_n M A b k t = Ok c -> (sat s c <-> (~ in_service M A b k -> (s (Pbra b k t) == 0)%Q) /\
  (in_service M A b k -> ~ (nth b (rate_a M) 0 == 0)%Q -> (- s (Pbra b k t) <= nth b (rate_a M) 0 + s (ICbra b t))%Q)).
Proof.
  unfold capacity_n. intros H. step H. apply branch_out_spec in E. destruct a.
  - assert (N : ~ in_service M A b k) by (intros R; apply E in R; discriminate). inversion H; subst c. cbn [sat eval]. split; [intros S; split; [auto|contradiction]|intros [S _]; auto].
  - assert (R : in_service M A b k) by now apply E. step H. apply (at_val _ _ _ 0%Q) in E0. rewrite E0. destruct (Qeq_bool a 0) eqn:Eq.
    + apply Qeq_bool_iff in Eq. inversion H; subst c. cbn [sat]. split; [intros _; split; [contradiction|intros; contradiction]|auto].
    + assert (Nq : ~ (a == 0)%Q) by (intros F; apply Qeq_bool_iff in F; congruence). inversion H; subst c. cbn [sat eval]. split.
      * intros S. split; [contradiction|]. intros _ _. lra.
      * intros [_ S]. specialize (S R Nq). lra.
Qed.

Lemma total_where_shorter n m p f : n <= m -> (forall i, n <= i < m -> p i = false) -> total_where m p f = total_where n p f.
Proof.
  intros L H. unfold total_where. replace m with (n + (m - n)) by lia. rewrite seq_app, filter_app. cbn [Nat.add].
  replace (filter p (seq n (m - n))) with (@nil nat); [now rewrite List.app_nil_r|]. symmetry. rewrite (filter_ext_in _ (fun _ => false)); [now induction (seq n (m - n))|].
  intros i I. apply in_seq in I. apply H. lia.
Qed.
Lemma balance_spec pd qd n k t c : demand M (peak_p A) (bus_pd M) = Ok pd -> demand M (peak_q A) (bus_qd M) = Ok qd -> n < no_bus M -> no_branch M <= List.length (t_bus M) ->
  balance M A pd qd n k t = Ok c -> (sat s c <->
  (generated M s (nth n (bus_i M) 0%Z) k t + entering M s (nth n (bus_i M) 0%Z) k t + s (Plc n k t) == leaving M s (nth n (bus_i M) 0%Z) k t + demand_of M A n)%Q).
Proof.
  intros Hp Hq L Lt H. unfold balance in H. step H. inversion H; subst c. clear H. destruct (existsb _ _) eqn:Ex in E0; [discriminate|]. clear E0.
  apply (at_val _ _ _ 0%Z) in E. rewrite E. pose proof (demand_ok _ _ _ _ _ Hp E2 L) as Vp. pose proof (demand_ok _ _ _ _ _ Hq E3 L) as Vq. apply (at_val _ _ _ 0%Q) in E1, E4.
  unfold demand_of, pd_of, qd_of. rewrite <- Vp, <- Vq, E1, E4. cbn [sat eval]. rewrite !eval_esum, !map_map. cbn [eval]. rewrite !positions_spec.
  assert (Et : total_where (List.length (t_bus M)) (fun b => Z.eqb (nth b (t_bus M) 0%Z) a) (fun b => s (Pbra b k t)) = entering M s a k t).
  { unfold entering. apply total_where_shorter; auto. intros i Li. destruct (Z.eqb_spec (nth i (t_bus M) 0%Z) a) as [Ea|]; auto. exfalso.
    rewrite positions_spec in Ex. assert (X : existsb (fun b => no_branch M <=? b) (filter (fun j => Z.eqb (nth j (t_bus M) 0%Z) a) (seq 0 (List.length (t_bus M)))) = true); [|congruence].
    apply existsb_exists. exists i. split; [apply filter_In; split; [apply in_seq; lia|now apply Z.eqb_eq]|apply Nat.leb_le; lia]. }
  unfold total_where in Et. rewrite Et. unfold leaving, generated, total_where. fold (no_gen M) (no_branch M).
  split; intros G; lra.
Qed.
Lemma curtail_spec pd n k t c : demand M (peak_p A) (bus_pd M) = Ok pd -> n < no_bus M -> curtail A pd n k t = Ok c -> (sat s c <-> (s (Plc n k t) <= nth n (mult A) 0 * Qabs (pd_of M A n))%Q).
Proof.
  intros Hp L H. unfold curtail in H. step H. inversion H; subst c. pose proof (demand_ok _ _ _ _ _ Hp E0 L) as Vp. apply (at_val _ _ _ 0%Q) in E. unfold pd_of. rewrite <- Vp, E. reflexivity.
Qed.
End Rules.

(** ** The whole model *)

Lemma in_service_dec M A b k : {in_service M A b k} + {~ in_service M A b k}.
Proof.
  unfold in_service. destruct (Z.eq_dec (nth b (nth k (cont A) []) 0%Z) 0) as [E|N]; [right; tauto|]. destruct (line_status A); [|left; split; [discriminate|auto]].
  destruct (Z.eq_dec (nth b (br_status M) 0%Z) 0) as [E|N']; [right; intros [F _]; now apply F|left; auto].
Qed.
Lemma runs_dec M A g : {runs M A g} + {~ runs M A g}.
Proof. unfold runs. destruct (gen_status A); [|left; discriminate]. destruct (Z.eq_dec (nth g (gen_on M) 0%Z) 0) as [E|N]; [right; intros F; now apply F|left; auto]. Qed.

Theorem model_is_plan M A two_pi s cs : constraints M A = Ok cs -> costs_match M -> (feasible M A two_pi s <-> plan M A s two_pi).
Proof.
  intros H CM. assert (F : feasible M A two_pi s <-> in_domain M A two_pi s /\ Forall (sat s) cs).
  { unfold feasible. split; [intros (D & cs' & E & F)|intros (D & F); split; eauto]. rewrite H in E. inversion E; subst. auto. }
  rewrite F. clear F. unfold constraints in H. step H. inversion H; subst cs. clear H. rewrite !Forall_app.
  rename a0 into pieces, a1 into pd, a2 into qd.
  rewrite (over3_each _ _ _ _ _ (sat s) E3), (over3_each _ _ _ _ _ (sat s) E4), (over4_each _ _ _ _ _ _ (sat s) E5), (over3_each _ _ _ _ _ (sat s) E6), (over2_each _ _ _ _ (sat s) E7),
    (over3_each _ _ _ _ _ (sat s) E8), (over3_each _ _ _ _ _ (sat s) E9), (over3_each _ _ _ _ _ (sat s) E10), (over3_each _ _ _ _ _ (sat s) E11).
  assert (Lt : forall k t, k < List.length (cont A) -> t < no_time A -> no_branch M <= List.length (t_bus M)).
  { intros k t Lk Lt. destruct (no_branch M) as [|m] eqn:Em; [lia|]. destruct (over3_some _ _ _ _ _ E6 m k t ltac:(lia) Lk Lt) as (c & Ec). unfold dcpf in Ec. step Ec.
    destruct (Qeq_bool _ _); [discriminate|]. step Ec. assert (X : exists q, at_ (t_bus M) m = Ok q) by eauto. destruct X as (q & X). apply at_nth in X. apply nth_error_Some. congruence. }
  split.
  - intros (D & F1 & F2 & F3 & F4 & F5 & F6 & F7 & F8 & F9). destruct D as (D1 & D2 & D3). split; [exact D2|]. intros k t Lk Ltt. specialize (Lt k t Lk Ltt). constructor.
    + intros g Lg. apply D1; auto.
    + intros g Lg R. destruct (over3_some _ _ _ _ _ E3 g k t Lg Lk Ltt) as (c & Ec). destruct (over3_some _ _ _ _ _ E4 g k t Lg Lk Ltt) as (c' & Ec').
      pose proof (F1 g k t Lg Lk Ltt c Ec) as S. pose proof (F2 g k t Lg Lk Ltt c' Ec') as S'. apply (gen_max_spec M A s g k t c Ec) in S as [_ S]. apply (gen_min_spec M A s g k t c' Ec') in S' as [_ S']. split; auto.
    + intros g Lg R. destruct (over3_some _ _ _ _ _ E3 g k t Lg Lk Ltt) as (c & Ec). pose proof (F1 g k t Lg Lk Ltt c Ec) as S. apply (gen_max_spec M A s g k t c Ec) in S as [S _]. auto.
    + intros g Lg. apply D1; auto.
    + intros g i Lg Pg Li. destruct (over4_some _ _ _ _ _ _ E5 g k i t Lg Lk Li Ltt) as (c & Ec). pose proof (F3 g k i t Lg Lk Li Ltt c Ec) as S.
      apply (pw_cost_spec M s pieces g k i t c E0 Lg Li (CM g Lg) Ec) in S. destruct (Qle_bool _ _) eqn:Eq in S; [|auto]. apply Qle_bool_iff in Eq. lra.
    + intros b Lb I. destruct (over3_some _ _ _ _ _ E6 b k t Lb Lk Ltt) as (c & Ec). pose proof (F4 b k t Lb Lk Ltt c Ec) as S. apply (dcpf_spec M A s b k t c Ec) in S; auto.
    + intros b Lb I. destruct (over3_some _ _ _ _ _ E8 b k t Lb Lk Ltt) as (c & Ec). pose proof (F6 b k t Lb Lk Ltt c Ec) as S. apply (capacity_spec M A s b k t c Ec) in S as [S _]; auto.
    + intros b Lb I N. destruct (over3_some _ _ _ _ _ E8 b k t Lb Lk Ltt) as (c & Ec). destruct (over3_some _ _ _ _ _ E9 b k t Lb Lk Ltt) as (c' & Ec').
      pose proof (F6 b k t Lb Lk Ltt c Ec) as S. apply (capacity_spec M A s b k t c Ec) in S as [_ S]. pose proof (F7 b k t Lb Lk Ltt c' Ec') as S'. apply (capacity_n_spec M A s b k t c' Ec') in S' as [_ S']. auto.
    + destruct (over2_some _ _ _ _ E7 k t Lk Ltt) as (c & Ec). pose proof (F5 k t Lk Ltt c Ec) as S. now apply (slack_spec M s k t c Ec) in S.
    + intros n Ln. destruct (D3 n k t Ln Lk Ltt) as (X & Y & _). auto.
    + intros n Ln. destruct (over3_some _ _ _ _ _ E10 n k t Ln Lk Ltt) as (c & Ec). pose proof (F8 n k t Ln Lk Ltt c Ec) as S. now apply (balance_spec M A s pd qd n k t c E1 E2 Ln Lt Ec) in S.
    + intros n Ln. destruct (over3_some _ _ _ _ _ E11 n k t Ln Lk Ltt) as (c & Ec). pose proof (F9 n k t Ln Lk Ltt c Ec) as S. apply (curtail_spec M A s pd n k t c E1 Ln Ec) in S. destruct (D3 n k t Ln Lk Ltt) as (_ & _ & Z). auto.
  - intros (I & O). unfold in_domain. cbv zeta. sp.
    + intros g k t Lg Lk Ltt. destruct (O k t Lk Ltt) as [Oge Oon Oof Oco Ose Ofl Oou Ora Ore Oan Oba Osh]. auto.
    + exact I.
    + intros n k t Ln Lk Ltt. destruct (O k t Lk Ltt) as [Oge Oon Oof Oco Ose Ofl Oou Ora Ore Oan Oba Osh]. destruct (Oan n Ln), (Osh n Ln). auto.
    + intros g k t Lg Lk Ltt c Ec. destruct (O k t Lk Ltt) as [Oge Oon Oof Oco Ose Ofl Oou Ora Ore Oan Oba Osh]. apply (gen_max_spec M A s g k t c Ec). split; [auto|]. intros R. apply Oon; auto.
    + intros g k t Lg Lk Ltt c Ec. destruct (O k t Lk Ltt) as [Oge Oon Oof Oco Ose Ofl Oou Ora Ore Oan Oba Osh]. apply (gen_min_spec M A s g k t c Ec). split; [auto|]. intros R. apply Oon; auto.
    + intros g k p t Lg Lk Lp Ltt c Ec. destruct (O k t Lk Ltt) as [Oge Oon Oof Oco Ose Ofl Oou Ora Ore Oan Oba Osh]. apply (pw_cost_spec M s pieces g k p t c E0 Lg Lp (CM g Lg) Ec). destruct (Qle_bool _ _) eqn:Eq; [auto|].
      apply Ose; auto. apply Qnot_le_lt. intros F. apply Qle_bool_iff in F. congruence.
    + intros b k t Lb Lk Ltt c Ec. destruct (O k t Lk Ltt) as [Oge Oon Oof Oco Ose Ofl Oou Ora Ore Oan Oba Osh]. apply (dcpf_spec M A s b k t c Ec). auto.
    + intros k t Lk Ltt c Ec. destruct (O k t Lk Ltt) as [Oge Oon Oof Oco Ose Ofl Oou Ora Ore Oan Oba Osh]. now apply (slack_spec M s k t c Ec).
    + intros b k t Lb Lk Ltt c Ec. destruct (O k t Lk Ltt) as [Oge Oon Oof Oco Ose Ofl Oou Ora Ore Oan Oba Osh]. apply (capacity_spec M A s b k t c Ec). split; [auto|]. intros X Y. apply Ora; auto.
    + intros b k t Lb Lk Ltt c Ec. destruct (O k t Lk Ltt) as [Oge Oon Oof Oco Ose Ofl Oou Ora Ore Oan Oba Osh]. apply (capacity_n_spec M A s b k t c Ec). split; [auto|]. intros X Y. apply Ora; auto.
    + intros n k t Ln Lk Ltt c Ec. destruct (O k t Lk Ltt) as [Oge Oon Oof Oco Ose Ofl Oou Ora Ore Oan Oba Osh]. apply (balance_spec M A s pd qd n k t c E1 E2 Ln (Lt k t Lk Ltt) Ec). auto.
    + intros n k t Ln Lk Ltt c Ec. destruct (O k t Lk Ltt) as [Oge Oon Oof Oco Ose Ofl Oou Ora Ore Oan Oba Osh]. apply (curtail_spec M A s pd n k t c E1 Ln Ec). apply Osh; auto.
Qed.
