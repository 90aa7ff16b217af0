(** The energy tree is the one of the specification. *)
From Coq Require Import List Bool Arith ZArith QArith Lia.
From Verif Require Import Base Cases CasesSpec CasesProofs CasesClusters EnergyTree EnergyTreeSpec.
Import ListNotations.
Open Scope nat_scope.
Open Scope list_scope.

Local Ltac sp := repeat match goal with |- _ /\ _ => split end.

(** ** Loops and arrays *)

Lemma foldM_inv {A St} (f : St -> A -> res St) (I : nat -> St -> Prop) : forall l s0 a, I a s0 ->
  (forall i x s, nth_error l i = Some x -> I (a + i) s -> exists s', f s x = Ok s' /\ I (a + i + 1) s') ->
  exists s', foldM f l s0 = Ok s' /\ I (a + List.length l) s'.
Proof.
  induction l as [|x l IH]; intros s0 a H0 H; cbn [foldM List.length].
  - exists s0. rewrite Nat.add_0_r. auto.
  - destruct (H 0 x s0 eq_refl) as (s1 & E & H1); [now rewrite Nat.add_0_r|]. rewrite E. cbn [rbind].
    destruct (IH s1 (a + 1)) as (s' & E' & H').
    + now rewrite Nat.add_0_r in H1.
    + intros i y s Hy Hs. destruct (H (S i) y s Hy) as (s'' & E'' & H''); [replace (a + S i) with (a + 1 + i) by lia; auto|]. exists s''. split; auto. replace (a + 1 + i + 1) with (a + S i + 1) by lia. auto.
    + exists s'. split; auto. replace (a + S (List.length l)) with (a + 1 + List.length l) by lia. auto.
Qed.

Lemma seq_inv {St} (f : St -> nat -> res St) (I : nat -> St -> Prop) a n s0 : I a s0 ->
  (forall i s, a <= i < a + n -> I i s -> exists s', f s i = Ok s' /\ I (i + 1) s') ->
  exists s', foldM f (seq a n) s0 = Ok s' /\ I (a + n) s'.
Proof.
  intros H0 H. destruct (foldM_inv f I (seq a n) s0 a H0) as (s' & E & H').
  - intros i x s Hx Hs. assert (i < n) by (rewrite <- (seq_length n a); apply nth_error_Some; congruence). apply nth_error_nth with (d := 0) in Hx. rewrite seq_nth in Hx by auto. subst x. apply H; auto. lia.
  - exists s'. rewrite seq_length in H'. auto.
Qed.

Lemma range_inv {St} n (f : St -> nat -> res St) (I : nat -> St -> Prop) s0 : I 0 s0 ->
  (forall i s, i < n -> I i s -> exists s', f s i = Ok s' /\ I (i + 1) s') ->
  exists s', for_range n f s0 = Ok s' /\ I n s'.
Proof. intros H0 H. apply (seq_inv f I 0 n); auto. intros i s Hi. apply H. lia. Qed.

Lemma aset_ok {A} (l : list A) i v : i < List.length l -> aset l i v = Ok (put l i v).
Proof. intros H. unfold aset. apply Nat.ltb_lt in H. now rewrite H. Qed.

Lemma put_at {A} (l : list A) i v t : i < List.length l -> nth_error (put l i v) t = if i =? t then Some v else nth_error l t.
Proof. intros H. rewrite put_nth. apply Nat.ltb_lt in H. rewrite H. destruct (i =? t); auto. Qed.

Lemma write_range {A} (v : A) a n l : a + n <= List.length l ->
  exists l', foldM (fun b x => aset b x v) (seq a n) l = Ok l' /\ List.length l' = List.length l /\
    forall t, nth_error l' t = if (a <=? t) && (t <? a + n) then Some v else nth_error l t.
Proof.
  intros H. destruct (seq_inv (fun b x => aset b x v) (fun i l' => List.length l' = List.length l /\ forall t, nth_error l' t = if (a <=? t) && (t <? i) then Some v else nth_error l t) a n l) as (l' & E & L & G).
  - split; auto. intros t. destruct (Nat.leb_spec a t), (Nat.ltb_spec t a); cbn [andb]; auto. lia.
  - intros i l1 Hi [L1 G1]. rewrite aset_ok by lia. eexists. split; [reflexivity|]. rewrite put_length. split; auto. intros t. rewrite put_at, G1 by lia.
    destruct (Nat.eqb_spec i t), (Nat.leb_spec a t), (Nat.ltb_spec t i), (Nat.ltb_spec t (i + 1)); cbn [andb]; auto; lia.
  - eauto.
Qed.

(** ** Numbering *)

Section Tree.
Variable lens : list nat.
Hypothesis pos : Forall (fun n => 0 < n) lens.
Notation P := (depth lens).
Notation len := (len lens).
Notation width := (width lens).
Notation off := (off lens).
Notation node := (node lens).

Lemma len_pos k : k < P -> 0 < len k.
Proof. intros H. unfold len, depth in *. rewrite Forall_forall in pos. apply pos, nth_In, H. Qed.

Lemma at_len k : k < P -> at_ lens k = Ok (len k).
Proof. intros H. apply at_nth. now apply nth_error_nth'. Qed.

Lemma width_pos k : k <= P -> 0 < width k.
Proof. induction k as [|k IH]; intros H; cbn [EnergyTreeSpec.width]; [lia|]. pose proof (len_pos k). specialize (IH ltac:(lia)). nia. Qed.

Lemma off_le k k' : k <= k' -> off k <= off k'.
Proof. induction 1; cbn [EnergyTreeSpec.off]; lia. Qed.

Lemma off_pos k : 0 < k -> 0 < off k.
Proof. intros H. apply (off_le 1) in H. cbn in H. lia. Qed.

Lemma node_inj k j k' j' : j < width k -> j' < width k' -> node k j = node k' j' -> k = k' /\ j = j'.
Proof.
  unfold EnergyTreeSpec.node. intros H H' E. destruct (Nat.lt_trichotomy k k') as [L|[L|L]].
  - apply (off_le (S k)) in L. cbn [EnergyTreeSpec.off] in L. lia.
  - subst. lia.
  - apply (off_le (S k')) in L. cbn [EnergyTreeSpec.off] in L. lia.
Qed.

Lemma node_lt k j k' : k < k' -> j < width k -> node k j < off k'.
Proof. intros H J. apply (off_le (S k)) in H. cbn [EnergyTreeSpec.off] in H. unfold EnergyTreeSpec.node. lia. Qed.

Lemma node_surj n x : x < off n -> exists k j, k < n /\ j < width k /\ x = node k j.
Proof.
  induction n as [|n IH]; cbn [EnergyTreeSpec.off]; intros H; [lia|]. destruct (lt_dec x (off n)) as [L|L].
  - destruct (IH L) as (k & j & A & B & C). exists k, j. sp; auto.
  - exists n, (x - off n). unfold EnergyTreeSpec.node. sp; lia.
Qed.

Lemma child_lt k j c : j < width k -> c < len k -> j * len k + c < width (k + 1).
Proof. intros J C. rewrite Nat.add_1_r. cbn [EnergyTreeSpec.width]. nia. Qed.

Lemma child_div k j c : c < len k -> (j * len k + c) / len k = j /\ (j * len k + c) mod len k = c.
Proof. intros C. split; symmetry; [apply Nat.div_unique with (r := c)|apply Nat.mod_unique with (q := j)]; nia. Qed.

Lemma child_of k j : k < P -> j < width (k + 1) -> exists i c, i < width k /\ c < len k /\ j = i * len k + c /\ j / len k = i /\ j mod len k = c.
Proof.
  intros K J. pose proof (len_pos k K) as L. exists (j / len k), (j mod len k). rewrite Nat.add_1_r in J. cbn [EnergyTreeSpec.width] in J.
  pose proof (Nat.div_mod j (len k) ltac:(lia)). pose proof (Nat.mod_upper_bound j (len k) ltac:(lia)). sp; auto; [apply Nat.div_lt_upper_bound; lia|lia].
Qed.

Lemma node_child_0 k j : node (k + 1) j = off k + width k + j.
Proof. unfold EnergyTreeSpec.node. rewrite Nat.add_1_r. cbn [EnergyTreeSpec.off]. lia. Qed.

Lemma width_dvd k : k <= P -> width k * share lens k = width P.
Proof.
  intros H. assert (D : exists q, width P = q * width k).
  { induction H as [|n H IH]; [exists 1; lia|]. destruct IH as (q & E). exists (q * len n). cbn [EnergyTreeSpec.width]. rewrite E. lia. }
  destruct D as (q & E). unfold share. rewrite E, Nat.div_mul by (pose proof (width_pos k H); lia). lia.
Qed.

Lemma share_pos k : k <= P -> 0 < share lens k.
Proof. intros H. pose proof (width_dvd k H). pose proof (width_pos P ltac:(lia)). destruct (share lens k); lia. Qed.

(** ** Arrays by node *)

(** The nodes before [m] have their values, the others the initial value. *)
Definition filled {A} (spec : nat -> nat -> A) (d : A) (m N : nat) (arr : list A) : Prop :=
  List.length arr = N /\ (forall k j, j < width k -> node k j < m -> nth_error arr (node k j) = Some (spec k j)) /\
  (forall t, m <= t -> t < N -> nth_error arr t = Some d).

Lemma filled_put {A} (spec : nat -> nat -> A) d N arr K J m v : J < width K -> m = node K J -> m < N -> v = spec K J -> filled spec d m N arr -> filled spec d (m + 1) N (put arr m v).
Proof.
  intros HJ -> HN -> (L & B & Ab). split; [now rewrite put_length|]. split.
  - intros k j Hj Hm. rewrite put_at by lia. destruct (Nat.eqb_spec (node K J) (node k j)) as [E|E].
    + apply node_inj in E as [-> ->]; auto.
    + apply B; auto. lia.
  - intros t Ht HtN. rewrite put_at by lia. destruct (Nat.eqb_spec (node K J) t); [lia|]. apply Ab; lia.
Qed.

Lemma filled_repeat {A} (spec : nat -> nat -> A) d N : filled spec d 0 N (repeat d N).
Proof.
  split; [apply repeat_length|]. split; [lia|]. intros t _ T. rewrite (nth_error_nth' _ d) by (now rewrite repeat_length). f_equal. apply repeat_spec with (n := N). apply nth_In. now rewrite repeat_length.
Qed.

(** ** Sizes *)

Variable vectors sumP : nat.
Definition sz_of : sizes := mkSizes P lens sumP (width P) vectors (off (P + 1)).

(** ** Connections *)

Definition nodes : nat := off (P + 1).

Lemma nodes_eq : nodes = off P + width P.
Proof. unfold nodes. now rewrite Nat.add_1_r. Qed.

Lemma node_nodes k j : k <= P -> j < width k -> node k j < nodes.
Proof. intros K J. unfold nodes. apply node_lt; auto. lia. Qed.

Definition after_inv (m : nat) (arr : list (nat * nat)) := filled (fun k j => if k <? P then after_spec lens k j else (0, 0)) (0, 0) m nodes arr.
Definition scen_inv (m : nat) (arr : list (nat * nat)) := filled (scen_spec lens) (0, 0) m nodes arr.

Lemma branch_spec K : 0 < K -> K < P -> forall x3 st, x3 < width K ->
  (let '(after, sc, aux2, aux3, x1) := st in after_inv (node K x3) after /\ scen_inv (node K x3) sc /\ aux2 + 1 = node (K + 1) (x3 * len K) /\ aux3 = x3 * share lens K /\ x1 + 1 = node K x3) ->
  exists st', connect_branch (width P) (width K) (len K) st x3 = Ok st' /\
  let '(after, sc, aux2, aux3, x1) := st' in after_inv (node K (x3 + 1)) after /\ scen_inv (node K (x3 + 1)) sc /\ aux2 + 1 = node (K + 1) ((x3 + 1) * len K) /\ aux3 = (x3 + 1) * share lens K /\ x1 + 1 = node K (x3 + 1).
Proof.
  intros K0 KP x3 [[[[after sc] aux2] aux3] x1] X (IA & IS & A2 & A3 & X1). unfold connect_branch. rewrite X1. pose proof (node_nodes K x3 ltac:(lia) X) as N.
  rewrite !aset_ok by (first [rewrite (proj1 IA); exact N|rewrite (proj1 IS); exact N]). cbn [rbind]. eexists. split; [reflexivity|]. cbn beta iota.
  assert (E1 : node K (x3 + 1) = node K x3 + 1) by (unfold EnergyTreeSpec.node; lia). rewrite E1. sp.
  - apply filled_put with (K := K) (J := x3); auto. replace (K <? P) with true by (symmetry; apply Nat.ltb_lt; auto). unfold after_spec. unfold EnergyTreeSpec.node in *. f_equal; lia.
  - apply filled_put with (K := K) (J := x3); auto. unfold scen_spec. fold (share lens K). f_equal; lia.
  - unfold EnergyTreeSpec.node in *. lia.
  - fold (share lens K). lia.
  - unfold EnergyTreeSpec.node in *. lia.
Qed.

Definition level_inv (k : nat) (st : list nat * list (nat * nat) * list (nat * nat) * nat * nat * nat) : Prop :=
  let '(lvl, after, sc, aux1, aux2, x1) := st in
  List.length lvl = P + 1 /\ (forall i, i <= k -> nth_error lvl i = Some (1 + off i)) /\
  after_inv (off (k + 1)) after /\ scen_inv (off (k + 1)) sc /\ aux1 = width k /\ aux2 + 1 = off (k + 2) /\ x1 + 1 = off (k + 1).

Lemma off_S k : off (k + 1) = off k + width k.
Proof. now rewrite Nat.add_1_r. Qed.
Lemma width_S k : width (k + 1) = width k * len k.
Proof. now rewrite Nat.add_1_r. Qed.
Lemma node_0 k : node k 0 = off k.
Proof. unfold EnergyTreeSpec.node. lia. Qed.
Lemma node_width k : node k (width k) = off (k + 1).
Proof. rewrite off_S. reflexivity. Qed.

Lemma connect_level_spec k st : k + 1 < P -> level_inv k st -> exists st', connect_level sz_of st k = Ok st' /\ level_inv (k + 1) st'.
Proof.
  intros K. destruct st as [[[[[lvl after] sc] aux1] aux2] x1]. intros (L & G & IA & IS & A1 & A2 & X1). unfold connect_level. cbn [sz_len sz_scenarios sz_of].
  rewrite (proj2 (at_nth _ _ _) (G k ltac:(lia))). cbn [rbind]. rewrite aset_ok by lia. cbn [rbind]. rewrite !at_len by lia. cbn [rbind]. subst aux1. rewrite <- width_S.
  destruct (range_inv (width (k + 1)) (connect_branch (width P) (width (k + 1)) (len (k + 1)))
    (fun x3 st => let '(after, sc, aux2, aux3, x1) := st in after_inv (node (k + 1) x3) after /\ scen_inv (node (k + 1) x3) sc /\ aux2 + 1 = node (k + 1 + 1) (x3 * len (k + 1)) /\ aux3 = x3 * share lens (k + 1) /\ x1 + 1 = node (k + 1) x3)
    (after, sc, aux2, 0, x1)) as (st' & E & H).
  - rewrite node_0. sp; auto. rewrite A2. unfold EnergyTreeSpec.node. replace (k + 2) with (k + 1 + 1) by lia. lia.
  - intros i s Hi Hs. destruct (branch_spec (k + 1) ltac:(lia) K i s Hi Hs) as (s' & E' & H'). exists s'. auto.
  - rewrite E. cbn [rbind]. destruct st' as [[[[after' sc'] aux2'] aux3'] x1']. destruct H as (IA' & IS' & A2' & A3' & X1'). eexists. split; [reflexivity|]. rewrite node_width in *. unfold level_inv. sp; auto.
    + now rewrite put_length.
    + intros i Hi. rewrite put_at by lia. destruct (Nat.eqb_spec (k + 1) i) as [<-|Ne]; [rewrite off_S; f_equal; lia|apply G; lia].
    + rewrite A2'. rewrite <- width_S, node_width. f_equal. lia.
Qed.

Lemma connect_tree_spec : 0 < P -> exists after sc lvl, connect_tree sz_of = Ok (after, sc, lvl) /\ after_inv nodes after /\ scen_inv nodes sc /\
  List.length lvl = P + 1 /\ (forall i, i <= P -> nth_error lvl i = Some (1 + off i)).
Proof.
  intros P0. unfold connect_tree. cbn [sz_len sz_nodes sz_scenarios sz_periods sz_of]. rewrite at_len by auto. cbn [rbind]. fold nodes.
  assert (N0 : 0 < nodes) by (unfold nodes; apply off_pos; lia). rewrite !aset_ok by (now rewrite repeat_length). cbn [rbind].
  destruct (range_inv (P - 1) (connect_level sz_of) level_inv (repeat 1 (P + 1), put (repeat (0, 0) nodes) 0 (1, len 0), put (repeat (0, 0) nodes) 0 (0, width P - 1), 1, len 0, 0)) as (st & E & H).
  - unfold level_inv. sp; auto.
    + apply repeat_length.
    + intros i Hi. replace i with 0 by lia. now rewrite Nat.add_1_r.
    + change (off (0 + 1)) with (0 + 1). apply filled_put with (K := 0) (J := 0); auto using filled_repeat. replace (0 <? P) with true by (symmetry; apply Nat.ltb_lt; auto). unfold after_spec, EnergyTreeSpec.node. cbn. f_equal. lia.
    + change (off (0 + 1)) with (0 + 1). apply filled_put with (K := 0) (J := 0); auto using filled_repeat. unfold scen_spec. pose proof (width_dvd 0 ltac:(lia)) as D. cbn [EnergyTreeSpec.width] in D. rewrite Nat.mul_1_l in D. rewrite D. f_equal; lia.
    + cbn. lia.
  - intros i s Hi Hs. destruct (connect_level_spec i s ltac:(lia) Hs) as (s' & E' & H'). eauto.
  - rewrite E. cbn [rbind]. destruct st as [[[[[lvl after] sc] aux1] aux2] x1]. destruct H as (L & G & IA & IS & A1 & A2 & X1). rewrite (proj2 (at_nth _ _ _) (G (P - 1) ltac:(lia))). cbn [rbind]. rewrite aset_ok by lia. cbn [rbind]. rewrite at_len by lia. cbn [rbind].
    subst aux1. replace (P - 1 + 1) with P in * by lia. assert (W : width (P - 1) * len (P - 1) = width P) by (rewrite <- width_S; f_equal; lia). rewrite W.
    destruct (range_inv (width P) (connect_leaf (width P) (width P)) (fun x3 st => let '(sc, aux3, x1) := st in scen_inv (node P x3) sc /\ aux3 = x3 * share lens P /\ x1 + 1 = node P x3) (sc, 0, x1)) as ([[sc' a3] x1'] & E' & IS' & _).
    + rewrite node_0. sp; auto.
    + intros i [[sc1 a1] y1] Hi (IS1 & A31 & Y1). unfold connect_leaf. rewrite Y1. rewrite aset_ok by (rewrite (proj1 IS1); apply node_nodes; auto). cbn [rbind]. eexists. split; [reflexivity|]. cbn beta iota.
      assert (E1 : node P (i + 1) = node P i + 1) by (unfold EnergyTreeSpec.node; lia). rewrite E1. fold (share lens P). sp.
      * apply filled_put with (K := P) (J := i); auto using node_nodes. unfold scen_spec. f_equal; lia.
      * lia.
      * lia.
    + rewrite E'. cbn [rbind fst]. eexists _, _, _. split; [reflexivity|]. rewrite node_width in IS'. sp; auto.
      * destruct IA as (LA & BA & AA). split; auto. split; [|unfold nodes; lia]. intros k j J N. destruct (Nat.ltb_spec k P) as [KP|KP].
        -- rewrite BA; auto using node_lt. replace (k <? P) with true by (symmetry; apply Nat.ltb_lt; auto). reflexivity.
        -- apply AA; auto. unfold EnergyTreeSpec.node. apply off_le in KP. lia.
      * now rewrite put_length.
      * intros i Hi. rewrite put_at by lia. destruct (Nat.eqb_spec P i) as [<-|Ne].
        -- f_equal. replace (off P) with (off (P - 1 + 1)) by (f_equal; lia). rewrite off_S. lia.
        -- apply G. lia.
Qed.

Lemma node_time_spec : exists nt, node_time sz_of = Ok nt /\ List.length nt = P + 1 /\ forall k, k <= P -> nth_error nt k = Some (off k, off (k + 1) - 1).
Proof.
  unfold node_time. cbn [sz_len sz_periods sz_of].
  match goal with |- context [for_range P ?f ?s] => destruct (range_inv P f (fun k st => let '(nt, x, y) := st in List.length nt = P + 1 /\ (forall i, i <= k -> nth_error nt i = Some (off i, off (i + 1) - 1)) /\ x + 1 = off (k + 1) /\ y = width k) s) as ([[nt x] y] & E & H) end.
  - sp; auto; [apply repeat_length|]. intros i Hi. replace i with 0 by lia. now rewrite Nat.add_1_r.
  - intros i [[nt x] y] Hi (L & G & X & Y). rewrite at_len by auto. cbn [rbind]. rewrite aset_ok by lia. cbn [rbind]. eexists. split; [reflexivity|]. cbn beta iota. subst y. rewrite <- width_S. sp; auto.
    + now rewrite put_length.
    + intros t Ht. rewrite put_at by lia. destruct (Nat.eqb_spec (i + 1) t) as [<-|Ne]; [rewrite (off_S (i + 1)); f_equal; f_equal; lia|apply G; lia].
    + rewrite (off_S (i + 1)). lia.
  - rewrite E. cbn [rbind fst]. exists nt. sp; auto; apply H.
Qed.

Lemma node_before_spec after : 0 < P -> after_inv nodes after -> exists before, node_before nodes (off P) after = Ok before /\ List.length before = nodes /\
  forall k j, k <= P -> j < width k -> nth_error before (node k j) = Some (parent_spec lens k j).
Proof.
  intros P0 IA. unfold node_before.
  match goal with |- context [for_range _ ?f ?s] => destruct (range_inv (off P) f (fun x1 before => List.length before = nodes /\ nth_error before 0 = Some 0 /\
     forall k j c, k < P -> j < width k -> c < len k -> node k j < x1 -> nth_error before (node (k + 1) (j * len k + c)) = Some (node k j)) s) as (before & E & L & Z0 & G) end.
  - rewrite repeat_length. sp; auto; [|lia]. assert (0 < nodes) by (unfold nodes; apply off_pos; lia). destruct nodes; [lia|reflexivity].
  - intros i before Hi (L & Z0 & G). destruct (node_surj P i Hi) as (K & J & HK & HJ & E). destruct IA as (LA & BA & _). rewrite E in *. rewrite (proj2 (at_nth _ _ _) (BA K J HJ (node_nodes K J ltac:(lia) HJ))). cbn [rbind].
    replace (K <? P) with true by (symmetry; apply Nat.ltb_lt; auto). unfold after_spec. cbn [fst snd]. pose proof (len_pos K HK) as LP.
    assert (E0 : node (K + 1) (J * len K + len K) = node (K + 1) (J * len K) + len K) by (unfold EnergyTreeSpec.node; lia).
    replace (node (K + 1) (J * len K + len K) - 1 + 1 - node (K + 1) (J * len K)) with (len K) by lia.
    assert (B : node (K + 1) (J * len K) + len K <= nodes). { pose proof (node_nodes (K + 1) (J * len K + (len K - 1)) ltac:(lia) (child_lt K J (len K - 1) HJ ltac:(lia))) as X. unfold EnergyTreeSpec.node in *. lia. }
    destruct (write_range (node K J) (node (K + 1) (J * len K)) (len K) before ltac:(lia)) as (b' & E' & L' & G'). rewrite E'. exists b'. split; auto. sp.
    + congruence.
    + rewrite G'. replace (node (K + 1) (J * len K) <=? 0) with false; [auto|]. symmetry. apply Nat.leb_gt. unfold EnergyTreeSpec.node. pose proof (off_pos (K + 1) ltac:(lia)). lia.
    + intros k j c Hk Hj Hc Hn. rewrite G'. destruct (Nat.leb_spec (node (K + 1) (J * len K)) (node (k + 1) (j * len k + c))) as [A1|A1], (Nat.ltb_spec (node (k + 1) (j * len k + c)) (node (K + 1) (J * len K) + len K)) as [A2|A2]; cbn [andb].
      * set (d := node (k + 1) (j * len k + c) - node (K + 1) (J * len K)). assert (D : d < len K) by (unfold d; lia). assert (Q0 : node (k + 1) (j * len k + c) = node (K + 1) (J * len K + d)) by (unfold d, EnergyTreeSpec.node in *; lia).
        apply node_inj in Q0 as [Q1 Q2]; auto using child_lt. assert (k = K) by lia. subst k. f_equal. f_equal. destruct (child_div K J d D) as [U _]. destruct (child_div K j c Hc) as [V _]. rewrite <- Q2, V in U. auto.
      * apply G; auto. destruct (Nat.eq_dec (node k j) (node K J)) as [Q0|Q0]; [|lia]. apply node_inj in Q0 as [-> ->]; auto. unfold EnergyTreeSpec.node in *. lia.
      * apply G; auto. destruct (Nat.eq_dec (node k j) (node K J)) as [Q0|Q0]; [|lia]. apply node_inj in Q0 as [-> ->]; auto. unfold EnergyTreeSpec.node in *. lia.
      * apply G; auto. destruct (Nat.eq_dec (node k j) (node K J)) as [Q0|Q0]; [|lia]. apply node_inj in Q0 as [-> ->]; auto. unfold EnergyTreeSpec.node in *. lia.
  - exists before. sp; auto. intros k j Hk Hj. destruct k as [|k].
    + cbn in Hj. replace j with 0 by lia. exact Z0.
    + cbn [parent_spec]. replace (S k) with (k + 1) in * by lia. destruct (child_of k j ltac:(lia) Hj) as (i & c & Hi & Hc & E0 & Ed & _). rewrite Ed, E0. apply G; auto; [lia|]. apply node_lt; auto; lia.
Qed.

(** ** The sequence of the tree *)

Variable unc : list bool.
Hypothesis unc_len : List.length unc = P.

Lemma at_unc k : k < P -> at_ unc k = Ok (uncertain unc k).
Proof. intros H. apply at_nth. unfold uncertain. apply nth_error_nth'. lia. Qed.

Definition progress {A} (spec : nat -> nat -> A) (X X' : list A) : Prop :=
  List.length X' = List.length X /\ nth_error X' 0 = nth_error X 0 /\
  forall k j, 0 < k -> j < width k -> nth_error X' (node k j) = nth_error X (node k j) \/ nth_error X' (node k j) = Some (spec k j).

Lemma progress_refl {A} (spec : nat -> nat -> A) X : progress spec X X.
Proof. unfold progress. auto. Qed.

Lemma progress_trans {A} (spec : nat -> nat -> A) X Y W : progress spec X Y -> progress spec Y W -> progress spec X W.
Proof.
  intros (L1 & Z1 & H1) (L2 & Z2 & H2). unfold progress. sp; try congruence. intros k j K J. destruct (H2 k j K J) as [E|E]; auto. destruct (H1 k j K J) as [E'|E']; [left|right]; congruence.
Qed.

Lemma progress_put {A} (spec : nat -> nat -> A) X k j i v : 0 < k -> j < width k -> i = node k j -> i < List.length X -> v = spec k j -> progress spec X (put X i v) /\ nth_error (put X i v) i = Some (spec k j).
Proof.
  intros K J -> N ->. split; [|rewrite put_at, Nat.eqb_refl by auto; auto]. unfold progress. rewrite put_length. sp; auto.
  - rewrite put_at by auto. replace (node k j =? 0) with false; auto. symmetry. apply Nat.eqb_neq. unfold EnergyTreeSpec.node. pose proof (off_pos k K). lia.
  - intros k' j' K' J'. rewrite put_at by auto. destruct (Nat.eqb_spec (node k j) (node k' j')) as [E|E]; auto. apply node_inj in E as [-> ->]; auto.
Qed.

Lemma progress_keep {A} (spec : nat -> nat -> A) X Y k j : 0 < k -> j < width k -> progress spec X Y -> nth_error X (node k j) = Some (spec k j) -> nth_error Y (node k j) = Some (spec k j).
Proof. intros K J (_ & _ & H) E. destruct (H k j K J); congruence. Qed.

(** Strict descendants. *)
Inductive desc : nat -> nat -> nat -> nat -> Prop :=
| desc_child k j c : c < len k -> desc k j (k + 1) (j * len k + c)
| desc_step k j c k' j' : c < len k -> desc (k + 1) (j * len k + c) k' j' -> desc k j k' j'.

Lemma desc_snoc k j k' j' : desc k j k' j' -> forall c, c < len k' -> desc k j (k' + 1) (j' * len k' + c).
Proof.
  induction 1 as [k j c C|k j c k' j' C D IH]; intros c' C'.
  - eapply desc_step; eauto using desc_child.
  - eapply desc_step; eauto.
Qed.

Lemma desc_root k j : 0 < k -> k <= P -> j < width k -> desc 0 0 k j.
Proof.
  intros K. induction K as [|k K IH] in j |- *; intros KP J.
  - change 1 with (0 + 1) in J. rewrite width_S in J. replace j with (0 * len 0 + j) by lia. change 1 with (0 + 1). apply desc_child. cbn [EnergyTreeSpec.width] in J. lia.
  - replace (S k) with (k + 1) in * by lia. destruct (child_of k j ltac:(lia) J) as (i & c & Hi & Hc & -> & _). apply desc_snoc; auto. apply IH; auto. lia.
Qed.

Lemma desc_bounds k j k' j' : desc k j k' j' -> j < width k -> k < k' /\ j' < width k'.
Proof.
  induction 1 as [k j c C|k j c k' j' C D IH]; intros J.
  - split; [lia|]. now apply child_lt.
  - destruct IH; [now apply child_lt|]. split; [lia|auto].
Qed.

Notation fspec := (fwd_spec lens unc).
Notation bspec := (bwd_spec lens).

Lemma fwd_S k j : fspec (k + 1) j = if (j mod len k =? 0) || uncertain unc k then (node k (j / len k), 0) else (node (k + 1) j - 1, 1).
Proof. rewrite Nat.add_1_r. reflexivity. Qed.

Lemma mapping_spec after : after_inv nodes after -> forall fuel k j F B, k < P -> j < width k -> P <= fuel + k -> List.length F = nodes -> List.length B = nodes ->
  exists F' B', mapping fuel (node k j + 1) (k + 1) (node k j, 0) (F, B) after unc (off P) = Ok ((F', B'), (node (k + 1) (j * len k + len k) - 1, 1)) /\
    progress fspec F F' /\ progress bspec B B' /\
    forall k' j', desc k j k' j' -> k' <= P -> nth_error F' (node k' j') = Some (fspec k' j') /\ nth_error B' (node k' j') = Some (bspec k' j').
Proof.
  intros IA. induction fuel as [|fuel IH]; intros k j F B K J Fu LF LB; [lia|]. cbn [mapping]. replace (node k j + 1 - 1) with (node k j) by lia. replace (k + 1 - 1) with k by lia.
  destruct IA as (LA & BA & AA). rewrite (proj2 (at_nth _ _ _) (BA k j J (node_nodes k j ltac:(lia) J))). cbn [rbind]. replace (k <? P) with true by (symmetry; apply Nat.ltb_lt; auto). unfold after_spec. cbn [fst snd]. pose proof (len_pos k K) as LP.
  set (first := node (k + 1) (j * len k)). assert (E0 : forall c, node (k + 1) (j * len k + c) = first + c) by (intros c; unfold first, EnergyTreeSpec.node; lia). rewrite !E0.
  replace (first + len k - 1 + 1 - first) with (len k) by lia.
  assert (F1 : 0 < first). { unfold first, EnergyTreeSpec.node. pose proof (off_pos (k + 1) ltac:(lia)). lia. }
  match goal with |- context [foldM ?f (seq first (len k)) ?s] => destruct (seq_inv f (fun i st => let '(arr, old, new) := st in
      progress fspec F (fst arr) /\ progress bspec B (snd arr) /\
      old = (if (i - first =? 0) || uncertain unc k then (node k j, 0) else (i - 1, 1)) /\
      new = (if i - first =? 0 then (node k j, 0) else (i - 1, 1)) /\
      forall c, c < i - first -> (forall k' j', (k' = k + 1 /\ j' = j * len k + c) \/ desc (k + 1) (j * len k + c) k' j' -> k' <= P ->
          nth_error (fst arr) (node k' j') = Some (fspec k' j') /\ nth_error (snd arr) (node k' j') = Some (bspec k' j'))) first (len k) s) as ([[[F' B'] old] new] & E & PF & PB & _ & EN & D) end.
  - cbn [fst snd]. rewrite Nat.sub_diag. cbn [Nat.eqb orb]. sp; auto using progress_refl. intros c C. lia.
  - intros i [[[F2 B2] old] new] Hi (PF & PB & EO & EN & D). cbn [fst snd] in *. set (c := i - first) in *. assert (Hc : c < len k) by (unfold c; lia). assert (Ei : i = first + c) by (unfold c; lia).
    pose proof (child_lt k j c J Hc) as CW. assert (Nd : i = node (k + 1) (j * len k + c)) by (rewrite E0; auto).
    assert (Ni : i < nodes) by (rewrite Nd; apply node_nodes; auto; lia).
    rewrite aset_ok by (rewrite (proj1 PF); lia). cbn [rbind].
    destruct (child_div k j c Hc) as [Dv Md].
    destruct (progress_put fspec F2 (k + 1) (j * len k + c) i old ltac:(lia) CW Nd) as [Pp Pv]. { rewrite (proj1 PF); lia. }
    { rewrite EO, fwd_S, Dv, Md, <- Nd. reflexivity. }
    assert (R : exists F3 B3, (if i + 1 <=? off P then mapping fuel (i + 1) (k + 1 + 1) (i, 0) (put F2 i old, B2) after unc (off P) else Ok ((put F2 i old, B2), (i, 0))) = Ok ((F3, B3), bspec (k + 1) (j * len k + c)) /\
       progress fspec (put F2 i old) F3 /\ progress bspec B2 B3 /\
       forall k' j', desc (k + 1) (j * len k + c) k' j' -> k' <= P -> nth_error F3 (node k' j') = Some (fspec k' j') /\ nth_error B3 (node k' j') = Some (bspec k' j')).
    { destruct (Nat.leb_spec (i + 1) (off P)) as [Le|Gt].
      - assert (K1 : k + 1 < P). { destruct (Nat.eq_dec (k + 1) P) as [Q0|Q0]; [|lia]. rewrite Nd, Q0 in Le. unfold EnergyTreeSpec.node in Le. lia. }
        destruct (IH (k + 1) (j * len k + c) (put F2 i old) B2 K1 CW ltac:(lia)) as (F3 & B3 & E3 & P3 & Q3 & D3).
        { rewrite put_length, (proj1 PF). auto. } { rewrite (proj1 PB). auto. }
        exists F3, B3. rewrite <- Nd in E3. rewrite E3. sp; auto. unfold bwd_spec. replace (k + 1 <? P) with true by (symmetry; apply Nat.ltb_lt; auto). reflexivity.
      - assert (K1 : ~ k + 1 < P). { intros K1. pose proof (node_lt (k + 1) (j * len k + c) P K1 CW). lia. }
        exists (put F2 i old), B2. sp; auto using progress_refl.
        + unfold bwd_spec. replace (k + 1 <? P) with false by (symmetry; apply Nat.ltb_ge; lia). now rewrite <- Nd.
        + intros k' j' Dk Kp. destruct (desc_bounds _ _ _ _ Dk CW). lia. }
    destruct R as (F3 & B3 & E3 & P3 & Q3 & D3). rewrite E3. cbn [rbind]. rewrite aset_ok by (rewrite (proj1 Q3), (proj1 PB); lia). cbn [rbind]. rewrite at_unc by auto. cbn [rbind].
    destruct (progress_put bspec B3 (k + 1) (j * len k + c) i (bspec (k + 1) (j * len k + c)) ltac:(lia) CW Nd) as [Pq Pw]; auto. { rewrite (proj1 Q3), (proj1 PB); lia. }
    assert (PF3 : progress fspec F F3) by (eapply progress_trans; [eapply progress_trans; eauto|auto]).
    assert (PB3 : progress bspec B (put B3 i (bspec (k + 1) (j * len k + c)))) by (eapply progress_trans; [eapply progress_trans; eauto|auto]).
    eexists. split; [reflexivity|]. cbn beta iota. cbn [fst snd]. sp; auto.
    + replace (i + 1 - first =? 0) with false by (symmetry; apply Nat.eqb_neq; lia). cbn [orb]. replace (i + 1 - 1) with i by lia. rewrite EO. destruct (uncertain unc k); auto. now rewrite orb_true_r.
    + replace (i + 1 - first =? 0) with false by (symmetry; apply Nat.eqb_neq; lia). replace (i + 1 - 1) with i by lia. reflexivity.
    + intros c' Hc' k' j' Dk Kp. destruct (Nat.eq_dec c' c) as [->|Nc].
      * destruct Dk as [[-> ->]|Dk].
        -- split; [apply progress_keep with (X := put F2 i old); auto; try lia; rewrite <- Nd; exact Pv|rewrite <- Nd; exact Pw].
        -- destruct (D3 k' j' Dk Kp) as [U V]. destruct (desc_bounds _ _ _ _ Dk CW). split; auto. apply progress_keep with (X := B3); auto. lia.
      * assert (V : j' < width k' /\ 0 < k').
        { destruct Dk as [[-> ->]|Dk]; [split; [apply child_lt; auto; lia|lia]|]. destruct (desc_bounds _ _ _ _ Dk (child_lt k j c' J ltac:(lia))). split; [auto|lia]. }
        destruct V as [V1 V2]. destruct (D c' ltac:(lia) k' j' Dk Kp) as [U W]. split.
        -- apply progress_keep with (X := F2); auto. eapply progress_trans; eauto.
        -- apply progress_keep with (X := B2); auto. eapply progress_trans; eauto.
  - rewrite E. cbn [rbind]. cbn [fst snd] in *. exists F', B'. sp; auto.
    + rewrite EN. replace (first + len k - first =? 0) with false by (symmetry; apply Nat.eqb_neq; lia). reflexivity.
    + intros k' j' Dk Kp. inversion Dk as [k0 j0 c Hc|k0 j0 c k1 j1 Hc Dk']; subst.
      * apply (D c ltac:(lia)); auto.
      * apply (D c ltac:(lia)); auto.
Qed.

(** ** Marks and intervals *)

Lemma mark_spec lvl : 0 < P -> List.length lvl = P + 1 -> (forall i, i <= P -> nth_error lvl i = Some (1 + off i)) ->
  exists marks, mark_uncertain sz_of lvl unc = Ok marks /\ List.length marks = nodes /\ forall k j, k <= P -> j < width k -> nth_error marks (node k j) = Some (uncertain unc k).
Proof.
  intros P0 LL GL. unfold mark_uncertain. cbn [sz_periods sz_nodes sz_of]. fold nodes.
  match goal with |- context [for_range P ?f ?s] => destruct (range_inv P f (fun x1 marks => List.length marks = nodes /\ forall k j, k <= P -> j < width k -> nth_error marks (node k j) = Some ((k <? x1) && uncertain unc k)) s) as (marks & E & L & G) end.
  - split; [apply repeat_length|]. intros k j K J. rewrite (nth_error_nth' _ false) by (rewrite repeat_length; now apply node_nodes). f_equal. apply repeat_spec with (n := nodes). apply nth_In. rewrite repeat_length. now apply node_nodes.
  - intros i marks Hi (L & G). rewrite at_unc by auto. cbn [rbind]. destruct (uncertain unc i) eqn:U.
    + rewrite (proj2 (at_nth _ _ _) (GL i ltac:(lia))), (proj2 (at_nth _ _ _) (GL (i + 1) ltac:(lia))). cbn [rbind]. replace (1 + off i - 1) with (off i) by lia. rewrite off_S. replace (1 + (off i + width i) - 1 - off i) with (width i) by lia.
      destruct (write_range true (off i) (width i) marks) as (m' & E' & L' & G'). { rewrite L. pose proof (width_pos i ltac:(lia)) as W. pose proof (node_nodes i (width i - 1) ltac:(lia) ltac:(lia)) as X. unfold EnergyTreeSpec.node in X. lia. }
      rewrite E'. exists m'. split; auto. split; [congruence|]. intros k j K J. rewrite G', G by auto. destruct (Nat.leb_spec (off i) (node k j)) as [A|A], (Nat.ltb_spec (node k j) (off i + width i)) as [B|B]; cbn [andb].
      * assert (Q0 : node k j = node i (node k j - off i)) by (unfold EnergyTreeSpec.node in *; lia). apply node_inj in Q0 as [Q1 _]; [|auto|lia]. subst k. rewrite U. replace (i <? i + 1) with true by (symmetry; apply Nat.ltb_lt; lia). reflexivity.
      * f_equal. destruct (Nat.eq_dec k i) as [->|Ne]; [unfold EnergyTreeSpec.node in *; lia|]. f_equal. destruct (Nat.ltb_spec k i), (Nat.ltb_spec k (i + 1)); auto; lia.
      * f_equal. destruct (Nat.eq_dec k i) as [->|Ne]; [unfold EnergyTreeSpec.node in *; lia|]. f_equal. destruct (Nat.ltb_spec k i), (Nat.ltb_spec k (i + 1)); auto; lia.
      * f_equal. destruct (Nat.eq_dec k i) as [->|Ne]; [unfold EnergyTreeSpec.node in *; lia|]. f_equal. destruct (Nat.ltb_spec k i), (Nat.ltb_spec k (i + 1)); auto; lia.
    + exists marks. sp; auto. intros k j K J. rewrite G by auto. f_equal. destruct (Nat.eq_dec k i) as [->|Ne]; [rewrite U; now rewrite !andb_false_r|]. f_equal. destruct (Nat.ltb_spec k i), (Nat.ltb_spec k (i + 1)); auto; lia.
  - exists marks. sp; auto. intros k j K J. rewrite G by auto. f_equal. destruct (Nat.ltb_spec k P) as [H|H]; auto. unfold uncertain. now rewrite nth_overflow by lia.
Qed.

Lemma filled_skip {A} (spec : nat -> nat -> A) d N arr K J m : J < width K -> m = node K J -> m < N -> spec K J = d -> filled spec d m N arr -> filled spec d (m + 1) N arr.
Proof.
  intros HJ -> HN E (L & B & Ab). split; auto. split.
  - intros k j Hj Hm. destruct (Nat.eq_dec (node K J) (node k j)) as [Q0|Q0]; [|apply B; auto; lia]. rewrite <- Q0. apply node_inj in Q0 as [<- <-]; auto. rewrite E. apply Ab; lia.
  - intros t Ht HtN. apply Ab; lia.
Qed.

Lemma inout_S k j : inout_spec lens (k + 1) j = base lens k + j mod len k.
Proof. rewrite Nat.add_1_r. reflexivity. Qed.

Lemma in_out_spec : 0 < P -> exists wio, in_out sz_of = Ok wio /\ filled (inout_spec lens) 0 nodes nodes wio.
Proof.
  intros P0. unfold in_out. cbn [sz_periods sz_len sz_nodes sz_of]. fold nodes.
  match goal with |- context [for_range P ?f ?s] => destruct (range_inv P f (fun x1 st => let '(wio, a1, a2, a3) := st in
    filled (inout_spec lens) 0 (off (x1 + 1)) nodes wio /\ a1 = width x1 /\ a2 + 1 = off (x1 + 1) /\ a3 = base lens x1) s) as ([[[wio a1] a2] a3] & E & H & _) end.
  - sp; auto. change (off (0 + 1)) with (0 + 1). apply filled_skip with (K := 0) (J := 0); auto using filled_repeat. unfold nodes. apply off_pos. lia.
  - intros i [[[wio a1] a2] a3] Hi (H & A1 & A2 & A3). rewrite at_len by auto. cbn [rbind]. subst a1 a3.
    match goal with |- context [for_range (width i) ?f ?s] => destruct (range_inv (width i) f (fun x2 r => filled (inout_spec lens) 0 (node (i + 1) (x2 * len i)) nodes (fst r) /\ snd r + 1 = node (i + 1) (x2 * len i)) s) as (r & E & Hf & Hp) end.
    + cbn [fst snd Nat.mul]. rewrite node_0. auto.
    + intros x2 [w p] X2 [Hf Hp]. cbn [fst snd] in *.
      match goal with |- context [for_range (len i) ?f ?s] => destruct (range_inv (len i) f (fun x3 r => filled (inout_spec lens) 0 (node (i + 1) (x2 * len i + x3)) nodes (fst r) /\ snd r + 1 = node (i + 1) (x2 * len i + x3)) s) as (r & E & Hf' & Hp') end.
      * cbn [fst snd]. rewrite Nat.add_0_r. auto.
      * intros x3 [w3 p3] X3 [Hf3 Hp3]. cbn [fst snd] in *. pose proof (child_lt i x2 x3 X2 X3) as CW. pose proof (node_nodes (i + 1) (x2 * len i + x3) ltac:(lia) CW) as N. rewrite aset_ok by (rewrite (proj1 Hf3), Hp3; auto). cbn [rbind]. eexists. split; [reflexivity|]. cbn [fst snd]. rewrite Hp3.
        assert (E1 : node (i + 1) (x2 * len i + (x3 + 1)) = node (i + 1) (x2 * len i + x3) + 1) by (unfold EnergyTreeSpec.node; lia). rewrite E1. split; auto.
        apply filled_put with (K := i + 1) (J := x2 * len i + x3); auto. rewrite inout_S. now rewrite (proj2 (child_div i x2 x3 X3)).
      * exists r. rewrite E. replace ((x2 + 1) * len i) with (x2 * len i + len i) by lia. auto.
    + rewrite E. cbn [rbind]. eexists. split; [reflexivity|]. cbn beta iota. rewrite <- width_S in *. rewrite node_width in Hf, Hp. sp; auto. now rewrite (Nat.add_1_r i).
  - rewrite E. cbn [rbind]. exists wio. split; auto.
Qed.

(** ** The whole tree *)

Record is_tree (t : tree) : Prop := {
  it_len : List.length (tr_fwd t) = nodes /\ List.length (tr_bwd t) = nodes /\ List.length (tr_after t) = nodes /\ List.length (tr_scenarios t) = nodes /\
           List.length (tr_unc t) = nodes /\ List.length (tr_inout t) = nodes /\ List.length (tr_parent t) = nodes /\ List.length (tr_time t) = P + 1;
  it_root : nth_error (tr_fwd t) 0 = Some (0, 0) /\ nth_error (tr_bwd t) 0 = Some (0, 0);
  it_fwd : forall k j, 0 < k -> k <= P -> j < width k -> nth_error (tr_fwd t) (node k j) = Some (fspec k j);
  it_bwd : forall k j, 0 < k -> k <= P -> j < width k -> nth_error (tr_bwd t) (node k j) = Some (bspec k j);
  it_after : forall k j, k < P -> j < width k -> nth_error (tr_after t) (node k j) = Some (after_spec lens k j);
  it_leaf : forall j, j < width P -> nth_error (tr_after t) (node P j) = Some (0, 0);
  it_scen : forall k j, k <= P -> j < width k -> nth_error (tr_scenarios t) (node k j) = Some (scen_spec lens k j);
  it_unc : forall k j, k <= P -> j < width k -> nth_error (tr_unc t) (node k j) = Some (uncertain unc k);
  it_inout : forall k j, k <= P -> j < width k -> nth_error (tr_inout t) (node k j) = Some (inout_spec lens k j);
  it_parent : forall k j, k <= P -> j < width k -> nth_error (tr_parent t) (node k j) = Some (parent_spec lens k j);
  it_time : forall k, k <= P -> nth_error (tr_time t) k = Some (off k, off (k + 1) - 1) }.

Theorem connect_spec : 0 < P -> exists t, connect sz_of unc = Ok t /\ is_tree t.
Proof.
  intros P0. unfold connect. destruct (connect_tree_spec P0) as (after & sc & lvl & E & IA & IS & LL & GL). rewrite E. cbn [rbind]. destruct node_time_spec as (nt & En & Ln & Gn). rewrite En. cbn [rbind sz_periods sz_of sz_nodes]. fold nodes. fold sz_of.
  rewrite (proj2 (at_nth _ _ _) (GL P ltac:(lia))). cbn [rbind]. replace (1 + off P - 1) with (off P) by lia. destruct (node_before_spec after P0 IA) as (before & Eb & Lb & Gb). rewrite Eb. cbn [rbind].
  destruct (mapping_spec after IA P 0 0 (repeat (0, 0) nodes) (repeat (0, 0) nodes)) as (F & B & Em & PF & PB & D); auto using repeat_length; try lia.
  change (node 0 0 + 1) with 1 in Em. change (0 + 1) with 1 in Em. change (node 0 0) with 0 in Em. rewrite Em. cbn [rbind]. destruct (mark_spec lvl P0 LL GL) as (marks & Ek & Lk & Gk). rewrite Ek. cbn [rbind]. destruct (in_out_spec P0) as (wio & Ew & Hw). rewrite Ew. cbn [rbind fst snd].
  assert (N0 : 0 < nodes) by (unfold nodes; apply off_pos; lia). eexists. split; [reflexivity|]. constructor; cbn [tr_fwd tr_bwd tr_after tr_scenarios tr_unc tr_inout tr_time tr_parent].
  - sp; auto; try (rewrite (proj1 PF); apply repeat_length); try (rewrite (proj1 PB); apply repeat_length); [apply IA|apply IS|apply Hw].
  - split; [rewrite (proj1 (proj2 PF))|rewrite (proj1 (proj2 PB))]; destruct nodes; try lia; reflexivity.
  - intros k j K KP J. apply (D k j); auto using desc_root.
  - intros k j K KP J. apply (D k j); auto using desc_root.
  - intros k j K J. rewrite (proj1 (proj2 IA)); auto using node_nodes; [|apply node_nodes; auto; lia]. replace (k <? P) with true by (symmetry; apply Nat.ltb_lt; auto). reflexivity.
  - intros j J. rewrite (proj1 (proj2 IA)); auto using node_nodes. now rewrite Nat.ltb_irrefl.
  - intros k j K J. apply (proj1 (proj2 IS)); auto using node_nodes.
  - auto.
  - intros k j K J. apply (proj1 (proj2 Hw)); auto using node_nodes.
  - auto.
  - auto.
Qed.
End Tree.

(** ** Measuring the data *)

Lemma width_ext l l' k : (forall i, i < k -> len l i = len l' i) -> width l k = width l' k.
Proof. induction k as [|k IH]; intros H; cbn [width]; auto. rewrite IH, H; auto. Qed.

Lemma off_ext l l' k : (forall i, i + 1 < k -> len l i = len l' i) -> off l k = off l' k.
Proof. induction k as [|k IH]; intros H; cbn [off]; auto. rewrite IH, (width_ext l l' k); auto; intros; apply H; lia. Qed.

Lemma measure_nodes lens : fold_left (fun st n => (fst st * n, snd st + fst st * n)) lens (1, 1) = (width lens (depth lens), off lens (depth lens + 1)).
Proof.
  induction lens as [|n l IH] using rev_ind; [reflexivity|]. rewrite fold_left_app, IH. cbn [fold_left fst snd]. unfold depth. rewrite app_length. cbn [List.length].
  assert (W : forall k, k <= List.length l -> width (l ++ [n]) k = width l k) by (intros k K; apply width_ext; intros i Hi; unfold len; apply app_nth1; lia).
  assert (O : off (l ++ [n]) (List.length l + 1) = off l (List.length l + 1)) by (apply off_ext; intros i Hi; unfold len; apply app_nth1; lia).
  assert (E : len (l ++ [n]) (List.length l) = n) by (unfold len; rewrite app_nth2, Nat.sub_diag by lia; reflexivity).
  rewrite (off_S _ (List.length l + 1)), O, (width_S _ (List.length l)), E, W by lia. reflexivity.
Qed.

Lemma measure_scen lens : fold_left Nat.mul lens 1 = width lens (depth lens).
Proof.
  induction lens as [|n l IH] using rev_ind; [reflexivity|]. rewrite fold_left_app, IH. cbn [fold_left]. unfold depth. rewrite app_length. cbn [List.length].
  rewrite (width_S _ (List.length l)). f_equal; [symmetry; apply width_ext; intros i Hi; unfold len; apply app_nth1; lia|]. unfold len. now rewrite app_nth2, Nat.sub_diag by lia.
Qed.

Lemma measure_sum lens : fold_left Nat.add lens 1 = base lens (depth lens).
Proof.
  induction lens as [|n l IH] using rev_ind; [reflexivity|]. rewrite fold_left_app, IH. cbn [fold_left]. unfold depth. rewrite app_length. cbn [List.length]. rewrite Nat.add_1_r. cbn [base].
  f_equal; [|unfold len; now rewrite app_nth2, Nat.sub_diag by lia]. assert (G : forall k, k <= List.length l -> base l k = base (l ++ [n]) k); [|apply G; auto].
  induction k as [|k IHk]; intros K; cbn [base]; auto. rewrite IHk by lia. f_equal. unfold len. now rewrite app_nth1 by lia.
Qed.

Lemma measure_spec d data : measure (d :: data) = Ok (sz_of (map lv_names (d :: data)) (rows (lv_inputs d)) (base (map lv_names (d :: data)) (List.length (d :: data)))).
Proof.
  unfold measure. rewrite measure_nodes, measure_scen, measure_sum. unfold sz_of, depth. cbn [snd]. now rewrite map_length.
Qed.
