(** Lemmas about costs of clusters, the planner input and the saved results. *)
From Coq Require Import List String Ascii Bool Arith ZArith QArith Qround Qabs Lia Lqa Permutation Sorted.
From Verif Require Import Base Graph GraphData GraphDataProofs Reader ReaderProofs NumeralSpec NumeralProofs Cases CasesSpec CasesProofs CasesClusters.
Import ListNotations.
Open Scope nat_scope.
Open Scope list_scope.

Local Ltac sp := repeat match goal with |- _ /\ _ => split end.

(** ** The catalogue *)

Lemma catalogue_index_spec cat v x : catalogue_index cat v = Ok x ->
  (exists s, nth_error cat x = Some s /\ (v == s)%Q) /\ forall y s, y < x -> nth_error cat y = Some s -> ~ (v == s)%Q.
Proof.
  revert x. induction cat as [|c cat IH]; intros x H; cbn [catalogue_index] in H; [discriminate|]. destruct (Qeq_bool v c) eqn:E.
  - inversion H; subst. apply Qeq_bool_iff in E. split; [exists c; auto|lia].
  - destruct (catalogue_index cat v) as [i|] eqn:Ei; cbn [rbind] in H; [|discriminate]. inversion H; subst.
    destruct (IH i eq_refl) as [A B]. split; auto. intros [|y] s L Hs; cbn in Hs.
    + inversion Hs; subst. now apply Qeq_bool_neq.
    + apply (B y); auto. lia.
Qed.

Lemma catalogue_index_total cat v : (exists s, In s cat /\ (v == s)%Q) -> exists x, catalogue_index cat v = Ok x /\ x < List.length cat.
Proof.
  induction cat as [|c cat IH]; intros (s & I & E); [destruct I|]. cbn [catalogue_index List.length]. destruct (Qeq_bool v c) eqn:B; [exists 0; split; [auto|lia]|].
  destruct IH as (x & -> & L); [|exists (S x); cbn [rbind]; split; [auto|lia]]. destruct I as [->|I]; [|eauto]. apply Qeq_bool_neq in B. contradiction.
Qed.

Lemma catalogue_index_none cat v : (forall s, In s cat -> ~ (v == s)%Q) -> catalogue_index cat v = Err IndexError.
Proof.
  induction cat as [|c cat IH]; intros H; cbn [catalogue_index]; auto. destruct (Qeq_bool v c) eqn:E.
  - apply Qeq_bool_iff in E. destruct (H c); cbn; auto.
  - rewrite IH; auto. intros s I. apply H. now right.
Qed.


Lemma cluster_cost_total cat cost n c : List.length c = n -> listed cat c -> List.length cat <= List.length cost -> exists q, cluster_cost cat cost n c = Ok q.
Proof.
  intros L Hl Hc. unfold cluster_cost.
  assert (G : forall xs acc, (forall x, In x xs -> x < n) -> exists q, foldM (fun acc x => do v <- at_ c x;
                      if qgt v 0 then do i <- catalogue_index cat v; do k <- at_ cost i; Ok (acc + k)%Q else Ok acc) xs acc = Ok q).
  { induction xs as [|x xs IH]; intros acc H; cbn [foldM]; eauto.
    destruct (at_total c x) as (v & Ev & Hv); [rewrite L; apply H; now left|]. rewrite Ev. cbn [rbind]. destruct (qgt v 0) eqn:G.
    - apply qgt_true in G. destruct (catalogue_index_total cat v) as (i & -> & Li); [apply Hl; auto; eapply nth_error_In; eauto|]. cbn [rbind].
      destruct (at_total cost i) as (k & -> & _); [lia|]. cbn [rbind]. apply IH. intros; apply H; now right.
    - cbn [rbind]. apply IH. intros; apply H; now right. }
  apply G. intros x I. apply in_seq in I. lia.
Qed.

(** ** Empty clusters *)

Lemma has_positive_gen : forall c p, exists b, has_positive (seq (List.length p) (List.length c)) (p ++ c) = Ok b /\ b = existsb (fun v => qgt v 0) c.
Proof.
  induction c as [|v c IH]; intros p; cbn [List.length seq has_positive existsb]; eauto.
  unfold at_. rewrite nth_error_app2, Nat.sub_diag by lia. cbn [nth_error rbind]. destruct (qgt v 0); cbn [orb]; eauto.
  specialize (IH (p ++ [v])). rewrite app_length, <- app_assoc in IH. cbn [List.length app] in IH. now rewrite Nat.add_1_r in IH.
Qed.

Lemma non_empty_spec n l : rectangular n l -> non_empty n l = Ok (filter (existsb (fun v => qgt v 0)) l).
Proof.
  intros R. unfold non_empty. rewrite (mapM_map _ (existsb (fun v => qgt v 0))).
  - cbn [rbind]. f_equal. clear R. induction l as [|c l IH]; cbn; auto. destruct (existsb (fun v => qgt v 0) c); cbn; now rewrite IH.
  - intros c I. unfold rectangular in R. rewrite Forall_forall in R. specialize (R c I). destruct (has_positive_gen c []) as (b & E & ->). cbn in E. now rewrite <- R.
Qed.

Lemma positive_reinforces c : existsb (fun v => qgt v 0) c = true <-> reinforces c.
Proof. rewrite existsb_exists. split; intros (v & I & H); exists v; split; auto; now apply qgt_true. Qed.

(** ** From screening to clusters *)

Lemma dedupe_rectangular n l : rectangular n l -> rectangular n (dedupe l).
Proof. unfold rectangular. rewrite !Forall_forall. intros H c I. apply H. now apply (dedupe_spec l). Qed.

Lemma dedupe_nonempty l : l <> [] -> dedupe l <> [].
Proof.
  intros NE E. destruct l as [|c l]; [congruence|]. destruct (dedupe_spec (c :: l)) as (_ & _ & D). destruct (D c (or_introl eq_refl)) as (c' & I & _). rewrite E in I. destruct I.
Qed.

Lemma final_clusters_cases cat cost limit n l : l <> [] -> rectangular n l -> Forall (listed cat) l -> List.length cat <= List.length cost -> 0 < limit ->
  exists o kept, final_clusters cat cost limit l = Ok kept /\ Permutation (dedupe l) o /\
    ((List.length o <= limit /\ kept = filter (existsb (fun v => qgt v 0)) o) \/
     (limit < List.length o /\ reduce_clusters cat cost n limit o = Ok kept)).
Proof.
  intros NE R Hl Hc Hlim. unfold final_clusters.
  pose proof (dedupe_nonempty l NE) as ND. pose proof (dedupe_rectangular n l R) as RD.
  destruct (at_total (dedupe l) 0) as (first & E0 & H0); [destruct (dedupe l); [congruence|cbn; lia]|]. rewrite E0. cbn [rbind].
  rewrite (rectangular_nth _ _ _ _ RD H0).
  destruct (order_total n (dedupe l) ND RD) as (o & Eo). rewrite Eo. cbn [rbind]. pose proof (order_perm _ _ Eo) as P. exists o.
  assert (Ro : rectangular n o) by (eapply rectangular_perm; eauto).
  destruct (Nat.ltb_spec limit (List.length o)).
  - destruct (mapM_total (cluster_cost cat cost n) o) as (costs & Ec).
    { intros c I. apply cluster_cost_total; auto.
      - unfold rectangular in Ro. rewrite Forall_forall in Ro. auto.
      - rewrite Forall_forall in Hl. apply Hl. apply (dedupe_spec l). eapply Permutation_in; [symmetry; exact P|]. auto. }
    destruct (reduce_spec cat cost n limit o costs Ec) as (kept & is & Ek & _); [lia|]. exists kept. sp; auto.
  - rewrite (non_empty_spec n o Ro). eexists; sp; auto.
Qed.

(** ** Investment options *)

Section Options.
Variables cat cost lengths : list Q.
Variable oversize : nat.
Variable c : list Q.

Definition step_option (acc : option_row) (b : nat) : res option_row :=
  do v <- at_ c b;
  if qgt v 0 then
    do x <- catalogue_index cat v;
    let x := x + oversize in
    do k <- at_ cost x;
    do len <- at_ lengths b;
    do s <- at_ cat x;
    Ok (mkOpt (op_cost acc + k * len)%Q (op_elements acc ++ [b + 1]) (op_capacity acc ++ [s]))
  else Ok acc.

Lemma options_loop : forall bs acc r, foldM step_option bs acc = Ok r ->
  exists xs, Forall2 (takes cat c) (filter (fun b => qgt (nth b c 0%Q) 0) bs) xs /\
    op_elements r = op_elements acc ++ map S (filter (fun b => qgt (nth b c 0%Q) 0) bs) /\
    op_capacity r = op_capacity acc ++ map (fun x => nth (x + oversize) cat 0%Q) xs /\
    (op_cost r == op_cost acc + qsum (map (fun bx => nth (snd bx + oversize) cost 0 * nth (fst bx) lengths 0)%Q (combine (filter (fun b => qgt (nth b c 0%Q) 0) bs) xs)))%Q.
Proof.
  induction bs as [|b bs IH]; intros acc r H; cbn [foldM] in H.
  - inversion H; subst. exists []. cbn. rewrite !List.app_nil_r. sp; auto. ring.
  - unfold step_option at 1 in H. destruct (at_ c b) as [v|] eqn:Ev; cbn [rbind] in H; [|discriminate].
    assert (Hv : nth b c 0%Q = v) by (apply at_nth in Ev; now apply nth_error_nth). cbn [filter]. rewrite Hv.
    destruct (qgt v 0) eqn:G.
    + destruct (catalogue_index cat v) as [x|] eqn:Ex; cbn [rbind] in H; [|discriminate].
      destruct (at_ cost (x + oversize)) as [k|] eqn:Ek; cbn [rbind] in H; [|discriminate].
      destruct (at_ lengths b) as [len|] eqn:El; cbn [rbind] in H; [|discriminate].
      destruct (at_ cat (x + oversize)) as [s|] eqn:Es; cbn [rbind] in H; [|discriminate].
      apply IH in H as (xs & F & He & Hc & Hq). exists (x :: xs). cbn [op_elements op_capacity op_cost] in He, Hc, Hq.
      apply at_nth, nth_error_nth with (d := 0%Q) in Ek, El, Es.
      cbn [map combine]. rewrite He, Hc, Hq, <- !app_assoc, Nat.add_1_r. cbn [app qsum fold_right fst snd]. sp; auto.
      * constructor; auto. unfold takes. rewrite Hv. now apply catalogue_index_spec.
      * now rewrite Es.
      * rewrite Ek, El. fold (qsum (map (fun bx : nat * nat => nth (snd bx + oversize) cost 0 * nth (fst bx) lengths 0)%Q (combine (filter (fun b0 => qgt (nth b0 c 0%Q) 0) bs) xs))). ring.
    + cbn [rbind] in H. now apply IH in H.
Qed.

Lemma options_total : forall bs acc, (forall b, In b bs -> b < List.length c /\ b < List.length lengths) -> listed cat c ->
  List.length cost = List.length cat -> oversize = 0 -> exists r, foldM step_option bs acc = Ok r.
Proof.
  induction bs as [|b bs IH]; intros acc H Hl Lc O; cbn [foldM]; eauto.
  destruct (H b (or_introl eq_refl)) as [L1 L2]. unfold step_option at 1. destruct (at_total c b L1) as (v & -> & Hv). cbn [rbind].
  destruct (qgt v 0) eqn:G.
  - apply qgt_true in G. destruct (catalogue_index_total cat v) as (x & -> & Lx); [apply Hl; auto; eapply nth_error_In; eauto|]. cbn [rbind].
    replace (x + oversize) with x by lia. destruct (at_total cost x) as (k & -> & _); [lia|]. destruct (at_total lengths b L2) as (len & -> & _). destruct (at_total cat x Lx) as (s & -> & _). cbn [rbind].
    apply IH; auto. intros; apply H; now right.
  - cbn [rbind]. apply IH; auto. intros; apply H; now right.
Qed.
End Options.

Lemma investment_option_eq cat cost lengths oversize n c : investment_option cat cost lengths oversize n c = foldM (step_option cat cost lengths oversize c) (seq 0 n) (mkOpt 0 [] []).
Proof. reflexivity. Qed.

(** ** Lists given as text *)

Lemma text_digits sep l : (forall a, In a sep -> is_digit a = false) -> Forall digits l ->
  text_to_list (text_of sep l) = map (fun d => inject_Z (Z.of_nat d)) (List.concat l).
Proof.
  intros Hs Hd. assert (S0 : filter is_digit sep = []) by (now apply filter_none). unfold text_to_list.
  induction Hd as [|ds l D _ IH]; cbn [text_of List.concat map]; [now rewrite S0|].
  rewrite !filter_app, S0. cbn [app]. rewrite !map_app, IH. f_equal. clear - D. induction D as [|d ds Hd _ IH]; cbn [map filter]; auto.
  rewrite digit_char_is by auto. cbn [map]. now rewrite digit_char_value, IH by auto.
Qed.

(** ** Saved results *)

Lemma report_gen nodes lines costs : forall yrs k acc, (forall i, i < List.length yrs -> exists n, nth_error nodes (k + i) = Some n /\ n < List.length lines /\ n < List.length costs) ->
  exists r, foldM (fun acc iy =>
      do n <- at_ nodes (fst iy);
      do l <- at_ lines n;
      do c <- at_ costs n;
      Ok (mkReport (rp_years acc ++ [(snd iy, (l, c))]) c)) (combine (seq k (List.length yrs)) yrs) acc = Ok r /\
    rp_years r = rp_years acc ++ map (fun iy => let n := nth (fst iy) nodes 0 in (snd iy, (nth n lines [], nth n costs 0%Q))) (combine (seq k (List.length yrs)) yrs) /\
    (yrs <> [] -> rp_total r = nth (nth (k + List.length yrs - 1) nodes 0) costs 0%Q).
Proof.
  induction yrs as [|y yrs IH]; intros k acc H.
  - exists acc. cbn. rewrite List.app_nil_r. sp; auto. congruence.
  - cbn [List.length seq combine foldM fst snd map]. destruct (H 0) as (n & Hn & L1 & L2); [cbn; lia|]. rewrite Nat.add_0_r in Hn.
    unfold at_ at 1. rewrite Hn. cbn [rbind]. destruct (at_total lines n L1) as (l & -> & Hl). destruct (at_total costs n L2) as (c & -> & Hc). cbn [rbind].
    destruct (IH (S k) (mkReport (rp_years acc ++ [(y, (l, c))]) c)) as (r & E & Hy & Ht).
    { intros i Hi. destruct (H (S i)) as (n' & Hn' & ?); [cbn; lia|]. exists n'. split; auto. now replace (S k + i) with (k + S i) by lia. }
    exists r. sp; auto.
    + rewrite Hy. cbn [rp_years]. rewrite <- app_assoc. f_equal. cbn [app]. f_equal. rewrite (nth_error_nth _ _ 0 Hn), (nth_error_nth _ _ [] Hl), (nth_error_nth _ _ 0%Q Hc). reflexivity.
    + intros _. destruct yrs as [|y' yrs].
      * cbn in E. inversion E; subst. cbn [rp_total List.length]. replace (k + 1 - 1) with k by lia. now rewrite (nth_error_nth _ _ 0 Hn), (nth_error_nth _ _ 0%Q Hc).
      * rewrite Ht by congruence. f_equal. f_equal. cbn. lia.
Qed.

(** ** Results of the recursive planner *)

Lemma save_row_fails known n pos cap txt row : existsb (String.eqb txt) saved_keys = false -> sr_lines row <> [] -> exists e, save_row known n pos cap txt row = Err e.
Proof.
  intros T NE. unfold save_row. destruct (find_cluster (sr_lines row) pos) as [c|e]; cbn [rbind]; eauto.
  destruct (sr_lines row) as [|x xs]; [congruence|]. cbn [List.length seq foldM].
  destruct (at_ pos c) as [l|e]; cbn [rbind]; eauto. destruct (at_ l 0) as [a|e]; cbn [rbind]; eauto.
  destruct (at_ cap c) as [k|e]; cbn [rbind]; eauto. destruct (at_ k 0) as [v|e]; cbn [rbind]; eauto. rewrite T. cbn [rbind]. eauto.
Qed.

Lemma first_last_gen : forall rows k lo hi p0 p1, (p0 <> [] -> True) -> (lo < 1000 -> p0 <> [])%Z -> (forall i, In i p0 -> i < k) ->
  let r := fold_left first_last_step (combine (seq k (List.length rows)) rows) ((lo, hi), (p0, p1)) in
  (fst (fst r) <= lo)%Z /\ (forall row, In row rows -> fst (fst r) <= sr_scenario row)%Z /\ ((fst (fst r) < 1000)%Z -> fst (snd r) <> []) /\ (forall i, In i (fst (snd r)) -> i < k + List.length rows).
Proof.
  induction rows as [|row rows IH]; intros k lo hi p0 p1 T0 T1 T2; cbn [List.length seq combine fold_left].
  - cbn. sp; auto; try lia. intros i I. apply T2 in I. lia.
  - cbn [first_last_step fst snd].
    destruct (if (sr_scenario row <? lo)%Z then (sr_scenario row, []) else (lo, p0)) as [lo' p0'] eqn:E0.
    destruct (if (hi <? sr_scenario row)%Z then (sr_scenario row, []) else (hi, p1)) as [hi' p1'] eqn:E1.
    assert (F : (lo' <= lo)%Z /\ (lo' <= sr_scenario row)%Z /\ ((lo' < 1000)%Z -> (if (lo' =? sr_scenario row)%Z then p0' ++ [k] else p0') <> []) /\ forall i, In i (if (lo' =? sr_scenario row)%Z then p0' ++ [k] else p0') -> i < S k).
    { destruct (Z.ltb_spec (sr_scenario row) lo); inversion E0; subst.
      - rewrite Z.eqb_refl. sp; try lia; cbn; try congruence. intros i [<-|[]]; lia.
      - sp; try lia.
        + intros L. destruct (lo' =? sr_scenario row)%Z; [destruct p0'; discriminate|auto].
        + intros i I. destruct (lo' =? sr_scenario row)%Z; [apply in_app_iff in I as [I|[<-|[]]]|]; try lia; apply T2 in I; lia. }
    destruct F as (A & B & C & D).
    specialize (IH (S k) lo' hi' (if (lo' =? sr_scenario row)%Z then p0' ++ [k] else p0') (if (hi' =? sr_scenario row)%Z then p1' ++ [k] else p1') (fun _ => Logic.I) C D).
    destruct IH as (I1 & I2 & I3 & I4). sp; auto.
    + lia.
    + intros r [<-|Ir]; auto. lia.
    + intros i Ii. apply I4 in Ii. lia.
Qed.

Lemma first_last_first rows : rows <> [] -> (exists row, In row rows /\ sr_scenario row < 1000)%Z -> fst (first_last rows) <> [] /\ forall i, In i (fst (first_last rows)) -> i < List.length rows.
Proof.
  intros NE (row & I & L). unfold first_last.
  pose proof (first_last_gen rows 0 1000 0 [] [] (fun _ => Logic.I) ltac:(lia) ltac:(cbn; tauto)) as G.
  destruct (fold_left first_last_step (combine (seq 0 (List.length rows)) rows) ((1000%Z, 0%Z), ([], []))) as [[lo hi] [p0 p1]]. cbn [fst snd] in *.
  destruct G as (A & B & C & D). split; auto. apply C. specialize (B row I). lia.
Qed.

Lemma find_cluster_size lines : forall clusters i, find_cluster lines clusters = Ok i ->
  exists c, nth_error clusters i = Some c /\ List.length c = List.length lines /\ forall j c', j < i -> nth_error clusters j = Some c' -> List.length c' <> List.length lines.
Proof.
  assert (K : forall a b, List.length a = List.length b -> keep_searching a b = false).
  { induction a as [|x a IH]; intros [|y b] L; cbn in *; try discriminate; auto. destruct (Z.eqb x y); auto. }
  induction clusters as [|c clusters IH]; intros i H; cbn [find_cluster] in H; [discriminate|].
  destruct (Nat.eqb_spec (List.length lines) (List.length c)) as [E|NE].
  - rewrite K in H by auto. inversion H; subst. exists c. sp; auto. lia.
  - destruct (find_cluster lines clusters) as [j|]; cbn [rbind] in H; [|discriminate]. inversion H; subst. destruct (IH j eq_refl) as (c' & A & B & C). exists c'. sp; auto.
    intros [|j'] c2 L H2; cbn in H2; [inversion H2; subst; lia|]. apply (C j'); auto. lia.
Qed.

(** ** Cost of a cluster *)

Lemma cost_loop cat cost c : forall bs acc q, foldM (fun acc x => do v <- at_ c x;
      if qgt v 0 then do i <- catalogue_index cat v; do k <- at_ cost i; Ok (acc + k)%Q else Ok acc) bs acc = Ok q ->
  exists xs, Forall2 (takes cat c) (filter (fun b => negb (Qle_bool (nth b c 0%Q) 0)) bs) xs /\ (q == acc + qsum (map (fun x => nth x cost 0%Q) xs))%Q.
Proof.
  induction bs as [|b bs IH]; intros acc q H; cbn [foldM] in H.
  - inversion H; subst. exists []. cbn. split; auto. ring.
  - destruct (at_ c b) as [v|] eqn:Ev; cbn [rbind] in H; [|discriminate].
    assert (Hv : nth b c 0%Q = v) by (apply at_nth in Ev; now apply nth_error_nth). cbn [filter]. rewrite Hv. change (negb (Qle_bool v 0)) with (qgt v 0).
    destruct (qgt v 0) eqn:G.
    + destruct (catalogue_index cat v) as [x|] eqn:Ex; cbn [rbind] in H; [|discriminate].
      destruct (at_ cost x) as [k|] eqn:Ek; cbn [rbind] in H; [|discriminate].
      apply IH in H as (xs & F & Hq). exists (x :: xs). apply at_nth, nth_error_nth with (d := 0%Q) in Ek. split.
      * constructor; auto. unfold takes. rewrite Hv. now apply catalogue_index_spec.
      * rewrite Hq. cbn [map qsum fold_right]. fold (qsum (map (fun x => nth x cost 0%Q) xs)). rewrite Ek. ring.
    + cbn [rbind] in H. now apply IH in H.
Qed.

Lemma cluster_cost_spec cat cost c q : cluster_cost cat cost (List.length c) c = Ok q -> costs_of cat cost c q.
Proof. intros H. apply cost_loop in H as (xs & F & E). exists xs. split; auto. rewrite E. ring. Qed.

(** ** The choice of clusters *)

Lemma choose_picks costs : forall ideals free taken, List.length costs = List.length free -> List.length ideals <= count_true free ->
  (forall x, x < List.length costs -> (nth_error free x = Some true <-> ~ In x taken)) ->
  picks costs taken ideals (choose ideals costs free).
Proof.
  induction ideals as [|i ideals IH]; intros free taken L C T; cbn [choose picks]; auto. cbn in C.
  assert (I : In true free) by (apply count_In; lia).
  destruct (closest_nearest i costs free L I) as (c & Hc & Hf & Hn). set (x := closest i costs free) in *.
  assert (Lx : x < List.length costs) by (apply nth_error_Some; congruence).
  split.
  - exists c. sp; auto; [now apply T|]. intros x' c' Hc' Ht. apply Hn; auto. apply T; auto. apply nth_error_Some. congruence.
  - apply IH.
    + now rewrite put_length.
    + pose proof (count_put _ _ Hf). lia.
    + intros y Ly. rewrite put_nth. destruct (Nat.eqb_spec x y) as [<-|N].
      * destruct (x <? List.length free); cbn; split; intros H; try discriminate; destruct H; auto.
      * rewrite T by auto. cbn. tauto.
Qed.

Lemma linspace_nth top limit i v : 0 < limit -> nth_error (linspace (top / inject_Z (Z.of_nat limit)) top limit) i = Some v ->
  (v == top * inject_Z (Z.of_nat (S i)) / inject_Z (Z.of_nat limit))%Q.
Proof.
  intros P H. unfold linspace in H. rewrite nth_error_map in H. destruct (nth_error (seq 0 limit) i) as [j|] eqn:E; [|discriminate].
  assert (Li : i < limit). { assert (i < List.length (seq 0 limit)) by (apply nth_error_Some; congruence). now rewrite seq_length in H0. }
  apply nth_error_nth with (d := 0) in E. rewrite seq_nth in E by auto. cbn in E. subst j. cbn in H. inversion H; subst; clear H.
  rewrite inject_S. assert (N0 : ~ (inject_Z (Z.of_nat limit) == 0)%Q) by (apply Qnot_eq_sym, Qlt_not_eq, inject_pos; lia).
  destruct (Nat.eq_dec limit 1) as [->|N].
  - assert (i = 0) as -> by lia. cbn. unfold Qdiv. cbn. ring.
  - assert (N1 : ~ (inject_Z (Z.of_nat (limit - 1)) == 0)%Q) by (apply Qnot_eq_sym, Qlt_not_eq, inject_pos; lia).
    assert (EL : (inject_Z (Z.of_nat limit) == inject_Z (Z.of_nat (limit - 1)) + 1)%Q) by (rewrite <- inject_S; now replace (S (limit - 1)) with limit by lia).
    rewrite EL in *. field. auto.
Qed.

Lemma count_all {A} (l : list A) : count_true (map (fun _ => true) l) = List.length l.
Proof. unfold count_true. induction l; cbn; auto. Qed.

Lemma mapM_Forall2 {A B} (f : A -> res B) : forall l r, mapM f l = Ok r -> Forall2 (fun a b => f a = Ok b) l r.
Proof.
  induction l as [|a l IH]; intros r H; cbn [mapM] in H; [inversion H; constructor|].
  destruct (f a) as [b|] eqn:E; cbn [rbind] in H; [|discriminate]. destruct (mapM f l) as [bs|]; cbn [rbind] in H; [|discriminate]. inversion H; subst. constructor; auto.
Qed.

(** ** The screening runs *)

Section Trace.
Context {M : Type}.
Variable screen : nat -> nat -> list Q -> M -> res (list Q * list Q).
Variable cat : list Q * list Q.
Variable taps : list Q.


Definition recorded (b : nat) (rs : list (list Q * list Q)) : list Q := map (fun r => nth b (fst r) 0%Q) rs.

Hypothesis sized : forall xy xsc prev m r, screen xy xsc prev m = Ok r -> List.length (fst r) = List.length taps /\ List.length (snd r) = List.length taps.

Lemma qinsert_perm q l : Permutation (qinsert q l) (q :: l).
Proof. induction l as [|x l IH]; cbn; auto. destruct (Qle_bool q x); auto. rewrite IH. constructor. Qed.
Lemma qsort_perm l : Permutation (qsort l) l.
Proof. induction l as [|x l IH]; cbn; auto. fold (qsort l). now rewrite qinsert_perm, IH. Qed.
Lemma qinsert_sorted q l : StronglySorted Qle l -> StronglySorted Qle (qinsert q l).
Proof.
  induction 1 as [|x l S0 IH F]; cbn; [repeat constructor|]. destruct (Qle_bool q x) eqn:E.
  - apply Qle_bool_iff in E. constructor; [now constructor|]. constructor; auto. eapply Forall_impl; [|exact F]. cbn. intros; lra.
  - assert (L : (x <= q)%Q) by (destruct (Qlt_le_dec x q) as [H|H]; [lra|apply Qle_bool_iff in H; congruence]).
    constructor; auto. rewrite Forall_forall. intros y I. apply (Permutation_in _ (qinsert_perm q l)) in I as [<-|I]; auto. rewrite Forall_forall in F. auto.
Qed.
Lemma qsort_sorted l : StronglySorted Qle (qsort l).
Proof. induction l; cbn; [constructor|now apply qinsert_sorted]. Qed.

Definition dict_ok (n : nat) (dict : list (list Q)) (rs : list (list Q * list Q)) : Prop :=
  List.length dict = n /\ forall b, b < n -> Permutation (nth b dict []) (recorded b rs) /\ StronglySorted Qle (nth b dict []).

Lemma dict_step n dict rs r : dict_ok n dict rs -> List.length (fst r) = n ->
  dict_ok n (map (fun dv => qsort (fst dv ++ [snd dv])) (combine dict (fst r))) (rs ++ [r]).
Proof.
  intros [Ld Hd] Lr. split; [rewrite map_length, combine_length; lia|]. intros b Lb.
  assert (E : nth b (map (fun dv => qsort (fst dv ++ [snd dv])) (combine dict (fst r))) [] = qsort (nth b dict [] ++ [nth b (fst r) 0%Q])).
  { apply nth_error_nth. rewrite nth_error_map, (nth_error_nth' _ ([], 0%Q)) by (rewrite combine_length; lia).
    cbn [option_map]. rewrite combine_nth by lia. reflexivity. }
  rewrite E. split; [|apply qsort_sorted]. rewrite qsort_perm. unfold recorded. rewrite map_app. cbn [map]. apply Permutation_app_tail. now apply Hd.
Qed.

Lemma year_trace xy : forall l k prev temp dict clust rs0 st,
  dict_ok (List.length taps) dict rs0 ->
  foldM (screen_scenario screen cat taps xy) (combine (seq k (List.length l)) l) (prev, temp, dict, clust) = Ok st ->
  exists rs dict' cs, st = (prev, match rs with [] => temp | _ => Some (fst (last rs ([], []))) end, dict', clust ++ cs) /\
    List.length rs = List.length l /\
    (forall s m r, nth_error l s = Some m -> nth_error rs s = Some r -> screen xy (k + s) prev m = Ok r) /\
    dict_ok (List.length taps) dict' (rs0 ++ rs) /\
    Forall2 (fun r c => Forall2 (fun tv x => rounded cat (fst tv) (snd tv) x) (combine taps (snd r)) c) rs cs.
Proof.
  induction l as [|m l IH]; intros k prev temp dict clust rs0 st D H; cbn [List.length seq combine foldM] in H.
  - inversion H; subst. exists [], dict, []. rewrite !List.app_nil_r. sp; auto. intros [|s] m r A; discriminate.
  - rewrite scenario_step in H. destruct (screen xy k prev m) as [r|] eqn:Er; cbn [rbind] in H; [|discriminate].
    destruct (round_cluster cat taps (snd r)) as [c|] eqn:Ec; cbn [rbind] in H; [|discriminate].
    destruct (sized _ _ _ _ _ Er) as [L1 L2].
    destruct (IH (S k) prev (Some (fst r)) _ (clust ++ [c]) (rs0 ++ [r]) st (dict_step _ _ _ _ D L1) H) as (rs & dict' & cs & -> & Lr & Hs & D' & F).
    exists (r :: rs), dict', (c :: cs). rewrite <- !app_assoc in *. cbn [app] in *. sp; auto.
    + f_equal. f_equal. f_equal. destruct rs; reflexivity.
    + cbn. auto.
    + intros [|s] m' r' Hm Hr; cbn in Hm, Hr.
      * inversion Hm; inversion Hr; subst. now rewrite Nat.add_0_r.
      * replace (k + S s) with (S k + s) by lia. now apply Hs.
    + constructor; auto. now apply round_cluster_ok.
Qed.

Lemma years_trace : forall mult k prev temp dict clust rs0 st, Forall (fun l => l <> []) mult -> dict_ok (List.length taps) dict rs0 ->
  foldM (screen_year screen cat taps) (combine (seq k (List.length mult)) mult) (prev, temp, dict, clust) = Ok st ->
  exists recs prev' temp' dict' cs, st = (prev', temp', dict', clust ++ cs) /\ List.length recs = List.length mult /\
    (forall y l, nth_error mult y = Some l -> exists rs, nth_error recs y = Some rs /\ List.length rs = List.length l /\
       forall s m r, nth_error l s = Some m -> nth_error rs s = Some r -> screen (k + y) s (built prev (firstn y recs)) m = Ok r) /\
    dict_ok (List.length taps) dict' (rs0 ++ List.concat recs) /\
    Forall2 (fun r c => Forall2 (fun tv x => rounded cat (fst tv) (snd tv) x) (combine taps (snd r)) c) (List.concat recs) cs.
Proof.
  induction mult as [|l mult IH]; intros k prev temp dict clust rs0 st NE D H; cbn [List.length seq combine foldM] in H.
  - inversion H; subst. exists [], prev, temp, dict, []. cbn [List.concat]. rewrite !List.app_nil_r. sp; auto. intros [|y] l A; discriminate.
  - rewrite year_step in H. destruct (foldM (screen_scenario screen cat taps k) (combine (seq 0 (List.length l)) l) (prev, temp, dict, clust)) as [s1|] eqn:E1; cbn [rbind] in H; [|discriminate].
    destruct (year_trace k l 0 prev temp dict clust rs0 s1 D E1) as (rs & d1 & cs1 & -> & Lr & Hs & D1 & F1). inversion NE as [|? ? N1 N2]; subst.
    destruct rs as [|r0 rs]; [destruct l; [congruence|discriminate]|].
    destruct (IH _ _ _ _ _ _ _ N2 D1 H) as (recs & prev' & temp' & dict' & cs & -> & Lrs & Hy & D2 & F2).
    exists ((r0 :: rs) :: recs), prev', temp', dict', (cs1 ++ cs). cbn [List.concat]. rewrite <- !app_assoc in *. sp; auto.
    + cbn. auto.
    + intros [|y] l' Hl; cbn in Hl.
      * inversion Hl; subst. exists (r0 :: rs). cbn [firstn built fold_left nth_error]. rewrite Nat.add_0_r. sp; auto.
      * destruct (Hy y l' Hl) as (rs' & A & B & C). exists rs'. sp; auto. intros s m r Hm Hr. replace (k + S y) with (S k + y) by lia.
        cbn [firstn built fold_left]. now apply C.
    + now apply Forall2_app.
Qed.

Lemma screening_trace mult dict cs : Forall (fun l => l <> []) mult -> main_screening screen cat taps mult = Ok (dict, cs) ->
  exists recs, List.length recs = List.length mult /\
    (forall y l, nth_error mult y = Some l -> exists rs, nth_error recs y = Some rs /\ List.length rs = List.length l /\
       forall s m r, nth_error l s = Some m -> nth_error rs s = Some r -> screen y s (built (map (fun _ => 0%Q) taps) (firstn y recs)) m = Ok r) /\
    dict_ok (List.length taps) dict (List.concat recs) /\
    Forall2 (fun r c => Forall2 (fun tv x => rounded cat (fst tv) (snd tv) x) (combine taps (snd r)) c) (List.concat recs) cs.
Proof.
  intros NE H. unfold main_screening in H.
  destruct (foldM (screen_year screen cat taps) (combine (seq 0 (List.length mult)) mult) (map (fun _ => 0%Q) taps, None, map (fun _ => []) taps, [])) as [st|] eqn:E; cbn [rbind] in H; [|discriminate].
  assert (D0 : dict_ok (List.length taps) (map (fun _ => []) taps) []).
  { split; [now rewrite map_length|]. intros b Lb. pose proof (map_nth (fun _ : Q => @nil Q) taps 0%Q b) as Hn. cbn in Hn. rewrite Hn. split; constructor. }
  destruct (years_trace mult 0 _ _ _ _ [] st NE D0 E) as (recs & p & t & d & c & -> & L & Hy & D & F).
  inversion H; subst. exists recs. sp; auto.
Qed.
End Trace.

(** ** Small facts *)

Lemma distinct_perm {A} (R : A -> A -> Prop) l l' : (forall a b, R a b -> R b a) -> Permutation l l' -> ForallOrdPairs R l -> ForallOrdPairs R l'.
Proof.
  intros Sy P. induction P as [|x l l' P IH|x y l|l1 l2 l3 P1 IH1 P2 IH2]; intros F; auto.
  - inversion F; subst. constructor; auto. eapply Permutation_Forall; eauto.
  - inversion F as [|? ? F1 F2]; subst. inversion F2 as [|? ? F3 F4]; subst. inversion F1; subst. constructor; [constructor; auto|]. constructor; auto.
Qed.

Lemma in_combine_seq {A} : forall (l : list A) k i a, In (i, a) (combine (seq k (List.length l)) l) -> k <= i /\ nth_error l (i - k) = Some a.
Proof.
  induction l as [|x l IH]; intros k i a I; cbn in I; [destruct I|]. destruct I as [E|I].
  - inversion E; subst. rewrite Nat.sub_diag. auto.
  - apply IH in I as [L E]. split; [lia|]. now replace (i - k) with (S (i - S k)) by lia.
Qed.

Lemma in_runs {M} (mult : list (list M)) y s m : In (y, s, m) (runs_from 0 mult) -> exists l, nth_error mult y = Some l /\ nth_error l s = Some m.
Proof.
  unfold runs_from. intros I. apply in_flat_map in I as ([y' l] & I1 & I2). apply in_combine_seq in I1 as [_ E1]. rewrite Nat.sub_0_r in E1.
  unfold scenarios_of in I2. apply in_map_iff in I2 as ([s' m'] & E & I2). apply in_combine_seq in I2 as [_ E2]. rewrite Nat.sub_0_r in E2. cbn in *. inversion E; subst. eauto.
Qed.

Lemma foldM_err {A S} (f : S -> A -> res S) e : (forall s a, (exists s', f s a = Ok s') \/ f s a = Err e) ->
  forall l, (exists a, In a l /\ forall s, f s a = Err e) -> forall s, foldM f l s = Err e.
Proof.
  intros T. induction l as [|x l IH]; intros (a & I & H) s; [destruct I|]. cbn [foldM]. destruct (T s x) as [[s' E]|E]; rewrite E; cbn [rbind]; auto.
  apply IH. exists a. split; auto. destruct I as [->|I]; auto. rewrite H in E. discriminate.
Qed.

Lemma at_cases {A} (l : list A) i : (exists a, at_ l i = Ok a) \/ at_ l i = Err IndexError.
Proof. unfold at_. destruct (nth_error l i); eauto. Qed.

Lemma catalogue_index_cases cat v : (exists i, catalogue_index cat v = Ok i) \/ catalogue_index cat v = Err IndexError.
Proof. induction cat as [|c cat IH]; cbn [catalogue_index]; auto. destruct (Qeq_bool v c); eauto. destruct IH as [[i ->]| ->]; cbn [rbind]; eauto. Qed.

Lemma step_option_cases cat cost lengths ov c acc b : (exists o, step_option cat cost lengths ov c acc b = Ok o) \/ step_option cat cost lengths ov c acc b = Err IndexError.
Proof.
  unfold step_option. destruct (at_cases c b) as [[v ->]| ->]; cbn [rbind]; auto. destruct (qgt v 0); eauto.
  destruct (catalogue_index_cases cat v) as [[x ->]| ->]; cbn [rbind]; auto.
  destruct (at_cases cost (x + ov)) as [[k ->]| ->]; cbn [rbind]; auto. destruct (at_cases lengths b) as [[len ->]| ->]; cbn [rbind]; auto.
  destruct (at_cases cat (x + ov)) as [[s ->]| ->]; cbn [rbind]; eauto.
Qed.

Lemma option_fails cat cost lengths ov n c b : b < n -> (0 < nth b c 0)%Q ->
  (forall s, In s cat -> ~ (nth b c 0 == s)%Q) \/ (exists x, takes cat c b x /\ List.length cat <= x + ov) ->
  investment_option cat cost lengths ov n c = Err IndexError.
Proof.
  intros L P H. rewrite investment_option_eq. apply foldM_err; [intros; apply step_option_cases|]. exists b. split; [apply in_seq; lia|]. intros acc.
  unfold step_option. destruct (at_ c b) as [v|e] eqn:E; cbn [rbind].
  2:{ destruct (at_cases c b) as [[v Hv]|Hv]; congruence. }
  assert (Hv : nth b c 0%Q = v) by (apply at_nth in E; now apply nth_error_nth). rewrite Hv in *. apply qgt_true in P. rewrite P.
  destruct H as [H|(x & T & Lx)].
  - now rewrite catalogue_index_none.
  - destruct T as [(s & Hs & Es) T]. rewrite Hv in *. destruct (catalogue_index_total cat v) as (x' & Ex & _); [exists s; split; auto; eapply nth_error_In; eauto|].
    destruct (catalogue_index_spec _ _ _ Ex) as [(s' & Hs' & Es') T'].
    assert (x' = x). { destruct (Nat.lt_trichotomy x' x) as [L1|[L1|L1]]; auto; exfalso; [eapply T; eauto|eapply T'; eauto]. }
    subst x'. rewrite Ex. cbn [rbind]. destruct (at_cases cost (x + ov)) as [[k ->]| ->]; cbn [rbind]; auto. destruct (at_cases lengths b) as [[len ->]| ->]; cbn [rbind]; auto.
    unfold at_. replace (nth_error cat (x + ov)) with (@None Q); auto. symmetry. now apply nth_error_None.
Qed.

Lemma report_fails nodes lines costs : forall yrs k acc, yrs <> [] -> List.length nodes < k + List.length yrs ->
  foldM (fun acc iy =>
      do n <- at_ nodes (fst iy);
      do l <- at_ lines n;
      do c <- at_ costs n;
      Ok (mkReport (rp_years acc ++ [(snd iy, (l, c))]) c)) (combine (seq k (List.length yrs)) yrs) acc = Err IndexError.
Proof.
  induction yrs as [|y yrs IH]; intros k acc NE L; [congruence|]. cbn [List.length seq combine foldM fst snd]. cbn in L.
  destruct (at_ nodes k) as [n|e] eqn:En; cbn [rbind].
  2:{ destruct (at_cases nodes k) as [[? ?]|?]; congruence. }
  destruct (at_cases lines n) as [[l ->]| ->]; cbn [rbind]; auto. destruct (at_cases costs n) as [[c ->]| ->]; cbn [rbind]; auto.
  apply at_nth in En. assert (k < List.length nodes) by (apply nth_error_Some; congruence). apply IH; [|lia]. destruct yrs; [cbn in L; lia|discriminate].
Qed.

Lemma order_last_top n l o c : order_clusters l = Ok o -> l <> [] -> rectangular n l -> chain l -> last_of o = Ok c -> forall a, In a l -> below a c.
Proof.
  intros Eo NE R C Lc a I. destruct (order_sorts n l NE R C) as (o' & E' & P & S0). rewrite Eo in E'. inversion E'; subst o'. clear E'.
  apply (Permutation_in _ P) in I. clear - Lc I S0.
  destruct (last_of_nth o) as (v & E1 & E2); [intros ->; destruct I|]. rewrite Lc in E1. inversion E1; subst v. clear E1 Lc.
  induction S0 as [|x o S0 IH F]; [destruct I|]. destruct o as [|y o].
  - cbn in E2. inversion E2; subst. destruct I as [<-|[]]. apply below_refl.
  - replace (List.length (x :: y :: o) - 1) with (S (List.length (y :: o) - 1)) in E2 by (cbn; lia). cbn [nth_error] in E2.
    destruct I as [<-|I]; [|auto]. rewrite Forall_forall in F. apply F. eapply nth_error_In; eauto.
Qed.
