(** Lemmas about node networks, cost tables, factors and the planning run. *)
From Coq Require Import List String Bool Arith ZArith QArith Qpower Qfield Lia Lqa Permutation Sorted.
From Verif Require Import Base Graph GraphData GraphDataProofs Reader Cases CasesSpec CasesProofs CasesClusters CasesOutputs Properties_Cases Verification VerificationSpec VerificationProofs.
Import ListNotations.
Open Scope nat_scope.
Open Scope list_scope.

Local Ltac sp := repeat match goal with |- _ /\ _ => split end.

(** ** Networks of nodes *)

Lemma add_loads_ok n a : (forall d, In d (v_loads n) -> vd_bus d < List.length a) ->
  exists n', add_loads n a = Ok n' /\ v_ext n' = v_ext n /\ v_gen n' = v_gen n /\ v_cost n' = v_cost n /\
    v_loads n' = map (fun d => mkVD (vd_bus d) (vd_p d + nth (vd_bus d) a 0)%Q (vd_q d)) (v_loads n).
Proof.
  intros H. unfold add_loads. rewrite (mapM_map _ (fun d => mkVD (vd_bus d) (vd_p d + nth (vd_bus d) a 0)%Q (vd_q d))).
  - cbn [rbind]. eexists. sp; reflexivity.
  - intros d I. destruct (nth_error a (vd_bus d)) as [x|] eqn:E; [|apply nth_error_None in E; specialize (H d I); lia]. now rewrite (nth_error_nth _ _ 0%Q E).
Qed.

Lemma replace_ext_loads n : v_loads (replace_ext_grid n) = v_loads n.
Proof. unfold replace_ext_grid. destruct (List.length (v_ext n) =? 1); reflexivity. Qed.

Lemma node_net_ok base use adds years y f m : covered base use adds years -> y < years ->
  exists n, node_net base use adds y (f :: m) = Ok n /\
    Forall2 (fun d d' => vd_bus d' = vd_bus d /\ (vd_p d' == vd_p d * f + added use adds y (vd_bus d))%Q /\ (vd_q d' == vd_q d * f)%Q) (v_loads base) (v_loads n).
Proof.
  intros C Hy. unfold node_net, added. cbn [at_ nth_error].
  assert (G : forall (h : vload -> vload) ls, (forall d, In d ls -> vd_bus (h d) = vd_bus d /\ (vd_p (h d) == vd_p d * f + added use adds y (vd_bus d))%Q /\ (vd_q (h d) == vd_q d * f)%Q) ->
    Forall2 (fun d d' => vd_bus d' = vd_bus d /\ (vd_p d' == vd_p d * f + added use adds y (vd_bus d))%Q /\ (vd_q d' == vd_q d * f)%Q) ls (map h ls)).
  { intros h ls. induction ls as [|d ls IH]; intros H; cbn [map]; constructor; [apply H; now left|apply IH; intros; apply H; now right]. }
  destruct use; cbn [andb].
  - destruct (C eq_refl) as (L & H0 & H). clear C. destruct (Nat.eqb_spec y 0) as [->|Ny]; cbn [negb].
    + cbn [rbind]. destruct (add_loads_ok (scale_loads base f) (repeat 0%Q (List.length (v_kv base)))) as (n' & -> & _ & _ & _ & En).
      { intros d I. rewrite repeat_length. unfold scale_loads, with_loads in I. cbn [v_loads] in I. apply in_map_iff in I as (d0 & <- & I). cbn [vd_bus]. auto. }
      cbn [rbind]. eexists. split; [reflexivity|]. rewrite replace_ext_loads, En. unfold scale_loads, with_loads. cbn [v_loads]. rewrite map_map. unfold added in G. cbn [andb Nat.eqb negb] in G. apply G.
      intros d I. cbn [vd_bus vd_p vd_q]. sp; auto; try reflexivity. rewrite nth_repeat. reflexivity.
    + destruct (at_total [2020; 2030; 2040; 2050] y) as (? & -> & _); [cbn; lia|]. cbn [rbind]. destruct (H y ltac:(lia)) as (a & Ea & Ha). rewrite Ea. cbn [rbind].
      destruct (add_loads_ok (scale_loads base f) a) as (n' & -> & _ & _ & _ & En).
      { intros d I. unfold scale_loads, with_loads in I. cbn [v_loads] in I. apply in_map_iff in I as (d0 & <- & I). cbn [vd_bus]. auto. }
      cbn [rbind]. eexists. split; [reflexivity|]. rewrite replace_ext_loads, En. unfold scale_loads, with_loads. cbn [v_loads]. rewrite map_map. unfold added in G.
      apply Nat.eqb_neq in Ny. rewrite Ny, Ea in G. cbn [andb negb] in G. apply G. intros d I. cbn [vd_bus vd_p vd_q]. sp; auto; reflexivity.
  - cbn [rbind]. eexists. split; [reflexivity|]. rewrite replace_ext_loads. unfold scale_loads, with_loads. cbn [v_loads]. unfold added in G. cbn [andb] in G. apply G.
    intros d I. cbn [vd_bus vd_p vd_q]. sp; auto; try reflexivity. ring.
Qed.

(** ** Multipliers *)

Lemma mult_for_bus_ok multiplier flex nbus :
  (forall y l k, nth_error multiplier y = Some l -> k < List.length l -> exists f g, nth_error flex y = Some f /\ nth_error f k = Some g) ->
  exists mb, mult_for_bus [] multiplier flex nbus = Ok mb /\ List.length mb = List.length multiplier /\
    forall y l, nth_error multiplier y = Some l -> exists ml, nth_error mb y = Some ml /\ List.length ml = List.length l /\
      forall k m, nth_error l k = Some m -> nth_error ml k = Some (repeat (m * nth k (nth y flex []) 0)%Q nbus).
Proof.
  intros H. unfold mult_for_bus.
  rewrite (mapM_map _ (fun ym => map (fun sm => repeat (snd sm * nth (fst sm) (nth (fst ym) flex []) 0)%Q nbus) (combine (seq 0 (List.length (snd ym))) (snd ym)))).
  - eexists. split; [reflexivity|]. rewrite map_length, combine_length, seq_length, Nat.min_id. split; auto. intros y l Hl.
    assert (Ly : y < List.length multiplier) by (apply nth_error_Some; congruence).
    exists (map (fun sm => repeat (snd sm * nth (fst sm) (nth y flex []) 0)%Q nbus) (combine (seq 0 (List.length l)) l)). sp.
    + rewrite (combine_seq []), map_map, nth_error_map, (nth_error_nth' (seq 0 (List.length multiplier)) 0) by (now rewrite seq_length). rewrite seq_nth by auto. cbn [option_map Nat.add fst snd].
      now rewrite (nth_error_nth _ _ [] Hl).
    + now rewrite map_length, combine_length, seq_length, Nat.min_id.
    + intros k m Hm. assert (Lk : k < List.length l) by (apply nth_error_Some; congruence).
      rewrite (combine_seq 0%Q), map_map, nth_error_map, (nth_error_nth' (seq 0 (List.length l)) 0) by (now rewrite seq_length). rewrite seq_nth by auto. cbn [option_map Nat.add fst snd].
      now rewrite (nth_error_nth _ _ 0%Q Hm).
  - intros [y l] I. apply in_combine_seq in I as [_ Hl]. rewrite Nat.sub_0_r in Hl. cbn [fst snd]. apply mapM_map. intros [k m] I. apply in_combine_seq in I as [_ Hm]. rewrite Nat.sub_0_r in Hm. cbn [fst snd].
    destruct (H y l k Hl) as (f & g & Hf & Hg); [apply nth_error_Some; congruence|]. rewrite (proj2 (at_nth _ _ _) Hf). cbn [rbind]. rewrite (proj2 (at_nth _ _ _) Hg). cbn [rbind].
    now rewrite (nth_error_nth _ _ [] Hf), (nth_error_nth _ _ 0%Q Hg).
Qed.

(** ** A sorting permutation *)

Fixpoint ins (costs : list Q) (i : nat) (l : list nat) : list nat :=
  match l with
  | [] => [i]
  | j :: r => if Qle_bool (nth i costs 0%Q) (nth j costs 0%Q) then i :: l else j :: ins costs i r
  end.
Definition insertion_argsort (costs : list Q) : list nat := fold_right (ins costs) [] (seq 0 (List.length costs)).

Lemma insertion_sorts : sorts insertion_argsort.
Proof.
  intros costs. unfold insertion_argsort.
  assert (P : forall i l, Permutation (ins costs i l) (i :: l)).
  { intros i l. induction l as [|j r IH]; cbn [ins]; auto. destruct (Qle_bool _ _); auto. rewrite IH. apply perm_swap. }
  induction (seq 0 (List.length costs)) as [|i l [IP IS]]; cbn [fold_right]; [split; constructor|]. split; [rewrite P; now apply perm_skip|].
  clear IP. induction IS as [|j r St IH F]; cbn [ins]; [repeat constructor|]. destruct (Qle_bool (nth i costs 0%Q) (nth j costs 0%Q)) eqn:E.
  - apply Qle_bool_iff in E. repeat constructor; auto. rewrite Forall_forall in *. intros x I. specialize (F x I). lra.
  - constructor; auto. assert (E' : (nth j costs 0 < nth i costs 0)%Q) by (apply Qnot_le_lt; intros A; apply Qle_bool_iff in A; congruence).
    rewrite Forall_forall in *. intros x I. apply (Permutation_in _ (P i r)) in I as [<-|I]; auto. lra.
Qed.

(** ** Monotone OPF *)

Lemma Forall2_nth_rel {A B} (R : A -> B -> Prop) : forall l l', List.length l = List.length l' ->
  (forall k x y, nth_error l k = Some x -> nth_error l' k = Some y -> R x y) -> Forall2 R l l'.
Proof.
  induction l as [|a l IH]; intros [|b l'] L H; try discriminate; constructor.
  - apply (H 0); reflexivity.
  - apply IH; [cbn in L; lia|]. intros k. apply (H (S k)).
Qed.

Lemma reinforced_stronger taps cs cs' n a b : reinforced_by taps cs n a -> reinforced_by taps cs' n b ->
  (forall l, In l (v_lines n) -> (0 < nth (vl_from l) (v_kv n) 0)%Q) -> (forall br, (total_at br cs <= total_at br cs')%Q) -> stronger a b.
Proof.
  intros (A1 & A2 & A3 & A4 & A5 & A6 & A7 & A8 & A9) (B1 & B2 & B3 & B4 & B5 & B6 & B7 & B8 & B9) V T. unfold stronger. sp; try congruence.
  - apply Forall2_nth_rel; [congruence|]. intros k x y Hx Hy.
    assert (Lk : k < List.length (v_lines n)) by (rewrite <- A6; apply nth_error_Some; congruence).
    destruct (nth_error (v_lines n) k) as [l|] eqn:El; [|apply nth_error_None in El; lia]. destruct (A8 k l El) as (x' & Ex & Fx & Mx). destruct (B8 k l El) as (y' & Ey & Fy & My).
    rewrite Hx in Ex. rewrite Hy in Ey. inversion Ex; inversion Ey; subst x' y'. split; [congruence|]. rewrite Mx, My. apply Qplus_le_r. apply Qmult_le_compat_r; [apply T|].
    apply Qinv_le_0_compat. specialize (V l (nth_error_In _ _ El)). lra.
  - apply Forall2_nth_rel; [congruence|]. intros k x y Hx Hy.
    assert (Lk : k < List.length (v_trafo n)) by (rewrite <- A7; apply nth_error_Some; congruence).
    destruct (nth_error (v_trafo n) k) as [l|] eqn:El; [|apply nth_error_None in El; lia]. destruct (A9 k l El) as (x' & Ex & Mx). destruct (B9 k l El) as (y' & Ey & My).
    rewrite Hx in Ex. rewrite Hy in Ey. inversion Ex; inversion Ey; subst x' y'. rewrite Mx, My. specialize (T (nth k (trafo_branches taps) 0)). lra.
Qed.

Lemma total_nonneg br cs : Forall (Forall (fun v => 0 <= v)%Q) cs -> (0 <= total_at br cs)%Q.
Proof.
  induction 1 as [|c cs Hc _ IH]; unfold total_at, qsum in *; cbn [map fold_right]; [lra|]. enough (0 <= nth br c 0)%Q by lra.
  destruct (Nat.lt_ge_cases br (List.length c)); [rewrite Forall_forall in Hc; apply Hc; now apply nth_In|rewrite nth_overflow by auto; lra].
Qed.

Lemma total_member br cs c : Forall (Forall (fun v => 0 <= v)%Q) cs -> In c cs -> (total_at br [c] <= total_at br cs)%Q.
Proof.
  intros F. revert c. induction F as [|c cs Hc F IH]; intros c' I; [destruct I|]. unfold total_at, qsum in *. cbn [map fold_right]. pose proof (total_nonneg br cs F) as N. unfold total_at, qsum in N.
  destruct I as [<-|I]; [lra|]. specialize (IH c' I). cbn [map fold_right] in IH.
  enough (0 <= nth br c 0)%Q by lra. destruct (Nat.lt_ge_cases br (List.length c)); [rewrite Forall_forall in Hc; apply Hc; now apply nth_In|rewrite nth_overflow by auto; lra].
Qed.

Lemma cheaper_fail opf taps sorted n0 found j c n1 : (forall a b, stronger a b -> opf a = true -> opf b = true) ->
  Forall (Forall (fun v => 0 <= v)%Q) sorted -> (forall l, In l (v_lines n0) -> (0 < nth (vl_from l) (v_kv n0) 0)%Q) ->
  searched opf taps sorted n0 found -> nth_error sorted j = Some c -> match found with Some i => j < i | None => True end -> reinforced_by taps [c] n0 n1 -> opf n1 = false.
Proof.
  intros M N V (nets & L & R & H) Hc Hj R1. destruct (opf n1) eqn:E; auto. exfalso.
  destruct (nth_error nets j) as [nj|] eqn:Ej. 2:{ apply nth_error_None in Ej. assert (j < List.length sorted) by (apply nth_error_Some; congruence). lia. }
  assert (St : stronger n1 nj).
  { apply (reinforced_stronger taps [c] (firstn (S j) sorted) n0); auto. intros br. apply total_member.
    - rewrite Forall_forall in *. intros x I. apply N. rewrite <- (firstn_skipn (S j) sorted). apply in_app_iff. now left.
    - apply nth_error_In with (n := j). rewrite <- Hc. clear. revert j. induction sorted as [|x r IH]; intros [|j]; cbn; auto. apply IH. }
  apply M in St; auto. destruct found as [i|].
  - destruct H as (n' & _ & _ & F). rewrite (F j nj Hj Ej) in St. discriminate.
  - rewrite (H j nj Ej) in St. discriminate.
Qed.

(** ** Cost tables *)

Lemma set_all (val : nat -> res Q) : forall n k costs, (forall g, k <= g < k + n -> exists v, val g = Ok v) -> k + n <= List.length costs -> Forall (fun r => r <> []) costs ->
  exists costs', foldM (fun cs g => do v <- val g; set_first cs g v) (seq k n) costs = Ok costs' /\ List.length costs' = List.length costs /\ Forall (fun r => r <> []) costs' /\
    forall i row, nth_error costs i = Some row -> exists row', nth_error costs' i = Some row' /\
      if (k <=? i) && (i <? k + n) then exists v, val i = Ok v /\ same_but_first v row row' else row' = row.
Proof.
  induction n as [|n IH]; intros k costs V L NE; cbn [seq foldM].
  - exists costs. sp; auto. intros i row H. exists row. sp; auto. destruct (Nat.leb_spec k i), (Nat.ltb_spec i (k + 0)); cbn [andb]; auto; lia.
  - destruct (V k ltac:(lia)) as (v & Ev). rewrite Ev. cbn [rbind]. unfold set_first at 1.
    destruct (at_total costs k ltac:(lia)) as (row & -> & Hrow). cbn [rbind]. destruct row as [|x r]; [rewrite Forall_forall in NE; exfalso; apply (NE []); auto; eapply nth_error_In; eauto|].
    cbn [rbind put]. destruct (IH (S k) (put costs k (v :: r))) as (costs' & E & L' & NE' & H).
    { intros g Hg. apply V. lia. } { rewrite put_length. lia. }
    { rewrite Forall_forall in *. intros y I. apply In_nth_error in I as (i & Hi). rewrite put_nth in Hi. destruct (k =? i); [destruct (k <? List.length costs); inversion Hi; discriminate|]. apply NE. eapply nth_error_In; eauto. }
    rewrite put_length in *. exists costs'. sp; auto. intros i row Hi. destruct (Nat.eq_dec i k) as [->|Ni].
    + destruct (H k (v :: r)) as (row' & Hr & P). { rewrite put_nth, Nat.eqb_refl. replace (k <? List.length costs) with true; auto. symmetry. apply Nat.ltb_lt. lia. }
      exists row'. sp; auto. replace (S k <=? k) with false in P by (symmetry; apply Nat.leb_gt; lia). cbn [andb] in P. subst row'.
      replace (k <=? k) with true by (symmetry; apply Nat.leb_le; lia). replace (k <? k + S n) with true by (symmetry; apply Nat.ltb_lt; lia). cbn [andb].
      exists v. sp; auto. rewrite Hrow in Hi. inversion Hi. exists x, r. auto.
    + destruct (H i row) as (row' & Hr & P). { rewrite put_nth. destruct (Nat.eqb_spec k i); [lia|auto]. } exists row'. sp; auto.
      replace ((k <=? i) && (i <? k + S n)) with ((S k <=? i) && (i <? S k + n)); auto. destruct (Nat.leb_spec (S k) i), (Nat.leb_spec k i), (Nat.ltb_spec i (S k + n)), (Nat.ltb_spec i (k + S n)); cbn; auto; lia.
Qed.

Lemma record_ok nbranch ngen rates costs : nbranch <= List.length rates -> ngen <= List.length costs -> Forall (fun r => r <> []) costs ->
  record_values nbranch ngen rates costs = Ok (firstn nbranch rates, map (fun r => hd 0%Q r) (firstn ngen costs)).
Proof.
  intros Lb Lg NE. unfold record_values.
  assert (F : forall A (l : list A) (d : A) n, n <= List.length l -> map (fun i => nth i l d) (seq 0 n) = firstn n l).
  { clear. intros A l d n L. apply nth_ext with (d := d) (d' := d); [rewrite map_length, seq_length, firstn_length; lia|]. rewrite map_length, seq_length. intros i Hi.
    rewrite (nth_indep _ d (nth 0 l d)) by (rewrite map_length, seq_length; auto). rewrite (map_nth (fun i => nth i l d)), seq_nth by auto. cbn [Nat.add].
    rewrite <- (firstn_skipn n l) at 1. rewrite app_nth1; auto. rewrite firstn_length. lia. }
  rewrite (mapM_map _ (fun i => nth i rates 0%Q)). 2:{ intros i I. apply in_seq in I. apply at_nth. apply nth_error_nth'. lia. }
  rewrite F by auto. cbn [rbind]. rewrite (mapM_map _ (fun i => hd 0%Q (nth i costs []))).
  - rewrite <- (F _ costs [] ngen Lg), map_map. reflexivity.
  - intros i I. apply in_seq in I. unfold first_coefficient. destruct (at_total costs i ltac:(lia)) as (row & -> & Hrow). cbn [rbind]. rewrite (nth_error_nth _ _ [] Hrow).
    destruct row as [|x r]; [rewrite Forall_forall in NE; exfalso; apply (NE []); auto; eapply nth_error_In; eauto|reflexivity].
Qed.



(** ** Factors *)

Lemma Qpow_S (x : Q) n : (x ^ Z.of_nat (S n) == x * x ^ Z.of_nat n)%Q.
Proof. rewrite Nat2Z.inj_succ. unfold Z.succ. rewrite Qpower_plus' by lia. change (x ^ 1)%Q with x. ring. Qed.

Lemma Qpow_nonzero (x : Q) n : ~ (x == 0)%Q -> ~ (x ^ Z.of_nat n == 0)%Q.
Proof. intros H. apply Qpower_not_0. auto. Qed.

Lemma Qpow_gt1 (x : Q) n : (1 < x)%Q -> (1 < x ^ Z.of_nat (S n))%Q.
Proof. intros H. induction n as [|n IH]; [rewrite Qpow_S; change (x ^ Z.of_nat 0)%Q with 1%Q; lra|]. rewrite Qpow_S. nra. Qed.

Lemma Qpow_lt1 (x : Q) n : (0 <= x)%Q -> (x < 1)%Q -> (x ^ Z.of_nat (S n) < 1)%Q /\ (0 <= x ^ Z.of_nat (S n))%Q.
Proof.
  intros H0 H1. induction n as [|n [IH IP]]; [rewrite Qpow_S; change (x ^ Z.of_nat 0)%Q with 1%Q; lra|]. rewrite Qpow_S. nra.
Qed.

Lemma Qpow_even (x : Q) n : (x ^ Z.of_nat (n * 2) == (x * x) ^ Z.of_nat n)%Q.
Proof. induction n as [|n IH]; [reflexivity|]. cbn [Nat.mul Nat.add]. rewrite !Qpow_S, IH. ring. Qed.

Lemma ten_pow_one (x : Q) m : 0 < m -> (x ^ Z.of_nat (m * 10) == 1)%Q <-> (x == 1)%Q \/ (x == -1)%Q.
Proof.
  intros Hm. replace (m * 10) with ((m * 5) * 2) by lia. rewrite Qpow_even. destruct (m * 5) as [|n] eqn:E; [lia|]. split.
  - intros H. assert (S1 : (x * x == 1)%Q).
    { destruct (Qlt_le_dec 1 (x * x)) as [A|A]; [pose proof (Qpow_gt1 _ n A); lra|]. destruct (Qlt_le_dec (x * x) 1) as [B|B]; [|lra].
      destruct (Qpow_lt1 (x * x) n) as [C _]; [nra|auto|]. lra. }
    assert (F : ((x - 1) * (x + 1) == 0)%Q) by (ring_simplify; lra). apply Qmult_integral in F as [F|F]; [left|right]; lra.
  - intros H. assert (S1 : (x * x == 1)%Q) by (destruct H as [-> | ->]; reflexivity). rewrite S1. clear. induction n as [|n IH]; [reflexivity|]. rewrite Qpow_S, IH. reflexivity.
Qed.

(** Present value of one unit paid at the end of each of [n] years. *)
Fixpoint present_value (d : Q) (n : nat) : Q :=
  match n with 0 => 0%Q | S k => (present_value d k + / ((1 + d) ^ Z.of_nat (S k)))%Q end.

Lemma annuity d n : ~ (1 + d == 0)%Q -> (d * present_value d n * (1 + d) ^ Z.of_nat n == (1 + d) ^ Z.of_nat n - 1)%Q.
Proof.
  intros H. induction n as [|n IH]; [cbn; ring|]. cbn [present_value]. pose proof (Qpow_nonzero (1 + d) n H) as N. pose proof (Qpow_nonzero (1 + d) (S n) H) as N'. rewrite Qpow_S in *.
  set (p := ((1 + d) ^ Z.of_nat n)%Q) in *. transitivity (d * present_value d n * p * (1 + d) + d)%Q; [field; auto|]. rewrite IH. ring.
Qed.

Lemma fdiv_ok a b : ~ (b == 0)%Q -> fdiv a b = Ok (a / b)%Q.
Proof. intros H. unfold fdiv. destruct (Qeq_bool b 0) eqn:E; auto. apply Qeq_bool_iff in E. tauto. Qed.

Lemma factors_ok d years : years <= 1 \/ (~ d == 1 /\ ~ d == 0 /\ ~ d == -2)%Q ->
  get_factors d years = Ok (map (fun y => 1 / (1 - d) ^ Z.of_nat y)%Q (seq 0 years),
    map (fun xy => if xy =? 0 then 1%Q else (d * (1 + d) ^ Z.of_nat (xy * 10) / ((1 + d) ^ Z.of_nat (xy * 10) - 1))%Q) (seq 0 years)).
Proof.
  intros H. unfold get_factors. rewrite (mapM_map _ (fun y => 1 / (1 - d) ^ Z.of_nat y)%Q).
  - cbn [rbind]. rewrite (mapM_map _ (fun xy => if xy =? 0 then 1%Q else (d * (1 + d) ^ Z.of_nat (xy * 10) / ((1 + d) ^ Z.of_nat (xy * 10) - 1))%Q)); [reflexivity|].
    intros xy I. apply in_seq in I. destruct (Nat.eqb_spec xy 0); auto. apply fdiv_ok. intros A. destruct H as [H|(H1 & H2 & H3)]; [lia|].
    assert (B : ((1 + d) ^ Z.of_nat (xy * 10) == 1)%Q) by lra. apply ten_pow_one in B as [B|B]; [lra|lra|lia].
  - intros y I. apply in_seq in I. apply fdiv_ok. destruct (Nat.eq_dec y 0) as [->|]; [discriminate|]. apply Qpow_nonzero. destruct H as [H|(H1 & _)]; [lia|]. intros A. apply H1. lra.
Qed.

Lemma mapM_first_err {A B} (f : A -> res B) e : forall l, (exists a, In a l /\ f a = Err e) -> (forall a, In a l -> f a = Err e \/ exists b, f a = Ok b) -> mapM f l = Err e.
Proof.
  induction l as [|a l IH]; intros (x & I & E) H; [destruct I|]. cbn [mapM]. destruct (H a (or_introl eq_refl)) as [Ea|(b & Ea)]; rewrite Ea; cbn [rbind]; auto.
  rewrite IH; auto; [|intros; apply H; now right]. destruct I as [->|I]; [congruence|eauto].
Qed.

Lemma fdiv_cases a b : fdiv a b = Err ZeroDivisionError \/ exists c, fdiv a b = Ok c.
Proof. unfold fdiv. destruct (Qeq_bool b 0); eauto. Qed.

Lemma factors_fail d years : 1 < years -> (d == 1 \/ d == 0 \/ d == -2)%Q -> get_factors d years = Err ZeroDivisionError.
Proof.
  intros L H. unfold get_factors. destruct (Qeq_dec d 1) as [D|D].
  - rewrite (mapM_first_err _ ZeroDivisionError); [reflexivity| |intros; apply fdiv_cases]. exists 1. split; [apply in_seq; lia|]. unfold fdiv.
    replace (Qeq_bool ((1 - d) ^ Z.of_nat 1) 0) with true; auto. symmetry. apply Qeq_bool_iff. change ((1 - d) ^ Z.of_nat 1)%Q with (1 - d)%Q. lra.
  - destruct (mapM_total (fun y => fdiv 1 ((1 - d) ^ Z.of_nat y)) (seq 0 years)) as (r & ->).
    { intros y _. eexists. apply fdiv_ok. apply Qpow_nonzero. intros A. apply D. lra. }
    cbn [rbind]. rewrite (mapM_first_err _ ZeroDivisionError); [reflexivity| |].
    + exists 1. split; [apply in_seq; lia|]. cbn [Nat.eqb]. unfold fdiv. replace (Qeq_bool ((1 + d) ^ Z.of_nat (1 * 10) - 1) 0) with true; auto. symmetry. apply Qeq_bool_iff.
      enough ((1 + d) ^ Z.of_nat (1 * 10) == 1)%Q by lra. apply ten_pow_one; [lia|]. destruct H as [H|[H|H]]; [tauto|left|right]; lra.
    + intros xy _. destruct (xy =? 0); eauto. apply fdiv_cases.
Qed.

(** ** The planning run *)

Lemma planning_spec s w clusters : plannable s w clusters -> clusters <> [] ->
  exists mb sorted, mult_for_bus [] (se_multiplier s) (se_flex s) (List.length (se_pd s)) = Ok mb /\
    Permutation sorted (clusters ++ [repeat 0%Q w]) /\ StronglySorted (fun a b => qsum a <= qsum b)%Q sorted /\
    ((planning_run s clusters (mkFiles clusters mb) = Ok NoFeasiblePlan /\
      exists y k n0, y < List.length (se_yrs s) /\ k < 2 ^ y /\
        node_net (se_base s) (se_update s) (se_additions s) y (repeat (growth_at s y k) (List.length (se_pd s))) = Ok n0 /\ searched (se_opf s) (se_taps s) sorted n0 None) \/
     (exists a l, planning_run s clusters (mkFiles clusters mb) = Ok (Saved a l) /\
      List.length (rp_years a) = List.length (se_yrs s) /\ List.length (rp_years l) = List.length (se_yrs s) /\
      forall y yr, nth_error (se_yrs s) y = Some yr -> exists ea el, nth_error (rp_years a) y = Some (yr, ea) /\ nth_error (rp_years l) y = Some (yr, el) /\
        reported_at (se_opf s) (se_taps s) (se_base s) (se_update s) (se_additions s) sorted y (growth_at s y 0) (List.length (se_pd s)) ea /\
        reported_at (se_opf s) (se_taps s) (se_base s) (se_update s) (se_additions s) sorted y (growth_at s y (2 ^ y - 1)) (List.length (se_pd s)) el)).
Proof.
  intros (Y0 & Y4 & Lm & Lf & Tm & Tf & Pd & Lq & Sc & Ov & So & Cv & R & Li & Lc & Lw & F) NE.
  assert (P1 : forall i, 1 <= 2 ^ i) by (intros i; pose proof (Nat.pow_nonzero 2 i); lia).
  destruct (mult_for_bus_ok (se_multiplier s) (se_flex s) (List.length (se_pd s))) as (mb & Emb & Lmb & Hmb).
  { intros y l k Hl Hk. assert (y < List.length (se_flex s)) by (rewrite Lf, <- Lm; apply nth_error_Some; congruence). destruct (nth_error (se_flex s) y) as [f|] eqn:Ef; [|apply nth_error_None in Ef; lia].
    exists f. destruct (nth_error f k) as [g|] eqn:Eg; [eauto|]. apply nth_error_None in Eg. rewrite (Tf _ _ Ef) in Eg. rewrite (Tm _ _ Hl) in Hk. lia. }
  assert (Hnode : forall y k, y < List.length (se_yrs s) -> k < 2 ^ y -> exists ml, nth_error mb y = Some ml /\ nth_error ml k = Some (repeat (growth_at s y k) (List.length (se_pd s)))).
  { intros y k Hy Hk. destruct (nth_error (se_multiplier s) y) as [l|] eqn:El; [|apply nth_error_None in El; lia]. destruct (Hmb y l El) as (ml & Eml & _ & Hk'). exists ml. split; auto.
    destruct (nth_error l k) as [m|] eqn:Em; [|apply nth_error_None in Em; rewrite (Tm _ _ El) in Em; lia]. rewrite (Hk' k m Em). unfold growth_at. now rewrite (nth_error_nth _ _ [] El), (nth_error_nth _ _ 0%Q Em). }
  assert (Tmb : full_tree mb).
  { intros y ml Hml. assert (y < List.length (se_multiplier s)) by (rewrite <- Lmb; apply nth_error_Some; congruence). destruct (nth_error (se_multiplier s) y) as [l|] eqn:El; [|apply nth_error_None in El; lia].
    destruct (Hmb y l El) as (ml' & Eml & L & _). rewrite Hml in Eml. inversion Eml; subst. rewrite L. eauto. }
  assert (Hall : forall y ml m, nth_error mb y = Some ml -> In m ml -> y < List.length (se_yrs s) /\ exists k, k < 2 ^ y /\ m = repeat (growth_at s y k) (List.length (se_pd s))).
  { intros y ml m Hml I. assert (Hy : y < List.length (se_yrs s)) by (rewrite <- Lm, <- Lmb; apply nth_error_Some; congruence). split; auto. apply In_nth_error in I as (k & Hk). exists k.
    assert (k < 2 ^ y) by (rewrite <- (Tmb _ _ Hml); apply nth_error_Some; congruence). split; auto. destruct (Hnode y k Hy) as (ml' & A & B); auto. congruence. }
  assert (Hnet : forall y k, y < List.length (se_yrs s) -> exists n, node_net (se_base s) (se_update s) (se_additions s) y (repeat (growth_at s y k) (List.length (se_pd s))) = Ok n).
  { intros y k Hy. destruct (se_pd s) as [|p pd]; [congruence|]. cbn [List.length repeat]. destruct (node_net_ok _ _ _ _ y (growth_at s y k) (repeat (growth_at s y k) (List.length pd)) Cv Hy) as (n & En & _). eauto. }
  destruct (verify_spec (se_opf s) (se_taps s) (se_argsort s) (se_base s) (se_update s) (se_additions s) mb clusters w So NE R F Tmb) as (sorted & lines & invest & failed & Ev & Ps & St & L1 & L2 & Hn & Hf).
  { intros y ml m Hml I. destruct (Hall y ml m Hml I) as (Hy & k & _ & ->). auto. }
  exists mb, sorted. sp; auto. unfold planning_run. destruct clusters as [|c0 cr] eqn:Ecl; [congruence|]. rewrite <- Ecl in *. clear Ecl c0 cr. rewrite Sc, Ov. rewrite scenario_rows_ok by auto. cbn [rbind].
  destruct (C65_exact (se_cat s) (se_cost s) (se_lengths s) w clusters NE R Li Lc Lw) as (opts & -> & _). cbn [rbind fi_clusters fi_mult]. rewrite Ev. cbn [rbind].
  rewrite Lmb, Lm in L1, L2. destruct failed.
  - left. split; auto. destruct (Hf eq_refl) as (y & ml & m & n0 & Hml & I & En & Hs). destruct (Hall y ml m Hml I) as (Hy & k & Hk & ->). exists y, k, n0. sp; auto.
  - right. destruct (C67_paths lines (map cost_or_zero invest) (se_yrs s) Y0 Y4) as (a & l & Es & Ya & Yl & _); [lia|rewrite map_length; lia|]. rewrite Es. cbn [rbind fst snd]. exists a, l. sp; auto.
    + now rewrite Ya, map_length, seq_length.
    + now rewrite Yl, map_length, seq_length.
    + intros y yr Hyr. assert (Hy : y < List.length (se_yrs s)) by (apply nth_error_Some; congruence).
      assert (G : forall k, k < 2 ^ y -> reported_at (se_opf s) (se_taps s) (se_base s) (se_update s) (se_additions s) sorted y (growth_at s y k) (List.length (se_pd s)) (nth (2 ^ y - 1 + k) lines [], nth (2 ^ y - 1 + k) (map cost_or_zero invest) 0%Q)).
      { intros k Hk. destruct (Hnode y k Hy Hk) as (ml & Eml & Emk). destruct (Hnet y k Hy) as (n0 & En). destruct (Hn y ml k _ n0 Eml Emk En) as (found & Hs & Hfd). destruct found as [i|]; [|destruct Hfd; discriminate].
        destruct Hfd as (c & Hc & Hl & Hi). exists n0, i, c. sp; auto. rewrite (nth_error_nth _ _ [] Hl). change 0%Q with (cost_or_zero None). rewrite map_nth. rewrite (nth_error_nth _ _ None Hi). reflexivity. }
      exists (nth (2 ^ y - 1) lines [], nth (2 ^ y - 1) (map cost_or_zero invest) 0%Q), (nth (2 ^ (y + 1) - 2) lines [], nth (2 ^ (y + 1) - 2) (map cost_or_zero invest) 0%Q). sp.
      * rewrite Ya, nth_error_map, (nth_error_nth' (seq 0 (List.length (se_yrs s))) 0) by (now rewrite seq_length). rewrite seq_nth by auto. cbn [option_map Nat.add]. now rewrite (nth_error_nth _ _ 0%Z Hyr).
      * rewrite Yl, nth_error_map, (nth_error_nth' (seq 0 (List.length (se_yrs s))) 0) by (now rewrite seq_length). rewrite seq_nth by auto. cbn [option_map]. change (0 + y) with y. rewrite (nth_error_nth _ _ 0%Z Hyr). reflexivity.
      * specialize (G 0 (P1 y)). now rewrite Nat.add_0_r in G.
      * specialize (P1 y). replace (2 ^ (y + 1) - 2) with (2 ^ y - 1 + (2 ^ y - 1)) by (rewrite Nat.pow_add_r; cbn [Nat.pow]; lia). apply G. lia.
Qed.

Lemma nothing_needed cat cost limit n l : l <> [] -> rectangular n l -> 0 < limit -> Forall (Forall (fun v => v == 0)%Q) l -> final_clusters cat cost limit l = Ok [].
Proof.
  intros NE R Hlim H0. unfold final_clusters.
  pose proof (dedupe_nonempty l NE) as ND. pose proof (dedupe_rectangular n l R) as RD. destruct (dedupe_spec l) as (D1 & D2 & _).
  assert (H0' : Forall (Forall (fun v => v == 0)%Q) (dedupe l)) by (rewrite Forall_forall in *; auto). clear H0 D2.
  destruct (dedupe l) as [|c [|c' r]] eqn:E; [congruence| |].
  - cbn [at_ nth_error rbind]. change (order_clusters [c]) with (Ok [c]). cbn [rbind List.length]. destruct (Nat.ltb_spec limit 1); [lia|]. unfold non_empty. cbn [mapM].
    destruct (has_positive_gen c []) as (b & Eb & Hb). cbn [List.length app] in Eb. rewrite Eb. cbn [rbind].
    replace b with false; [reflexivity|]. symmetry. rewrite Hb. inversion H0' as [|? ? Hc _]; subst. clear - Hc.
    induction Hc as [|v c Hv _ IH]; cbn; auto. rewrite IH. replace (qgt v 0) with false; auto. symmetry. apply qgt_false. lra.
  - exfalso. inversion D1 as [|? ? F _]; subst. inversion F as [|? ? N _]; subst. apply N. clear - H0' RD.
    inversion H0' as [|? ? H1 H2]; subst. inversion H2 as [|? ? H3 _]; subst. inversion RD as [|? ? L1 L2]; subst. inversion L2 as [|? ? L3 _]; subst.
    unfold same_cluster. clear - H1 H3 L3. revert c' H3 L3. induction H1 as [|v c Hv _ IH]; intros [|v' c'] H3 L3; try discriminate; constructor.
    + inversion H3; subst. lra.
    + apply IH; [now inversion H3|cbn in L3; lia].
Qed.
