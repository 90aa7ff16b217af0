(** Lemmas about cluster verification. *)
From Coq Require Import List String Bool Arith ZArith QArith Qpower Qfield Lia Lqa Permutation Sorted.
From Verif Require Import Base Graph GraphData GraphDataProofs Reader Cases CasesSpec CasesProofs CasesClusters CasesOutputs Verification VerificationSpec.
Import ListNotations.
Open Scope nat_scope.
Open Scope list_scope.

Local Ltac sp := repeat match goal with |- _ /\ _ => split end.

(** ** Reinforcing *)

Lemma filter_map_S (f : nat -> bool) l : filter f (map S l) = map S (filter (fun b => f (S b)) l).
Proof. induction l as [|x l IH]; cbn; auto. destruct (f (S x)); cbn; now rewrite IH. Qed.

Lemma line_branches_cons t taps : line_branches (t :: taps) = (if Qeq_bool t 0 then [0] else []) ++ map S (line_branches taps).
Proof. unfold line_branches. cbn [List.length seq]. rewrite <- seq_shift. cbn [filter nth]. rewrite filter_map_S. destruct (Qeq_bool t 0); reflexivity. Qed.

Lemma trafo_branches_cons t taps : trafo_branches (t :: taps) = (if Qeq_bool t 0 then [] else [0]) ++ map S (trafo_branches taps).
Proof. unfold trafo_branches. cbn [List.length seq]. rewrite <- seq_shift. cbn [filter nth]. rewrite filter_map_S. destruct (Qeq_bool t 0); reflexivity. Qed.

(** Everything equal except for ratings, which grow by given amounts. *)
Definition grown (n n' : vnet) (gl gt : nat -> Q) : Prop :=
  v_kv n' = v_kv n /\ v_loads n' = v_loads n /\ v_ext n' = v_ext n /\ v_gen n' = v_gen n /\ v_cost n' = v_cost n /\
  List.length (v_lines n') = List.length (v_lines n) /\ List.length (v_trafo n') = List.length (v_trafo n) /\
  (forall k l, nth_error (v_lines n) k = Some l -> exists l', nth_error (v_lines n') k = Some l' /\ vl_from l' = vl_from l /\
     (vl_max l' == vl_max l + gl k / nth (vl_from l) (v_kv n) 0)%Q) /\
  (forall k s, nth_error (v_trafo n) k = Some s -> exists s', nth_error (v_trafo n') k = Some s' /\ (s' == s + gt k)%Q).

Lemma grown_refl n : grown n n (fun _ => 0%Q) (fun _ => 0%Q).
Proof. unfold grown. sp; auto; intros k x H; exists x; sp; auto; unfold Qdiv; ring. Qed.

Lemma grown_trans a b c gl1 gt1 gl2 gt2 gl gt : grown a b gl1 gt1 -> grown b c gl2 gt2 ->
  (forall k, k < List.length (v_lines a) -> (gl k == gl1 k + gl2 k)%Q) -> (forall k, k < List.length (v_trafo a) -> (gt k == gt1 k + gt2 k)%Q) -> grown a c gl gt.
Proof.
  intros (A1 & A2 & A3 & A4 & A5 & A6 & A7 & A8 & A9) (B1 & B2 & B3 & B4 & B5 & B6 & B7 & B8 & B9) Hl Ht. unfold grown. sp; try congruence.
  - intros k l H. destruct (A8 k l H) as (l1 & H1 & F1 & E1). destruct (B8 k l1 H1) as (l2 & H2 & F2 & E2). exists l2. sp; auto; try congruence.
    rewrite E2, E1, A1, F1, Hl by (apply nth_error_Some; congruence). unfold Qdiv. ring.
  - intros k s H. destruct (A9 k s H) as (s1 & H1 & E1). destruct (B9 k s1 H1) as (s2 & H2 & E2). exists s2. sp; auto. rewrite E2, E1, Ht by (apply nth_error_Some; congruence). ring.
Qed.

Lemma grown_ext n n' gl gt gl' gt' : (forall k, k < List.length (v_lines n) -> (gl k == gl' k)%Q) -> (forall k, k < List.length (v_trafo n) -> (gt k == gt' k)%Q) ->
  grown n n' gl gt -> grown n n' gl' gt'.
Proof.
  intros Hl Ht (A1 & A2 & A3 & A4 & A5 & A6 & A7 & A8 & A9). unfold grown. sp; auto.
  - intros k l H. destruct (A8 k l H) as (l1 & H1 & F1 & E1). exists l1. sp; auto. rewrite E1, Hl by (apply nth_error_Some; congruence). reflexivity.
  - intros k s H. destruct (A9 k s H) as (s1 & H1 & E1). exists s1. sp; auto. rewrite E1, Ht by (apply nth_error_Some; congruence). reflexivity.
Qed.

Definition placed (n : vnet) : Prop := forall l, In l (v_lines n) -> vl_from l < List.length (v_kv n).

Lemma grown_placed n n' gl gt : grown n n' gl gt -> placed n -> placed n'.
Proof.
  intros (A1 & _ & _ & _ & _ & A6 & _ & A8 & _) P l I. apply In_nth_error in I as [k Hk].
  destruct (nth_error (v_lines n) k) as [l0|] eqn:E.
  - destruct (A8 k l0 E) as (l1 & H1 & F1 & _). rewrite Hk in H1. inversion H1; subst l1. rewrite F1, A1. apply P. eapply nth_error_In; eauto.
  - apply nth_error_None in E. assert (k < List.length (v_lines n')) by (apply nth_error_Some; congruence). lia.
Qed.

Lemma add_line_ok n k c : placed n -> k < List.length (v_lines n) ->
  exists n', add_line n k c = Some n' /\ grown n n' (fun j => if j =? k then c else 0%Q) (fun _ => 0%Q).
Proof.
  intros P L. unfold add_line. destruct (nth_error (v_lines n) k) as [l|] eqn:E; [|apply nth_error_None in E; lia].
  assert (Lf : vl_from l < List.length (v_kv n)) by (apply P; eapply nth_error_In; eauto).
  destruct (nth_error (v_kv n) (vl_from l)) as [v|] eqn:Ev; [|apply nth_error_None in Ev; lia].
  eexists. split; [reflexivity|]. unfold grown. cbn [with_lines v_kv v_lines v_trafo v_loads v_ext v_gen v_cost]. sp; auto.
  - now rewrite put_length.
  - intros j l0 H. rewrite put_nth, Nat.eqb_sym. destruct (Nat.eqb_spec j k) as [->|N].
    + apply Nat.ltb_lt in L. rewrite L. rewrite E in H. inversion H; subst l0. eexists; sp; [reflexivity|reflexivity|]. cbn [vl_max].
      rewrite (nth_error_nth _ _ 0%Q Ev). destruct (Qeq_dec v 0) as [Z0|Z0].
      * unfold Qdiv. rewrite Z0. setoid_replace (0 * 10 ^ 3)%Q with 0%Q by ring. change (/ 0)%Q with 0%Q. ring.
      * change (10 ^ 6)%Q with (1000000 # 1). change (10 ^ 3)%Q with (1000 # 1). field. auto.
    + exists l0. sp; auto. unfold Qdiv. ring.
  - intros j s H. exists s. sp; auto. ring.
Qed.

Lemma add_trafo_ok n k c : k < List.length (v_trafo n) ->
  exists n', add_trafo n k c = Some n' /\ grown n n' (fun _ => 0%Q) (fun j => if j =? k then c else 0%Q).
Proof.
  intros L. unfold add_trafo. destruct (nth_error (v_trafo n) k) as [s|] eqn:E; [|apply nth_error_None in E; lia].
  eexists. split; [reflexivity|]. unfold grown. cbn [with_trafo v_kv v_lines v_trafo v_loads v_ext v_gen v_cost]. sp; auto.
  - now rewrite put_length.
  - intros j l H. exists l. sp; auto. unfold Qdiv. ring.
  - intros j s0 H. rewrite put_nth, Nat.eqb_sym. destruct (Nat.eqb_spec j k) as [->|N].
    + apply Nat.ltb_lt in L. rewrite L. rewrite E in H. inversion H; subst s0. eexists; sp; reflexivity.
    + exists s0. sp; auto. ring.
Qed.

Lemma upgrade_lines_ok : forall c n k, placed n -> k + List.length c = List.length (v_lines n) ->
  exists n', upgrade_lines n k c = (n', true) /\ grown n n' (fun j => if j <? k then 0%Q else nth (j - k) c 0%Q) (fun _ => 0%Q).
Proof.
  induction c as [|x c IH]; intros n k P L; cbn [upgrade_lines].
  - exists n. split; auto. eapply grown_ext; [| |apply grown_refl]; intros j Hj; [|reflexivity]. destruct (j <? k); [reflexivity|]. now rewrite nth_overflow by (cbn; lia).
  - cbn in L. destruct (add_line_ok n k x P) as (n1 & E1 & G1); [lia|]. rewrite E1.
    destruct (IH n1 (S k)) as (n2 & E2 & G2); [eapply grown_placed; eauto| |].
    { destruct G1 as (_ & _ & _ & _ & _ & A6 & _). lia. }
    exists n2. split; auto. eapply grown_trans; [exact G1|exact G2| |intros; cbn beta; ring]. intros j Hj. cbn beta.
    destruct (Nat.ltb_spec j k), (Nat.eqb_spec j k), (Nat.ltb_spec j (S k)); try lia; try ring.
    + subst. rewrite Nat.sub_diag. cbn. ring.
    + replace (j - k) with (S (j - S k)) by lia. cbn. ring.
Qed.

Lemma upgrade_both_ok : forall c n lk tk taps, placed n -> List.length c = List.length taps ->
  lk + List.length (line_branches taps) = List.length (v_lines n) -> tk + List.length (trafo_branches taps) = List.length (v_trafo n) ->
  exists n', upgrade_both n lk tk taps c = (n', true) /\
    grown n n' (fun j => if j <? lk then 0%Q else nth (nth (j - lk) (line_branches taps) 0) c 0%Q) (fun j => if j <? tk then 0%Q else nth (nth (j - tk) (trafo_branches taps) 0) c 0%Q).
Proof.
  induction c as [|x c IH]; intros n lk tk [|t taps] P Lc Ll Lt; cbn [List.length] in Lc; try discriminate; cbn [upgrade_both].
  - exists n. split; auto. cbn in Ll, Lt. eapply grown_ext; [| |apply grown_refl]; intros j Hj; cbn beta; [destruct (Nat.ltb_spec j lk)|destruct (Nat.ltb_spec j tk)]; try reflexivity; lia.
  - rewrite line_branches_cons in *. rewrite trafo_branches_cons in *.
    assert (NS : forall i l d, i < List.length l -> nth i (map S l) d = S (nth i l 0)).
    { intros i l d H. rewrite (nth_indep _ _ (S 0)) by (now rewrite map_length). apply map_nth. }
    destruct (Qeq_bool t 0); cbn [app List.length] in *; rewrite map_length in *.
    + destruct (add_line_ok n lk x P) as (n1 & E1 & G1); [lia|]. rewrite E1.
      destruct (IH n1 (S lk) tk taps) as (n2 & E2 & G2); [eapply grown_placed; eauto|lia| | |].
      1,2: destruct G1 as (_ & _ & _ & _ & _ & A6 & A7 & _); lia.
      exists n2. split; auto. eapply grown_trans; [exact G1|exact G2| |]; intros j Hj; cbn beta.
      * destruct (Nat.ltb_spec j lk), (Nat.eqb_spec j lk), (Nat.ltb_spec j (S lk)); try lia; try ring.
        -- subst. rewrite Nat.sub_diag. cbn. ring.
        -- replace (j - lk) with (S (j - S lk)) by lia. cbn [nth]. rewrite NS by lia. cbn [nth]. ring.
      * destruct (Nat.ltb_spec j tk); [ring|]. rewrite NS by lia. cbn [nth]. ring.
    + destruct (add_trafo_ok n tk x) as (n1 & E1 & G1); [lia|]. rewrite E1.
      destruct (IH n1 lk (S tk) taps) as (n2 & E2 & G2); [eapply grown_placed; eauto|lia| | |].
      1,2: destruct G1 as (_ & _ & _ & _ & _ & A6 & A7 & _); lia.
      exists n2. split; auto. eapply grown_trans; [exact G1|exact G2| |]; intros j Hj; cbn beta.
      * destruct (Nat.ltb_spec j lk); [ring|]. rewrite NS by lia. cbn [nth]. ring.
      * destruct (Nat.ltb_spec j tk), (Nat.eqb_spec j tk), (Nat.ltb_spec j (S tk)); try lia; try ring.
        -- subst. rewrite Nat.sub_diag. cbn. ring.
        -- replace (j - tk) with (S (j - S tk)) by lia. cbn [nth]. rewrite NS by lia. cbn [nth]. ring.
Qed.

Lemma reinforced_grown taps cs n n' : reinforced_by taps cs n n' <-> grown n n' (fun k => total_at (branch_of_line taps n k) cs) (fun k => total_at (nth k (trafo_branches taps) 0) cs).
Proof. reflexivity. Qed.

Lemma upgrade_ok taps n c : fits taps n c -> exists n', upgrade taps n c = (n', true) /\ reinforced_by taps [c] n n'.
Proof.
  intros [P F]. unfold upgrade. destruct (v_trafo n) as [|s ts] eqn:Et.
  - destruct (upgrade_lines_ok c n 0 P) as (n' & E & G); [lia|]. exists n'. split; auto. apply reinforced_grown. eapply grown_ext; [| |exact G]; intros k Hk; cbn beta.
    + unfold branch_of_line. rewrite Et. cbn [Nat.ltb Nat.leb]. rewrite Nat.sub_0_r. unfold total_at. cbn. ring.
    + rewrite Et in Hk. cbn in Hk. lia.
  - destruct F as (Lc & Ll & Lt). destruct (upgrade_both_ok c n 0 0 taps P Lc) as (n' & E & G); [lia|rewrite Et; lia|]. exists n'. split; auto. apply reinforced_grown. eapply grown_ext; [| |exact G]; intros k Hk; cbn beta.
    + unfold branch_of_line. rewrite Et. cbn [Nat.ltb Nat.leb]. rewrite Nat.sub_0_r. unfold total_at. cbn. ring.
    + cbn [Nat.ltb Nat.leb]. rewrite Nat.sub_0_r. unfold total_at. cbn. ring.
Qed.

Lemma reinforced_fits taps cs n n' c : reinforced_by taps cs n n' -> fits taps n c -> fits taps n' c.
Proof.
  intros R [P F]. pose proof (proj1 (reinforced_grown _ _ _ _) R) as R0. split; [exact (grown_placed _ _ _ _ R0 P)|]. clear R0. destruct R as (_ & _ & _ & _ & _ & A6 & A7 & _).
  destruct (v_trafo n) as [|s ts], (v_trafo n') as [|s' ts']; cbn [List.length] in *; try discriminate; lia.
Qed.

Lemma total_app b l l' : (total_at b (l ++ l') == total_at b l + total_at b l')%Q.
Proof. unfold total_at, qsum. rewrite map_app, fold_right_app. induction (map (fun c => nth b c 0%Q) l) as [|q r IH]; cbn [fold_right]; [ring|]. rewrite IH. ring. Qed.

Lemma branch_same taps cs n n' k : reinforced_by taps cs n n' -> branch_of_line taps n' k = branch_of_line taps n k.
Proof. intros (_ & _ & _ & _ & _ & _ & A7 & _). unfold branch_of_line. destruct (v_trafo n), (v_trafo n'); cbn in A7; try discriminate; auto. Qed.

Lemma reinforced_refl taps n : reinforced_by taps [] n n.
Proof. apply reinforced_grown. eapply grown_ext; [| |apply grown_refl]; intros; reflexivity. Qed.

Lemma reinforced_trans taps l l' a b c : reinforced_by taps l a b -> reinforced_by taps l' b c -> reinforced_by taps (l ++ l') a c.
Proof.
  intros R1 R2. apply reinforced_grown. eapply grown_trans; [apply reinforced_grown, R1|apply reinforced_grown, R2| |]; intros k Hk; cbn beta; rewrite total_app; [|reflexivity].
  rewrite (branch_same _ _ _ _ k R1). reflexivity.
Qed.

(** ** The search at one node *)

(** The networks offered to the OPF, in order. *)
Fixpoint offers (taps : list Q) (n : vnet) (clusters : list (list Q)) : list vnet :=
  match clusters with [] => [] | c :: r => let n' := fst (upgrade taps n c) in n' :: offers taps n' r end.

Lemma offers_spec taps n : forall clusters, Forall (fits taps n) clusters ->
  List.length (offers taps n clusters) = List.length clusters /\
  forall i n', nth_error (offers taps n clusters) i = Some n' -> reinforced_by taps (firstn (S i) clusters) n n'.
Proof.
  assert (G : forall clusters m pre, reinforced_by taps pre n m -> Forall (fits taps n) clusters ->
    List.length (offers taps m clusters) = List.length clusters /\
    forall i n', nth_error (offers taps m clusters) i = Some n' -> reinforced_by taps (pre ++ firstn (S i) clusters) n n').
  { induction clusters as [|c r IH]; intros m pre R F; cbn [offers].
    - split; auto. intros [|i] n' H; discriminate.
    - inversion F as [|? ? F1 F2]; subst. destruct (upgrade_ok taps m c) as (m' & E & R'); [eapply reinforced_fits; eauto|]. rewrite E. cbn [fst].
      pose proof (reinforced_trans _ _ _ _ _ _ R R') as R2. destruct (IH m' (pre ++ [c]) R2 F2) as [L H]. cbn [List.length]. split; [now rewrite L|].
      intros [|i] n' Hi; cbn [nth_error] in Hi.
      + inversion Hi; subst. exact R2.
      + apply H in Hi. rewrite <- app_assoc in Hi. exact Hi. }
  intros clusters F. exact (G clusters n [] (reinforced_refl taps n) F).
Qed.

Lemma attempt_found opf taps : forall l n i, snd (fold_left (attempt opf taps) l (n, Some i)) = Some i.
Proof. induction l as [|ic l IH]; intros n i; cbn; auto. Qed.

Lemma node_search opf taps n : forall clusters, Forall (fits taps n) clusters ->
  match node_solution opf taps n clusters with
  | Some i => i < List.length clusters /\ exists n', nth_error (offers taps n clusters) i = Some n' /\ opf n' = true /\
              forall j m, j < i -> nth_error (offers taps n clusters) j = Some m -> opf m = false
  | None => forall j m, nth_error (offers taps n clusters) j = Some m -> opf m = false
  end.
Proof.
  assert (G : forall clusters m pre k, reinforced_by taps pre n m -> Forall (fits taps n) clusters ->
    match snd (fold_left (attempt opf taps) (combine (seq k (List.length clusters)) clusters) (m, None)) with
    | Some i => k <= i < k + List.length clusters /\ exists n', nth_error (offers taps m clusters) (i - k) = Some n' /\ opf n' = true /\
                forall j m', k + j < i -> nth_error (offers taps m clusters) j = Some m' -> opf m' = false
    | None => forall j m', nth_error (offers taps m clusters) j = Some m' -> opf m' = false
    end).
  { induction clusters as [|c r IH]; intros m pre k R F; cbn [List.length seq combine fold_left offers].
    - cbn. intros [|j] m' H; discriminate.
    - inversion F as [|? ? F1 F2]; subst. unfold attempt at 2. cbn [snd fst]. destruct (upgrade_ok taps m c) as (m' & E & R'); [eapply reinforced_fits; eauto|]. rewrite E. cbn [andb fst].
      destruct (opf m') eqn:O.
      + rewrite attempt_found. split; [lia|]. exists m'. rewrite Nat.sub_diag. sp; auto. intros; lia.
      + pose proof (reinforced_trans _ _ _ _ _ _ R R') as R2. specialize (IH m' (pre ++ [c]) (S k) R2 F2).
        destruct (snd (fold_left (attempt opf taps) (combine (seq (S k) (List.length r)) r) (m', None))) as [i|].
        * destruct IH as (B & n' & Hn & On & Hb). split; [lia|]. exists n'. replace (i - k) with (S (i - S k)) by lia. sp; auto.
          intros [|j] m2 L H; cbn in H; [inversion H; subst; auto|]. apply (Hb j); auto. lia.
        * intros [|j] m2 H; cbn in H; [inversion H; subst; auto|eauto]. }
  intros clusters F. unfold node_solution. pose proof (G clusters n [] 0 (reinforced_refl taps n) F) as H.
  destruct (snd (fold_left (attempt opf taps) (combine (seq 0 (List.length clusters)) clusters) (n, None))) as [i|]; [|exact H].
  destruct H as (B & n' & Hn & O & Hb). rewrite Nat.sub_0_r in Hn. split; [lia|]. exists n'. sp; auto.
Qed.

Lemma node_searched opf taps n clusters : Forall (fits taps n) clusters -> searched opf taps clusters n (node_solution opf taps n clusters).
Proof.
  intros F. destruct (offers_spec taps n clusters F) as [L R]. pose proof (node_search opf taps n clusters F) as H. exists (offers taps n clusters). sp; auto.
  destruct (node_solution opf taps n clusters) as [i|]; auto. destruct H as (_ & n' & A & B & C). exists n'. auto.
Qed.

Lemma node_found opf taps n clusters i : Forall (fits taps n) clusters -> node_solution opf taps n clusters = Some i -> i < List.length clusters.
Proof. intros F E. pose proof (node_search opf taps n clusters F) as H. rewrite E in H. tauto. Qed.

(** ** The network of a node *)

Lemma node_net_shape base use adds year m n : node_net base use adds year m = Ok n ->
  v_kv n = v_kv base /\ v_lines n = v_lines base /\ v_trafo n = v_trafo base.
Proof.
  unfold node_net. destruct (if use && negb (year =? 0) then _ else _) as [a|]; cbn [rbind]; [|discriminate].
  destruct (at_ m 0) as [f|]; cbn [rbind]; [|discriminate].
  destruct (if use then add_loads (scale_loads base f) a else Ok (scale_loads base f)) as [n1|] eqn:E1; cbn [rbind]; [|discriminate].
  assert (G : v_kv n1 = v_kv base /\ v_lines n1 = v_lines base /\ v_trafo n1 = v_trafo base).
  { destruct use; [|inversion E1; subst; auto]. unfold add_loads in E1. destruct (mapM _ (v_loads (scale_loads base f))) as [ls|]; cbn [rbind] in E1; [|discriminate]. inversion E1; subst. auto. }
  intros H. inversion H; subst. unfold replace_ext_grid. destruct (List.length (v_ext n1) =? 1); exact G.
Qed.

Lemma node_net_fits base use adds year m n taps c : node_net base use adds year m = Ok n -> fits taps base c -> fits taps n c.
Proof. intros H. destruct (node_net_shape _ _ _ _ _ _ H) as (A & B & C). unfold fits. now rewrite A, B, C. Qed.

(** ** All nodes *)

Section Nodes.
Variable opf : vnet -> bool.
Variable taps : list Q.
Variable nets : nat -> list Q -> res vnet.
Variable clusters : list (list Q).
Variable costs : list Q.
Hypothesis same_length : List.length costs = List.length clusters.

Definition node_result (n : vnet) : option (list Q * Q) :=
  match node_solution opf taps n clusters with
  | None => None
  | Some i => Some (nth i clusters [], nth i costs 0%Q)
  end.

Lemma nodes_loop : forall nodes k lines invest flag,
  (forall y m, In (y, m) nodes -> exists n, nets y m = Ok n /\ Forall (fits taps n) clusters) ->
  k + List.length nodes <= List.length lines -> List.length invest = List.length lines ->
  exists lines' invest' flag', foldM (verify_node opf taps nets clusters costs) (combine (seq k (List.length nodes)) nodes) (lines, invest, flag) = Ok (lines', invest', flag') /\
    List.length lines' = List.length lines /\ List.length invest' = List.length lines /\
    (forall j, j < k \/ k + List.length nodes <= j -> nth_error lines' j = nth_error lines j /\ nth_error invest' j = nth_error invest j) /\
    (forall j y m n, nth_error nodes j = Some (y, m) -> nets y m = Ok n ->
       match node_result n with
       | Some (c, q) => nth_error lines' (k + j) = Some c /\ nth_error invest' (k + j) = Some (Some q)
       | None => flag' = true /\ nth_error lines' (k + j) = nth_error lines (k + j) /\ nth_error invest' (k + j) = nth_error invest (k + j)
       end) /\
    (flag = true -> flag' = true) /\
    (flag' = true -> flag = true \/ exists y m n, In (y, m) nodes /\ nets y m = Ok n /\ node_result n = None).
Proof.
  induction nodes as [|[y m] nodes IH]; intros k lines invest flag H L Li; cbn [List.length seq combine foldM].
  - exists lines, invest, flag. sp; auto. intros [|j] ? ? ? A; discriminate.
  - destruct (H y m (or_introl eq_refl)) as (n & En & Fn). unfold verify_node at 1. cbn [fst snd]. rewrite En. cbn [rbind]. cbn [List.length] in L.
    assert (H' : forall y m, In (y, m) nodes -> exists n, nets y m = Ok n /\ Forall (fits taps n) clusters) by (intros; apply H; now right).
    destruct (node_solution opf taps n clusters) as [i|] eqn:Es.
    + pose proof (node_found _ _ _ _ _ Fn Es) as Hi. destruct (at_total clusters i Hi) as (c & Ec & Hc). destruct (at_total costs i) as (q & Eq & Hq); [lia|].
      rewrite Ec, Eq. cbn [rbind]. replace (k <? List.length lines) with true by (symmetry; apply Nat.ltb_lt; lia). cbn [rbind].
      destruct (IH (S k) (put lines k c) (put invest k (Some q)) flag H') as (lines' & invest' & flag' & E & L1 & L2 & Ho & Hn & Hf & Hf').
      { rewrite put_length. lia. } { now rewrite !put_length. }
      rewrite put_length in *. exists lines', invest', flag'. sp; auto.
      * intros j Hj. destruct (Ho j) as [A B]; [lia|]. rewrite A, B, !put_nth. destruct (Nat.eqb_spec k j); [lia|auto].
      * intros [|j] y' m' n' Hj Hn'; cbn in Hj.
        -- inversion Hj; subst. rewrite En in Hn'. inversion Hn'; subst. unfold node_result. rewrite Es. rewrite Nat.add_0_r.
           destruct (Ho k) as [A B]; [lia|]. rewrite A, B, !put_nth, Nat.eqb_refl, Li. replace (k <? List.length lines) with true by (symmetry; apply Nat.ltb_lt; lia).
           now rewrite (nth_error_nth _ _ [] Hc), (nth_error_nth _ _ 0%Q Hq).
        -- specialize (Hn j y' m' n' Hj Hn'). replace (k + S j) with (S k + j) by lia. destruct (node_result n') as [[c' q']|]; auto.
           destruct Hn as (A & B & C). rewrite B, C, !put_nth. destruct (Nat.eqb_spec k (S k + j)); [lia|auto].
      * intros F. destruct (Hf' F) as [A|(y' & m' & n' & I & A & B)]; auto. right. exists y', m', n'. sp; auto. now right.
    + cbn [rbind]. destruct (IH (S k) lines invest true H') as (lines' & invest' & flag' & E & L1 & L2 & Ho & Hn & Hf & Hf'); [lia|auto|].
      exists lines', invest', flag'. sp; auto.
      * intros j Hj. apply Ho. lia.
      * intros [|j] y' m' n' Hj Hn'; cbn in Hj.
        -- inversion Hj; subst. rewrite En in Hn'. inversion Hn'; subst. unfold node_result. rewrite Es. rewrite Nat.add_0_r. destruct (Ho k) as [A B]; [lia|]. auto.
        -- specialize (Hn j y' m' n' Hj Hn'). replace (k + S j) with (S k + j) by lia. exact Hn.
      * intros F. right. exists y, m, n. sp; auto; [now left|]. unfold node_result. now rewrite Es.
Qed.
End Nodes.

(** ** Numbering of the nodes *)

Lemma tree_nodes_at : forall mult_bus y l k m, full_tree mult_bus -> nth_error mult_bus y = Some l -> nth_error l k = Some m ->
  nth_error (tree_nodes mult_bus) (2 ^ y - 1 + k) = Some (y, m).
Proof.
  assert (P : forall i, 1 <= 2 ^ i) by (intros i; pose proof (Nat.pow_nonzero 2 i); lia).
  assert (G : forall (mult : list (list (list Q))) s, (forall i l, nth_error mult i = Some l -> List.length l = 2 ^ (s + i)) -> forall y l k m, nth_error mult y = Some l -> nth_error l k = Some m ->
    nth_error (flat_map (fun ym => map (fun m => (fst ym, m)) (snd ym)) (combine (seq s (List.length mult)) mult)) (2 ^ s * (2 ^ y - 1) + k) = Some (s + y, m)).
  { induction mult as [|l0 mult IH]; intros s F y l k m Hl Hm; [destruct y; discriminate|]. cbn [List.length seq combine flat_map fst snd].
    pose proof (F 0 l0 eq_refl) as L0. rewrite Nat.add_0_r in L0. destruct y as [|y]; cbn [nth_error] in Hl.
    - inversion Hl; subst l. cbn [Nat.pow]. rewrite Nat.sub_diag, Nat.mul_0_r, Nat.add_0_r. cbn [Nat.add]. rewrite nth_error_app1 by (rewrite map_length; apply nth_error_Some; congruence).
      rewrite nth_error_map, Hm. reflexivity.
    - assert (E : 2 ^ s * (2 ^ S y - 1) = 2 ^ s + 2 ^ S s * (2 ^ y - 1)).
      { cbn [Nat.pow]. pose proof (P y). destruct (2 ^ y) as [|q]; [lia|]. replace (2 * S q - 1) with (S (2 * q)) by lia. replace (S q - 1) with q by lia. lia. }
      assert (G : forall a b c, a + b + c - a = b + c) by (intros; lia). assert (G' : forall a b c, a <= a + b + c) by (intros; lia).
      rewrite E, nth_error_app2 by (rewrite map_length, L0; apply G'). rewrite map_length, L0, G.
      replace (s + S y) with (S s + y) by lia. apply (IH (S s)) with (l := l); auto. intros i l' Hi. replace (S s + i) with (s + S i) by lia. apply (F (S i)). exact Hi. }
  intros mult_bus y l k m F Hl Hm. pose proof (G mult_bus 0 F y l k m Hl Hm) as H. cbn [Nat.pow Nat.add] in H. rewrite Nat.mul_1_l in H. exact H.
Qed.

Lemma tree_nodes_in mult_bus y m : In (y, m) (tree_nodes mult_bus) -> exists l, nth_error mult_bus y = Some l /\ In m l.
Proof.
  unfold tree_nodes. intros I. apply in_flat_map in I as ([y' l] & I1 & I2). apply in_map_iff in I2 as (m' & E & I2). inversion E; subst.
  apply in_combine_seq in I1 as [_ E1]. rewrite Nat.sub_0_r in E1. eauto.
Qed.

Lemma tree_nodes_length mult_bus : full_tree mult_bus -> List.length (tree_nodes mult_bus) = 2 ^ List.length mult_bus - 1.
Proof.
  assert (P : forall i, 1 <= 2 ^ i) by (intros i; pose proof (Nat.pow_nonzero 2 i); lia).
  assert (G : forall (mult : list (list (list Q))) s, (forall i l, nth_error mult i = Some l -> List.length l = 2 ^ (s + i)) ->
    List.length (flat_map (fun ym => map (fun m => (fst ym, m)) (snd ym)) (combine (seq s (List.length mult)) mult)) = 2 ^ s * (2 ^ List.length mult - 1)).
  { induction mult as [|l0 mult IH]; intros s F; cbn [List.length seq combine flat_map fst snd]; [cbn; lia|].
    rewrite app_length, map_length, (F 0 l0 eq_refl), Nat.add_0_r, (IH (S s)) by (intros i l' Hi; replace (S s + i) with (s + S i) by lia; now apply (F (S i))).
    cbn [Nat.pow]. pose proof (P (List.length mult)). destruct (2 ^ List.length mult) as [|q]; [lia|]. replace (2 * S q - 1) with (S (2 * q)) by lia. replace (S q - 1) with q by lia. lia. }
  intros F. unfold tree_nodes. rewrite (G mult_bus 0 F). cbn [Nat.pow]. lia.
Qed.

(** ** Sorting *)

Lemma sorted_clusters argsort clusters : sorts argsort -> let costs := map (fun c => (qsum c * 60000)%Q) clusters in
  exists sorted scosts, mapM (at_ clusters) (argsort costs) = Ok sorted /\ mapM (at_ costs) (argsort costs) = Ok scosts /\
    Permutation sorted clusters /\ scosts = map (fun c => (qsum c * 60000)%Q) sorted /\ StronglySorted (fun a b => qsum a <= qsum b)%Q sorted.
Proof.
  intros S costs. destruct (S costs) as [P St]. set (order := argsort costs) in *. assert (Lc : List.length costs = List.length clusters) by (unfold costs; now rewrite map_length).
  assert (B : forall i, In i order -> i < List.length clusters) by (intros i I; apply (Permutation_in _ P) in I; apply in_seq in I; lia).
  assert (NC : forall i, i < List.length clusters -> nth i costs 0%Q = (qsum (nth i clusters []) * 60000)%Q).
  { intros i Hi. unfold costs. rewrite (nth_indep _ _ (qsum [] * 60000)%Q) by (now rewrite map_length). apply (map_nth (fun c => (qsum c * 60000)%Q)). }
  exists (map (fun i => nth i clusters []) order), (map (fun i => nth i costs 0%Q) order). sp.
  - apply mapM_map. intros i I. apply at_nth. apply nth_error_nth'. auto.
  - apply mapM_map. intros i I. apply at_nth. apply nth_error_nth'. rewrite Lc. auto.
  - rewrite (Permutation_map (fun i => nth i clusters []) P). rewrite Lc. clear. replace (map (fun i => nth i clusters []) (seq 0 (List.length clusters))) with clusters; auto.
    apply nth_ext with (d := []) (d' := nth 0 clusters []); [now rewrite map_length, seq_length|]. intros i Hi. rewrite (map_nth (fun i => nth i clusters [])). now rewrite seq_nth.
  - rewrite map_map. apply map_ext_in. intros i I. auto.
  - clear - St B NC. induction St as [|i order St IH F]; cbn [map]; constructor.
    + apply IH. intros; apply B; now right.
    + rewrite Forall_map. rewrite Forall_forall in *. intros j I. specialize (F j I). rewrite !NC in F by (apply B; auto; now (left + right)). lra.
Qed.

Definition unfound (n : nat) : list Q := repeat 0%Q n.

Lemma fits_length taps n c c' : List.length c = List.length c' -> fits taps n c -> fits taps n c'.
Proof. intros L [P F]. split; auto. destruct (v_trafo n); rewrite <- L; auto. Qed.

Lemma verify_spec opf taps argsort base use adds mult_bus clusters w :
  sorts argsort -> clusters <> [] -> rectangular w clusters -> Forall (fits taps base) clusters -> full_tree mult_bus ->
  (forall y l m, nth_error mult_bus y = Some l -> In m l -> exists n, node_net base use adds y m = Ok n) ->
  exists sorted lines invest failed, verify opf taps argsort base use adds mult_bus clusters = Ok (lines, invest, failed) /\
    Permutation sorted (clusters ++ [repeat 0%Q w]) /\ StronglySorted (fun a b => qsum a <= qsum b)%Q sorted /\
    List.length lines = 2 ^ List.length mult_bus - 1 /\ List.length invest = 2 ^ List.length mult_bus - 1 /\
    (forall y l k m n0, nth_error mult_bus y = Some l -> nth_error l k = Some m -> node_net base use adds y m = Ok n0 ->
       exists found, searched opf taps sorted n0 found /\
       match found with
       | Some i => exists c, nth_error sorted i = Some c /\ nth_error lines (2 ^ y - 1 + k) = Some c /\ nth_error invest (2 ^ y - 1 + k) = Some (Some (qsum c * 60000)%Q)
       | None => failed = true /\ nth_error lines (2 ^ y - 1 + k) = Some (repeat 0%Q w) /\ nth_error invest (2 ^ y - 1 + k) = Some None
       end) /\
    (failed = true -> exists y l m n0, nth_error mult_bus y = Some l /\ In m l /\ node_net base use adds y m = Ok n0 /\ searched opf taps sorted n0 None).
Proof.
  intros So NE R F T N. unfold verify. destruct (at_total clusters 0) as (first & E0 & H0); [destruct clusters; [congruence|cbn; lia]|]. rewrite E0. cbn [rbind].
  rewrite (rectangular_nth _ _ _ _ R H0).
  destruct (sorted_clusters argsort (clusters ++ [repeat 0%Q w]) So) as (sorted & scosts & Es & Ec & P & -> & St). rewrite Es, Ec. cbn [rbind].
  assert (Fs : Forall (fits taps base) sorted).
  { rewrite Forall_forall in *. intros c I. apply (Permutation_in _ P) in I. apply in_app_iff in I as [I|[<-|[]]]; auto.
    apply (fits_length taps base first); [rewrite repeat_length; eapply rectangular_nth; eauto|]. apply F. eapply nth_error_In; eauto. }
  set (costs := map (fun c => (qsum c * 60000)%Q) sorted). assert (Lc : List.length costs = List.length sorted) by apply map_length.
  set (count := 2 ^ List.length mult_bus - 1). assert (Ln : List.length (tree_nodes mult_bus) = count) by (now apply tree_nodes_length).
  assert (HN : forall y m, In (y, m) (tree_nodes mult_bus) -> exists n, node_net base use adds y m = Ok n /\ Forall (fits taps n) sorted).
  { intros y m I. apply tree_nodes_in in I as (l & Hl & Im). destruct (N y l m Hl Im) as (n & En). exists n. split; auto. rewrite Forall_forall in *. intros c Ic. eapply node_net_fits; eauto. }
  destruct (nodes_loop opf taps (node_net base use adds) sorted costs Lc (tree_nodes mult_bus) 0 (repeat (repeat 0%Q w) count) (repeat None count) false HN)
    as (lines & invest & failed & E & L1 & L2 & _ & Hn & _ & Hf); [rewrite repeat_length; lia|now rewrite !repeat_length|].
  rewrite repeat_length in *. exists sorted, lines, invest, failed. sp; auto.
  - intros y l k m n0 Hl Hm En. pose proof (tree_nodes_at mult_bus y l k m T Hl Hm) as Ht. specialize (Hn _ y m n0 Ht En). cbn [Nat.add] in Hn.
    assert (Lt : 2 ^ y - 1 + k < count) by (rewrite <- Ln; apply nth_error_Some; congruence).
    exists (node_solution opf taps n0 sorted). assert (F0 : Forall (fits taps n0) sorted) by (rewrite Forall_forall in *; intros; eapply node_net_fits; eauto).
    split; [now apply node_searched|]. unfold node_result in Hn. destruct (node_solution opf taps n0 sorted) as [i|] eqn:Ei.
    + pose proof (node_found _ _ _ _ _ F0 Ei) as Hi. exists (nth i sorted []). destruct Hn as [A B]. sp; auto.
      * now apply nth_error_nth'.
      * rewrite B. unfold costs. do 2 f_equal. rewrite (nth_indep _ _ (qsum [] * 60000)%Q) by (now rewrite map_length). apply (map_nth (fun c => (qsum c * 60000)%Q)).
    + destruct Hn as (A & B & C). sp; auto.
      * rewrite B. now apply nth_error_repeat.
      * rewrite C. now apply nth_error_repeat.
  - intros A. destruct (Hf A) as [?|(y & m & n0 & I & En & Er)]; [discriminate|]. apply tree_nodes_in in I as (l & Hl & Im). exists y, l, m, n0. sp; auto.
    assert (F0 : Forall (fits taps n0) sorted) by (rewrite Forall_forall in *; intros; eapply node_net_fits; eauto).
    pose proof (node_searched opf taps n0 sorted F0) as Hs. unfold node_result in Er. destruct (node_solution opf taps n0 sorted); [discriminate|auto].
Qed.

(** ** Clusters with more entries than the network has elements *)

Lemma add_line_shape n k c n' : add_line n k c = Some n' -> k < List.length (v_lines n) /\ List.length (v_lines n') = List.length (v_lines n) /\ v_trafo n' = v_trafo n.
Proof.
  unfold add_line. destruct (nth_error (v_lines n) k) as [l|] eqn:E; [|discriminate]. destruct (nth_error (v_kv n) (vl_from l)); [|discriminate].
  intros H; inversion H; subst; clear H. split; [apply nth_error_Some; congruence|]. cbn. split; auto. apply put_length.
Qed.
Lemma add_trafo_shape n k c n' : add_trafo n k c = Some n' -> k < List.length (v_trafo n) /\ List.length (v_trafo n') = List.length (v_trafo n) /\ v_lines n' = v_lines n.
Proof.
  unfold add_trafo. destruct (nth_error (v_trafo n) k) as [l|] eqn:E; [|discriminate].
  intros H; inversion H; subst; clear H. split; [apply nth_error_Some; congruence|]. cbn. split; auto. apply put_length.
Qed.

Lemma upgrade_lines_shape : forall c n k n' ok, upgrade_lines n k c = (n', ok) ->
  List.length (v_lines n') = List.length (v_lines n) /\ List.length (v_trafo n') = List.length (v_trafo n) /\ (ok = true -> k <= List.length (v_lines n) -> k + List.length c <= List.length (v_lines n)).
Proof.
  induction c as [|x c IH]; intros n k n' ok H; cbn in H.
  - inversion H; subst. cbn [List.length]. sp; auto; intros; lia.
  - destruct (add_line n k x) as [m|] eqn:E; [|inversion H; subst; sp; auto; discriminate].
    apply add_line_shape in E as (A & B & C). apply IH in H as (D & F & G). rewrite B in D, G. rewrite C in F. cbn [List.length]. sp; auto. intros O L. specialize (G O); lia.
Qed.
Lemma upgrade_both_shape : forall c n lk tk taps n' ok, upgrade_both n lk tk taps c = (n', ok) ->
  List.length (v_lines n') = List.length (v_lines n) /\ List.length (v_trafo n') = List.length (v_trafo n) /\
  (ok = true -> lk <= List.length (v_lines n) -> tk <= List.length (v_trafo n) -> lk + tk + List.length c <= List.length (v_lines n) + List.length (v_trafo n)).
Proof.
  induction c as [|x c IH]; intros n lk tk [|t taps] n' ok H; cbn in H; try (inversion H; subst; cbn [List.length]; sp; auto; solve [discriminate|intros; lia]).
  - destruct (Qeq_bool t 0).
    + destruct (add_line n lk x) as [m|] eqn:E; [|inversion H; subst; sp; auto; discriminate].
      apply add_line_shape in E as (A & B & C). apply IH in H as (D & F & G). rewrite B in D, G; rewrite C in F, G. cbn [List.length]. sp; auto. intros O L1 L2. specialize (G O); lia.
    + destruct (add_trafo n tk x) as [m|] eqn:E; [|inversion H; subst; sp; auto; discriminate].
      apply add_trafo_shape in E as (A & B & C). apply IH in H as (D & F & G). rewrite B in F, G; rewrite C in D, G. cbn [List.length]. sp; auto. intros O L1 L2. specialize (G O); lia.
Qed.
Lemma upgrade_shape taps n c n' ok : upgrade taps n c = (n', ok) ->
  List.length (v_lines n') = List.length (v_lines n) /\ List.length (v_trafo n') = List.length (v_trafo n) /\
  (ok = true -> List.length c <= List.length (v_lines n) + List.length (v_trafo n)).
Proof.
  unfold upgrade. destruct (v_trafo n) as [|t r] eqn:T; intros H.
  - apply upgrade_lines_shape in H as (A & B & C). rewrite T in B. sp; auto. intros O. specialize (C O). lia.
  - rewrite <- T in *. apply upgrade_both_shape in H as (A & B & C). sp; auto. intros O. specialize (C O). lia.
Qed.

Lemma misfit_search opf taps : forall clusters k n, (forall c, In c clusters -> List.length (v_lines n) + List.length (v_trafo n) < List.length c) ->
  snd (fold_left (attempt opf taps) (combine (seq k (List.length clusters)) clusters) (n, None)) = None.
Proof.
  induction clusters as [|c r IH]; intros k n H; cbn [List.length seq combine fold_left]; auto.
  unfold attempt at 2. cbn [snd fst]. destruct (upgrade taps n c) as [n' ok] eqn:E. apply upgrade_shape in E as (A & B & C).
  destruct ok; [specialize (C eq_refl); specialize (H c (or_introl eq_refl)); lia|]. cbn [andb]. apply IH. intros c' I. rewrite A, B. apply H. now right.
Qed.

Lemma misfit_nodes opf taps nets sorted costs : forall nodes k lines invest flag,
  (forall y m, In (y, m) nodes -> exists n, nets y m = Ok n /\ node_solution opf taps n sorted = None) ->
  foldM (verify_node opf taps nets sorted costs) (combine (seq k (List.length nodes)) nodes) (lines, invest, flag) =
    Ok (lines, invest, match nodes with [] => flag | _ => true end).
Proof.
  induction nodes as [|[y m] nodes IH]; intros k lines invest flag H; cbn [List.length seq combine foldM]; auto.
  destruct (H y m (or_introl eq_refl)) as (n & En & Es).
  assert (V : verify_node opf taps nets sorted costs (lines, invest, flag) (k, (y, m)) = Ok (lines, invest, true)) by (unfold verify_node; cbn [fst snd]; rewrite En; cbn [rbind]; now rewrite Es).
  rewrite V. cbn [rbind].
  rewrite IH by (intros y' m' I; apply H; now right). now destruct nodes.
Qed.

Lemma verify_misfit opf taps argsort base use adds mult_bus clusters w :
  sorts argsort -> clusters <> [] -> rectangular w clusters -> List.length (v_lines base) + List.length (v_trafo base) < w -> mult_bus <> [] -> full_tree mult_bus ->
  (forall y l m, nth_error mult_bus y = Some l -> In m l -> exists n, node_net base use adds y m = Ok n) ->
  verify opf taps argsort base use adds mult_bus clusters =
    Ok (repeat (repeat 0%Q w) (2 ^ List.length mult_bus - 1), repeat None (2 ^ List.length mult_bus - 1), true).
Proof.
  intros So NE R W MB T N. unfold verify. destruct (at_total clusters 0) as (first & E0 & H0); [destruct clusters; [congruence|cbn; lia]|]. rewrite E0. cbn [rbind].
  rewrite (rectangular_nth _ _ _ _ R H0).
  destruct (sorted_clusters argsort (clusters ++ [repeat 0%Q w]) So) as (sorted & scosts & Es & Ec & P & -> & St). rewrite Es, Ec. cbn [rbind].
  rewrite misfit_nodes.
  - pose proof (tree_nodes_length mult_bus T) as L. destruct (tree_nodes mult_bus) eqn:Et; auto. exfalso. destruct mult_bus as [|a r]; [congruence|]. cbn [List.length Nat.pow] in L.
    pose proof (Nat.pow_nonzero 2 (List.length r)). lia.
  - intros y m I. apply tree_nodes_in in I as (l & Hl & Im). destruct (N y l m Hl Im) as (n & En). exists n. split; auto. apply misfit_search. intros c Ic.
    destruct (node_net_shape _ _ _ _ _ _ En) as (_ & A & B). rewrite A, B. apply (Permutation_in _ P) in Ic. apply in_app_iff in Ic as [Ic|[<-|[]]]; [|now rewrite repeat_length].
    apply In_nth_error in Ic as (j & Hj). now rewrite (rectangular_nth _ _ _ _ R Hj).
Qed.
