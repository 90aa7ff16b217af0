(** Properties C54-C56, C72-C79: cluster verification and the planning run. *)
From Coq Require Import List String Bool Arith ZArith QArith Qpower Qfield Lia Lqa Permutation Sorted.
From Verif Require Import Base Graph GraphData GraphDataProofs Reader Cases CasesSpec CasesProofs CasesClusters CasesOutputs Properties_Cases.
From Verif Require Import Verification VerificationSpec VerificationProofs VerificationRun.
Import ListNotations.
Open Scope nat_scope.
Open Scope list_scope.

Local Ltac sp := repeat match goal with |- _ /\ _ => split end.

(* ------------------------------------------------------------------ *)
(** ** C54 *)

(** A network of one line at 1 kV without capacity and one load; the OPF is feasible from a rating of 10 kA. *)
Definition one_line : vnet := mkVN [1; 1]%Q [mkVL 0 0] [] [mkVD 1 1 0] [] [] [].
Definition needs_ten (n : vnet) : bool := match v_lines n with [l] => Qle_bool 10 (vl_max l) | _ => false end.

(** Cluster 6 is assigned although the network reinforced by it alone is infeasible. *)
Theorem C54_refuted : exists opf taps argsort base mult clusters lines invest,
  sorts argsort /\ rectangular 1 clusters /\ Forall (fits taps base) clusters /\ full_tree mult /\
  verify opf taps argsort base false (fun _ => Err KeyError) mult clusters = Ok (lines, invest, false) /\
  nth_error lines 0 = Some [6]%Q /\
  forall n0 n1, node_net base false (fun _ => Err KeyError) 0 [1]%Q = Ok n0 -> reinforced_by taps [[6]]%Q n0 n1 -> opf n1 = false.
Proof.
  exists needs_ten, [], insertion_argsort, one_line, [[[1]]]%Q, [[5]; [6]]%Q, [[6]]%Q, [Some 360000]%Q. sp; try reflexivity.
  - exact insertion_sorts.
  - repeat constructor.
  - apply Forall_forall. intros c I. split; [intros l [<-|[]]; cbn; lia|]. cbn in I |- *. destruct I as [<-|[<-|[]]]; reflexivity.
  - intros [|[|y]] l H; try discriminate; inversion H; reflexivity.
  - intros n0 n1 E R. inversion E; subst n0; clear E. destruct R as (_ & _ & _ & _ & _ & L & _ & R & _).
    destruct (R 0 (mkVL 0 0) eq_refl) as (l' & El & _ & M). cbn in L. unfold needs_ten. destruct (v_lines n1) as [|l [|l2 r]]; try reflexivity. inversion El; subst.
    destruct (Qle_bool 10 (vl_max l')) eqn:A; auto. apply Qle_bool_iff in A. rewrite M in A. exfalso. vm_compute in A. auto.
Qed.
Print Assumptions C54_refuted.

(** What does hold: every node of the tree is searched in order of increasing total capacity; the i-th
    network offered to the OPF is the network of the node with the first i+1 clusters added; the
    first feasible one determines cluster and cost; the flag is set iff a node has none. *)
Theorem C54_cumulative_partial : forall opf taps argsort base use adds mult_bus clusters w,
  sorts argsort -> clusters <> [] -> rectangular w clusters -> Forall (fits taps base) clusters -> full_tree mult_bus ->
  (forall y l m, nth_error mult_bus y = Some l -> In m l -> exists n, node_net base use adds y m = Ok n) ->
  exists sorted lines invest failed, verify opf taps argsort base use adds mult_bus clusters = Ok (lines, invest, failed) /\
    Permutation sorted (clusters ++ [repeat 0%Q w]) /\ StronglySorted (fun a b => qsum a <= qsum b)%Q sorted /\
    List.length lines = 2 ^ List.length mult_bus - 1 /\ List.length invest = 2 ^ List.length mult_bus - 1 /\
    (forall y l k m n0, nth_error mult_bus y = Some l -> nth_error l k = Some m -> node_net base use adds y m = Ok n0 ->
       exists found, searched opf taps sorted n0 found /\
       match found with
       | Some i => exists c, nth_error sorted i = Some c /\ nth_error lines (2 ^ y - 1 + k) = Some c /\ nth_error invest (2 ^ y - 1 + k) = Some (Some (qsum c * 60000)%Q)
       | None => failed = true /\ nth_error lines (2 ^ y - 1 + k) = Some (repeat 0%Q w) /\ nth_error invest (2 ^ y - 1 + k) = Some None
       end) /\
    (failed = true -> exists y l m n0, nth_error mult_bus y = Some l /\ In m l /\ node_net base use adds y m = Ok n0 /\ searched opf taps sorted n0 None).
Proof. exact verify_spec. Qed.
Print Assumptions C54_cumulative_partial.

(** If more capacity never makes the OPF infeasible, every cluster tried before the chosen one, in
    particular every cheaper one, is infeasible on its own; if none is chosen, all are.  If the
    chosen one is the first it was verified on its own. *)
Theorem C54_cheaper_partial : forall opf taps sorted n0 found, (forall a b, stronger a b -> opf a = true -> opf b = true) ->
  Forall (Forall (fun v => 0 <= v)%Q) sorted -> StronglySorted (fun a b => qsum a <= qsum b)%Q sorted ->
  (forall l, In l (v_lines n0) -> (0 < nth (vl_from l) (v_kv n0) 0)%Q) ->
  searched opf taps sorted n0 found ->
  match found with
  | Some i => exists c, nth_error sorted i = Some c /\
      (forall c' n1, In c' sorted -> (qsum c' < qsum c)%Q -> reinforced_by taps [c'] n0 n1 -> opf n1 = false) /\
      (i = 0 -> exists n1, reinforced_by taps [c] n0 n1 /\ opf n1 = true)
  | None => forall c' n1, In c' sorted -> reinforced_by taps [c'] n0 n1 -> opf n1 = false
  end.
Proof.
  intros opf taps sorted n0 found M N St V Hs. destruct found as [i|].
  - assert (Hs' := Hs). destruct Hs' as (nets & L & R & n' & En & Eo & _).
    assert (Hi : i < List.length sorted) by (rewrite <- L; apply nth_error_Some; congruence).
    destruct (nth_error sorted i) as [c|] eqn:Ec; [|apply nth_error_None in Ec; lia]. exists c. sp; auto.
    + intros c' n1 I Lt R1. apply In_nth_error in I as (j & Hj). apply (cheaper_fail opf taps sorted n0 (Some i) j c'); auto.
      destruct (Nat.lt_ge_cases j i) as [|Ge]; auto. exfalso. assert (Le : (qsum c <= qsum c')%Q); [|lra].
      destruct (Nat.eq_dec i j) as [->|]; [rewrite Ec in Hj; inversion Hj; apply Qle_refl|]. clear - St Ec Hj Ge n. revert i j Ec Hj Ge n.
      induction St as [|x l St IH F]; intros i j Ec Hj Ge n; [destruct i; discriminate|]. rewrite Forall_forall in F. destruct i as [|i], j as [|j]; cbn [nth_error] in *; try lia.
      * inversion Ec; subst. apply F. eapply nth_error_In; eauto.
      * apply (IH i j); auto; lia.
    + intros ->. exists n'. split; auto. specialize (R 0 n' En). destruct sorted as [|c0 r]; [discriminate|]. cbn in Ec. inversion Ec; subst. exact R.
  - intros c' n1 I R1. apply In_nth_error in I as (j & Hj). apply (cheaper_fail opf taps sorted n0 None j c'); auto.
Qed.
Print Assumptions C54_cheaper_partial.

(** Clusters with more entries than the network has lines and transformers are never assigned, for any
    OPF: every node is left without cluster and the failure is flagged, without an exception. *)
Theorem C54_misfit_partial : forall opf taps argsort base use adds mult_bus clusters w,
  sorts argsort -> clusters <> [] -> rectangular w clusters -> List.length (v_lines base) + List.length (v_trafo base) < w -> mult_bus <> [] -> full_tree mult_bus ->
  (forall y l m, nth_error mult_bus y = Some l -> In m l -> exists n, node_net base use adds y m = Ok n) ->
  verify opf taps argsort base use adds mult_bus clusters =
    Ok (repeat (repeat 0%Q w) (2 ^ List.length mult_bus - 1), repeat None (2 ^ List.length mult_bus - 1), true).
Proof. exact verify_misfit. Qed.
Print Assumptions C54_misfit_partial.

Example C54_misfit_witness : verify (fun _ => true) [] insertion_argsort one_line false (fun _ => Err KeyError) [[[1]]; [[1]; [1]]]%Q [[10; 3]; [5; 4]]%Q =
  Ok ([[0; 0]; [0; 0]; [0; 0]]%Q, [None; None; None], true) /\ rectangular 2 [[10; 3]; [5; 4]]%Q /\ List.length (v_lines one_line) + List.length (v_trafo one_line) < 2.
Proof. sp; [vm_compute; reflexivity|repeat constructor|cbn; lia]. Qed.

(** Two years: the second needs 5 kA in one scenario and 20 kA in the other. *)
Definition by_load (n : vnet) : bool :=
  match v_lines n, v_loads n with [l], [d] => Qle_bool (vd_p d) (vl_max l) | _, _ => false end.
Example C54_witness : verify by_load [] insertion_argsort one_line false (fun _ => Err KeyError) [[[0]]; [[5]; [20]]]%Q [[10]; [5]]%Q =
    Ok ([[0]; [5]; [0]], [Some 0; Some 300000; None], true)%Q /\ sorts insertion_argsort /\
  Forall (fits [] one_line) [[10]; [5]]%Q /\ full_tree [[[0]]; [[5]; [20]]]%Q /\ forall y m, exists n, node_net one_line false (fun _ => Err KeyError) y (5%Q :: m) = Ok n.
Proof.
  sp; try exact insertion_sorts.
  - vm_compute. reflexivity.
  - apply Forall_forall. intros c I. split; [intros l [<-|[]]; cbn; lia|]. cbn in I |- *. destruct I as [<-|[<-|[]]]; reflexivity.
  - intros [|[|[|y]]] l H; try discriminate; inversion H; reflexivity.
  - intros y m. destruct (node_net_ok one_line false (fun _ => Err KeyError) (S y) y 5%Q m) as (n & E & _); eauto. intros A; discriminate.
Qed.

Example C54_monotone : forall a b, stronger a b -> by_load a = true -> by_load b = true.
Proof.
  intros a b (_ & Hl & _ & _ & _ & F & _). unfold by_load. rewrite Hl. destruct (v_lines a) as [|l [|l2 r]]; try discriminate. inversion F as [|? ? ? ? [_ Le] F']; subst. inversion F'; subst.
  destruct (v_loads a) as [|d [|d2 ds]]; try discriminate. rewrite !Qle_bool_iff. lra.
Qed.

(* ------------------------------------------------------------------ *)
(** ** C55 *)

(** Recording, removing and restoring: the table is as before; meanwhile the first coefficient of each
    of the [ngen] generators is 0.1 and everything else is untouched. *)
Theorem C55_round_trip : forall nbranch ngen rates costs, nbranch <= List.length rates -> ngen <= List.length costs -> Forall (fun r => r <> []) costs ->
  exists capacities coefficients removed, record_values nbranch ngen rates costs = Ok (capacities, coefficients) /\
    capacities = firstn nbranch rates /\
    replace_gen_cost ngen costs coefficients 0 = Ok removed /\ List.length removed = List.length costs /\
    (forall i row, nth_error costs i = Some row -> exists row', nth_error removed i = Some row' /\ if i <? ngen then same_but_first (1 # 10) row row' else row' = row) /\
    replace_gen_cost ngen removed coefficients 1 = Ok costs.
Proof.
  intros nbranch ngen rates costs Lb Lg NE. exists (firstn nbranch rates), (map (fun r => hd 0%Q r) (firstn ngen costs)).
  destruct (set_all (fun _ => Ok (1 # 10)) ngen 0 costs) as (removed & E & L & NE' & H); eauto. exists removed.
  assert (E' : replace_gen_cost ngen costs (map (fun r => hd 0%Q r) (firstn ngen costs)) 0 = Ok removed) by exact E.
  assert (HC : forall g row, g < ngen -> nth_error costs g = Some row -> at_ (map (fun r => hd 0%Q r) (firstn ngen costs)) g = Ok (hd 0%Q row)).
  { intros g row Hg Hr. apply at_nth. rewrite nth_error_map. replace (nth_error (firstn ngen costs) g) with (Some row); auto. rewrite <- Hr. clear - Hg. revert g costs Hg.
    induction ngen as [|n IH]; intros g costs Hg; [lia|]. destruct costs as [|c costs]; [now destruct g|]. destruct g; auto. cbn. apply IH. lia. }
  assert (H' : forall i row, nth_error costs i = Some row -> exists row', nth_error removed i = Some row' /\ if i <? ngen then same_but_first (1 # 10) row row' else row' = row).
  { intros i row Hi. destruct (H i row Hi) as (row' & Hr & P). exists row'. split; auto. change (0 + ngen) with ngen in P. replace (0 <=? i) with true in P by auto. cbn [andb] in P.
    destruct (i <? ngen); auto. destruct P as (v & Ev & S'). inversion Ev; subst. exact S'. }
  sp; auto.
  - now apply record_ok.
  - destruct (set_all (at_ (map (fun r => hd 0%Q r) (firstn ngen costs))) ngen 0 removed) as (back & Eb & Lb' & _ & Hb); auto; [|lia|].
    { intros g Hg. destruct (nth_error costs g) as [row|] eqn:Er; [|apply nth_error_None in Er; lia]. exists (hd 0%Q row). apply HC; auto; lia. }
    change (replace_gen_cost ngen removed (map (fun r => hd 0%Q r) (firstn ngen costs)) 1) with (foldM (fun cs g => do v <- at_ (map (fun r => hd 0%Q r) (firstn ngen costs)) g; set_first cs g v) (seq 0 ngen) removed).
    rewrite Eb. f_equal. apply nth_error_ext. intros i. destruct (nth_error costs i) as [row|] eqn:Er.
    + destruct (H' i row Er) as (row' & Hr & P). destruct (Hb i row' Hr) as (row'' & Hr' & P'). rewrite Hr'. f_equal. change (0 + ngen) with ngen in P'. replace (0 <=? i) with true in P' by auto. cbn [andb] in P'.
      destruct (Nat.ltb_spec i ngen).
      * destruct P' as (v & Ev & x' & r' & A & B). rewrite (HC i row) in Ev by auto. inversion Ev; subst v. destruct P as (x & r & A1 & B1). rewrite A in B1. inversion B1; subst. reflexivity.
      * congruence.
    + apply nth_error_None. apply nth_error_None in Er. lia.
Qed.
Print Assumptions C55_round_trip.

Example C55_witness : record_values 2 1 [10; 20; 30]%Q [[3; 4]; [5]]%Q = Ok ([10; 20], [3])%Q /\
  replace_gen_cost 1 [[3; 4]; [5]]%Q [3]%Q 0 = Ok [[1 # 10; 4]; [5]]%Q /\ replace_gen_cost 1 [[1 # 10; 4]; [5]]%Q [3]%Q 1 = Ok [[3; 4]; [5]]%Q.
Proof. sp; reflexivity. Qed.

(* ------------------------------------------------------------------ *)
(** ** C56 *)

(** For one year, or for rates other than 1, 0 and -2, the factors are defined and as stated; the
    capital recovery factor turns the present value of yearly payments over ten years per stage
    into the yearly payment. *)
Theorem C56_factors : forall d years, years <= 1 \/ (~ d == 1 /\ ~ d == 0 /\ ~ d == -2)%Q ->
  exists df crf, get_factors d years = Ok (df, crf) /\ List.length df = years /\ List.length crf = years /\
    (forall y v, nth_error df y = Some v -> (v * (1 - d) ^ Z.of_nat y == 1)%Q) /\
    (forall v, nth_error crf 0 = Some v -> (v == 1)%Q) /\
    (forall y v, 0 < y -> nth_error crf y = Some v -> (v * ((1 + d) ^ Z.of_nat (y * 10) - 1) == d * (1 + d) ^ Z.of_nat (y * 10))%Q) /\
    (forall y v, 0 < y -> ~ (d == -1)%Q -> nth_error crf y = Some v -> (v * present_value d (y * 10) == 1)%Q).
Proof.
  intros d years H. eexists _, _. split; [now apply factors_ok|].
  assert (NC : forall A (f : nat -> A) y v, nth_error (map f (seq 0 years)) y = Some v -> y < years /\ v = f y).
  { intros A f y v Hv. assert (Ly : y < years). { rewrite <- (seq_length years 0), <- (map_length f). apply nth_error_Some. congruence. } split; auto.
    rewrite nth_error_map, (nth_error_nth' (seq 0 years) 0) in Hv by (now rewrite seq_length). rewrite seq_nth in Hv by auto. cbn in Hv. congruence. }
  assert (D : forall y, 0 < y < years -> ~ ((1 + d) ^ Z.of_nat (y * 10) - 1 == 0)%Q).
  { intros y Hy A. destruct H as [H|(H1 & H2 & H3)]; [lia|]. assert (B : ((1 + d) ^ Z.of_nat (y * 10) == 1)%Q) by lra. apply ten_pow_one in B as [B|B]; [lra|lra|lia]. }
  sp; try (now rewrite map_length, seq_length).
  - intros y v Hv. apply NC in Hv as [Ly ->]. assert (N : ~ ((1 - d) ^ Z.of_nat y == 0)%Q); [|field; auto]. destruct y; [discriminate|]. apply Qpow_nonzero. destruct H as [H|(H & _)]; [lia|]. intros A. apply H. lra.
  - intros v Hv. apply NC in Hv as [_ ->]. reflexivity.
  - intros y v Hy Hv. apply NC in Hv as [Ly ->]. destruct (Nat.eqb_spec y 0); [lia|]. field. auto.
  - intros y v Hy Nd Hv. apply NC in Hv as [Ly ->]. destruct (Nat.eqb_spec y 0); [lia|]. assert (N1 : ~ (1 + d == 0)%Q) by (intros A; apply Nd; lra).
    pose proof (annuity d (y * 10) N1) as An. pose proof (Qpow_nonzero (1 + d) (y * 10) N1) as Np. specialize (D y ltac:(lia)). set (p := ((1 + d) ^ Z.of_nat (y * 10))%Q) in *.
    transitivity (d * present_value d (y * 10) * p / (p - 1))%Q; [field; auto|]. rewrite An. field. auto.
Qed.
Print Assumptions C56_factors.

(** In all other cases: ZeroDivisionError. *)
Theorem C56_undefined : forall d years, 1 < years -> (d == 1 \/ d == 0 \/ d == -2)%Q -> get_factors d years = Err ZeroDivisionError.
Proof. exact factors_fail. Qed.
Print Assumptions C56_undefined.

Theorem C56_refuted : exists d years, ~ (d == 1)%Q /\ get_factors d years = Err ZeroDivisionError.
Proof. exists 0%Q, 2. split; [discriminate|reflexivity]. Qed.
Print Assumptions C56_refuted.

Example C56_witness : exists df crf, get_factors (1 # 10) 3 = Ok (df, crf) /\ List.length df = 3 /\ (~ 1 # 10 == 1 /\ ~ 1 # 10 == 0 /\ ~ 1 # 10 == -2)%Q.
Proof. eexists _, _. sp; try reflexivity; discriminate. Qed.

(* ------------------------------------------------------------------ *)
(** ** C72 *)

(** Nothing to reinforce at any node: the run ends with that message. *)
Theorem C72_reported : forall s limit n screened old, screened <> [] -> rectangular n screened -> 0 < limit -> Forall (Forall (fun v => v == 0)%Q) screened ->
  (forall y l k, nth_error (se_multiplier s) y = Some l -> k < List.length l -> exists f g, nth_error (se_flex s) y = Some f /\ nth_error f k = Some g) ->
  attest_run s limit screened None old = Ok NothingToBuild.
Proof.
  intros s limit n screened old NE R Hl H0 Hf. unfold attest_run. destruct (mult_for_bus_ok (se_multiplier s) (se_flex s) (List.length (se_pd s)) Hf) as (mb & -> & _). cbn [rbind].
  rewrite (nothing_needed (se_cat s) (se_cost s) limit n screened) by auto. reflexivity.
Qed.
Print Assumptions C72_reported.

(** And only then. *)
Theorem C72_only_then : forall s limit n screened old, screened <> [] -> rectangular n screened -> 0 < limit -> Forall (listed (se_cat s)) screened ->
  List.length (se_cat s) <= List.length (se_cost s) ->
  attest_run s limit screened None old = Ok NothingToBuild -> Forall (fun c => ~ reinforces c) screened.
Proof.
  intros s limit n screened old NE R Hl Hli Hc H. unfold attest_run in H. destruct (mult_for_bus [] (se_multiplier s) (se_flex s) (List.length (se_pd s))) as [mb|]; cbn [rbind] in H; [|discriminate].
  destruct (C51_reduction (se_cat s) (se_cost s) limit n screened NE R Hli Hc Hl) as (o & kept & E & _ & _ & Hcov & Hsmall & Hbig). rewrite E in H. cbn [rbind] in H.
  destruct kept as [|c0 r].
  - destruct (Nat.le_gt_cases (List.length o) limit) as [Lo|Lo].
    + apply Forall_forall. intros c I (v & Iv & Pv). destruct (Hcov c I) as (c' & I' & Sc). enough (In c' []) by auto. apply (Hsmall Lo). split; auto.
      unfold same_cluster in Sc. clear - Sc Iv Pv. induction Sc as [|x y c c' E _ IH]; [destruct Iv|]. destruct Iv as [->|Iv]; [exists y; split; [now left|rewrite <- E; auto]|].
      destruct (IH Iv) as (z & Iz & Pz). exists z. split; auto. now right.
    + destruct (Hbig Lo) as (is & xs & ideals & costs & top & Li & _ & F & _). inversion F; subst. cbn in Lo, Hl. lia.
  - exfalso. unfold planning_run in H. destruct (scenario_rows _ _ _ _ _); cbn [rbind] in H; [|discriminate]. destruct (investment_options _ _ _ _ _); cbn [rbind] in H; [|discriminate].
    destruct (verify _ _ _ _ _ _ _ _) as [[[lines invest] [|]]|]; cbn [rbind] in H; try discriminate. destruct (save_results _ _ _); cbn [rbind] in H; discriminate.
Qed.
Print Assumptions C72_only_then.

(** The setting of the examples: one year, one line, cluster sizes 5 and 10. *)
Definition small (opf : vnet -> bool) : setting :=
  mkSetting opf [] insertion_argsort one_line false (fun _ => Err KeyError) [5; 10]%Q [7; 9]%Q [1]%Q 0 [0; 1]%Q [0; 0]%Q [2020]%Z [[5]]%Q [[1]]%Q [].
Example C72_witness : attest_run (small by_load) 3 [[0]; [0]]%Q None (mkFiles [] []) = Ok NothingToBuild.
Proof. vm_compute. reflexivity. Qed.

(* ------------------------------------------------------------------ *)
(** ** C73 *)

(** Three-phase rating: the square of an MVA rating of I kA at V kV is 3 (V I)^2. *)
Definition mva_squared (kv ka : Q) : Q := (3 * ((kv * ka) * (kv * ka)))%Q.

(** The gain of a line reinforced by c MVA is c times the square root of 3. *)
Theorem C73_gain : forall taps n c n' k l l', fits taps n c -> upgrade taps n c = (n', true) -> ~ (nth (vl_from l) (v_kv n) 0 == 0)%Q ->
  nth_error (v_lines n) k = Some l -> nth_error (v_lines n') k = Some l' ->
  let added := nth (branch_of_line taps n k) c 0%Q in
  (mva_squared (nth (vl_from l) (v_kv n) 0) (vl_max l' - vl_max l) == 3 * (added * added))%Q.
Proof.
  intros taps n c n' k l l' F U V Hl Hl'. pose proof (upgrade_ok taps n c F) as H. destruct H as (n'' & E & R). rewrite U in E. inversion E; subst n''.
  destruct R as (_ & _ & _ & _ & _ & _ & _ & R & _). destruct (R k l Hl) as (l'' & Hl'' & _ & M). rewrite Hl' in Hl''. inversion Hl''; subst l''. cbv zeta. unfold mva_squared. rewrite M.
  unfold total_at, qsum. cbn [map fold_right]. field. auto.
Qed.
Print Assumptions C73_gain.

Theorem C73_refuted : exists taps n c n' l l', fits taps n c /\ upgrade taps n c = (n', true) /\ nth_error (v_lines n) 0 = Some l /\ nth_error (v_lines n') 0 = Some l' /\
  ~ (mva_squared (nth (vl_from l) (v_kv n) 0) (vl_max l' - vl_max l) == nth 0 c 0 * nth 0 c 0)%Q.
Proof.
  exists [], one_line, [5]%Q, (fst (upgrade [] one_line [5]%Q)), (mkVL 0 0), (mkVL 0 (0 + 5 * 10 ^ 6 / (1 * 10 ^ 3) / 10 ^ 3)). sp; try reflexivity; try (vm_compute; discriminate).
  split; [intros l [<-|[]]; cbn; lia|reflexivity].
Qed.
Print Assumptions C73_refuted.

(* ------------------------------------------------------------------ *)
(** ** C74 *)

(** A generator and an external grid, each with a cost: afterwards the first generator has both and
    the one that replaces the grid has none. *)
Theorem C74_refuted : exists n, costs_for "gen" 0 n = [20]%Q /\ costs_for "ext_grid" 0 n = [50]%Q /\ List.length (v_gen n) = 1 /\ List.length (v_ext n) = 1 /\
  costs_for "gen" 0 (replace_ext_grid n) = [20; 50]%Q /\ costs_for "gen" 1 (replace_ext_grid n) = [].
Proof.
  exists (mkVN [1; 1]%Q [] [] [] [mkVU 0 0 9 0 9] [mkVU 1 0 9 0 9] [mkVC "gen" 0 20; mkVC "ext_grid" 0 50]). sp; reflexivity.
Qed.
Print Assumptions C74_refuted.

(** In general: no unit is lost, but a generator that replaces a grid has no cost unless another
    table has an element of that number. *)
Theorem C74_units_partial : forall n, v_ext (replace_ext_grid n) = [] /\ v_gen (replace_ext_grid n) = v_gen n ++ v_ext n /\
  (forall e, Forall (fun c => vc_element c <> List.length (v_gen n) + e) (v_cost n) -> costs_for "gen" (List.length (v_gen n) + e) (replace_ext_grid n) = []) /\
  (List.length (v_ext n) = 1 -> v_gen n = [] -> Forall (fun c => vc_et c = "ext_grid"%string) (v_cost n) -> costs_for "gen" 0 (replace_ext_grid n) = costs_for "ext_grid" 0 n).
Proof.
  intros n.
  assert (FC : forall l e, Forall (fun c => vc_element c <> e) l -> Forall (fun c => vc_element c <> e) (first_costs l)).
  { intros l e F. unfold first_costs. assert (G : forall st, Forall (fun c => vc_element c <> e) (fst st) ->
      Forall (fun c => vc_element c <> e) (fst (fold_left (fun st c => let '(kept, seen) := st in if existsb (Nat.eqb (vc_element c)) seen then (kept, seen) else (kept ++ [c], seen ++ [vc_element c])) l st))); [|apply G; constructor].
    induction F as [|c l Hc _ IH]; intros [kept seen] Hk; cbn [fold_left]; auto. apply IH. destruct (existsb _ seen); auto. cbn [fst] in *. apply Forall_app. auto. }
  assert (GM : forall l e, Forall (fun c => vc_element c <> e) l -> Forall (fun c => vc_element c <> e) (map as_gen l)) by (intros l e F; apply Forall_map; exact F).
  assert (NF : forall l e, Forall (fun c => vc_element c <> e) l -> filter (fun c => String.eqb (vc_et c) "gen" && (vc_element c =? e)) l = []).
  { intros l e F. induction F as [|c l Hc _ IH]; cbn [filter]; auto. apply Nat.eqb_neq in Hc. rewrite Hc, andb_false_r. auto. }
  unfold replace_ext_grid. destruct (Nat.eqb_spec (List.length (v_ext n)) 1) as [L|L]; cbn [v_ext v_gen with_units]; sp; auto.
  - intros e F. unfold costs_for. cbn [v_cost with_units]. rewrite NF; auto.
  - intros _ _ F. unfold costs_for. cbn [v_cost with_units]. clear - F. induction F as [|c l E _ IH]; [reflexivity|]. cbn [map filter]. rewrite E. cbn [as_gen vc_et vc_element String.eqb Ascii.eqb Bool.eqb andb].
    destruct (vc_element c =? 0); cbn [map]; rewrite IH; reflexivity.
  - intros e F. unfold costs_for. cbn [v_cost with_units]. rewrite NF; auto. apply FC. destruct (v_ext n); auto.
  - tauto.
Qed.
Print Assumptions C74_units_partial.

Example C74_witness : let n := mkVN [1; 1]%Q [] [] [] [mkVU 0 0 9 0 9; mkVU 1 0 9 0 9] [] [mkVC "ext_grid" 0 50; mkVC "ext_grid" 1 60] in
  costs_for "gen" 0 (replace_ext_grid n) = [50]%Q /\ costs_for "gen" 1 (replace_ext_grid n) = [60]%Q /\ costs_for "gen" 2 (replace_ext_grid n) = [].
Proof. cbv zeta. sp; reflexivity. Qed.

(* ------------------------------------------------------------------ *)
(** ** C75 *)

(** Multipliers expanded from those of the scenarios: every load of node k of year y is scaled by its
    multiplier times its flexibility, and the additional load of its bus is added. *)
Theorem C75_scaling : forall base use adds multiplier flex nbus y l k m,
  (forall y l k, nth_error multiplier y = Some l -> k < List.length l -> exists f g, nth_error flex y = Some f /\ nth_error f k = Some g) ->
  0 < nbus -> covered base use adds (List.length multiplier) -> nth_error multiplier y = Some l -> nth_error l k = Some m ->
  exists mb ml mk n, mult_for_bus [] multiplier flex nbus = Ok mb /\ nth_error mb y = Some ml /\ nth_error ml k = Some mk /\ node_net base use adds y mk = Ok n /\
    Forall2 (fun d d' => vd_bus d' = vd_bus d /\ (vd_p d' == vd_p d * (m * nth k (nth y flex []) 0) + added use adds y (vd_bus d))%Q /\
                         (vd_q d' == vd_q d * (m * nth k (nth y flex []) 0))%Q) (v_loads base) (v_loads n).
Proof.
  intros base use adds multiplier flex nbus y l k m H N C Hl Hm. destruct (mult_for_bus_ok multiplier flex nbus H) as (mb & E & _ & Hmb). destruct (Hmb y l Hl) as (ml & Eml & _ & Hk).
  specialize (Hk k m Hm). destruct nbus as [|nb]; [lia|]. cbn [repeat] in Hk.
  destruct (node_net_ok base use adds _ y (m * nth k (nth y flex []) 0)%Q (repeat (m * nth k (nth y flex []) 0)%Q nb) C) as (n & En & F); [apply nth_error_Some; congruence|].
  exists mb, ml, ((m * nth k (nth y flex []) 0)%Q :: repeat (m * nth k (nth y flex []) 0)%Q nb), n. sp; auto.
Qed.
Print Assumptions C75_scaling.

(** Multipliers given per bus: that of bus 0 is used for all. *)
Theorem C75_refuted : exists base given n d, mult_for_bus given [[1]]%Q [[1]]%Q 2 = Ok given /\ given = [[[1; 2]]]%Q /\ In (mkVD 1 10 0) (v_loads base) /\
  node_net base false (fun _ => Err KeyError) 0 [1; 2]%Q = Ok n /\ v_loads n = [d] /\ vd_bus d = 1 /\ ~ (vd_p d == 10 * 2)%Q.
Proof.
  exists (mkVN [1; 1]%Q [] [] [mkVD 1 10 0] [] [] []), [[[1; 2]]]%Q. eexists _, _. sp; try reflexivity; [now left|discriminate].
Qed.
Print Assumptions C75_refuted.

Example C75_witness : let base := mkVN [1; 1]%Q [] [] [mkVD 1 10 4] [] [] [] in covered base true (fun _ => Ok [0; 3]%Q) 2 /\
  match node_net base true (fun _ => Ok [0; 3]%Q) 1 [2; 2]%Q with Ok n => v_loads n = [mkVD 1 (10 * 2 + 3) (4 * 2)]%Q | Err _ => False end.
Proof.
  cbv zeta. sp; [|reflexivity]. intros _. sp; [lia| |].
  - intros d [<-|[]]. cbn. lia.
  - intros y Hy. eexists. split; [reflexivity|]. intros d [<-|[]]. cbn. lia.
Qed.

(* ------------------------------------------------------------------ *)
(** ** C76 *)

(** One line of length 1 with the catalogue size 5 that costs 7: the report says 300000. *)
Theorem C76_refuted : exists s clusters f a l c r q, planning_run s clusters f = Ok (Saved a l) /\ rp_years a = [(2020%Z, (c, r))] /\ rp_total a = r /\ In c clusters /\
  se_lengths s = [1]%Q /\ costs_of (se_cat s) (se_cost s) c q /\ ~ (r == q)%Q /\ ~ (r / 10 ^ 6 == q)%Q.
Proof.
  exists (small by_load), [[5]]%Q, (mkFiles [[5]]%Q [[[5; 5]]]%Q). eexists _, _, _, _, 7%Q. split; [vm_compute; reflexivity|]. cbn [rp_years rp_total]. split; [reflexivity|]. split; [reflexivity|].
  sp; try (vm_compute; discriminate); [now left|reflexivity|].
  exists [0]. split; [|reflexivity]. constructor; [|constructor]. split; [exists 5%Q; split; reflexivity|]. intros y s L. lia.
Qed.
Print Assumptions C76_refuted.

(** The catalogue costs have no influence on the report. *)
Theorem C76_independent_partial : forall s cost clusters f,
  let s' := mkSetting (se_opf s) (se_taps s) (se_argsort s) (se_base s) (se_update s) (se_additions s) (se_cat s) cost (se_lengths s) (se_oversize s)
              (se_pd s) (se_qd s) (se_yrs s) (se_multiplier s) (se_flex s) (se_scenarios s) in
  forall o o', planning_run s clusters f = Ok o -> planning_run s' clusters f = Ok o' -> o = o'.
Proof.
  intros s cost clusters f s' o o' H H'. subst s'. destruct clusters as [|c r]; [cbn in *; congruence|]. unfold planning_run in *. cbn [se_opf se_taps se_argsort se_base se_update se_additions se_cat se_cost se_lengths se_oversize se_pd se_qd se_yrs se_multiplier se_flex se_scenarios] in H'.
  destruct (scenario_rows _ _ _ _ _); cbn [rbind] in *; [|discriminate].
  destruct (investment_options (se_cat s) (se_cost s) (se_lengths s) (se_oversize s) (c :: r)); cbn [rbind] in *; [|discriminate].
  destruct (investment_options (se_cat s) cost (se_lengths s) (se_oversize s) (c :: r)); cbn [rbind] in *; [|discriminate]. congruence.
Qed.
Print Assumptions C76_independent_partial.

(* ------------------------------------------------------------------ *)
(** ** C77 *)

(** The whole run with screened clusters: it never raises; either some node of the tree has no feasible
    candidate, or the report holds for every year the clusters found for the first and the last
    node of that year. *)
Theorem C77_run : forall s w limit screened old clusters, final_clusters (se_cat s) (se_cost s) limit screened = Ok clusters -> clusters <> [] -> plannable s w clusters ->
  exists sorted, Permutation sorted (clusters ++ [repeat 0%Q w]) /\ StronglySorted (fun a b => qsum a <= qsum b)%Q sorted /\
    ((attest_run s limit screened None old = Ok NoFeasiblePlan /\
      exists y k n0, y < List.length (se_yrs s) /\ k < 2 ^ y /\
        node_net (se_base s) (se_update s) (se_additions s) y (repeat (growth_at s y k) (List.length (se_pd s))) = Ok n0 /\ searched (se_opf s) (se_taps s) sorted n0 None) \/
     (exists a l, attest_run s limit screened None old = Ok (Saved a l) /\
      List.length (rp_years a) = List.length (se_yrs s) /\ List.length (rp_years l) = List.length (se_yrs s) /\
      forall y yr, nth_error (se_yrs s) y = Some yr -> exists ea el, nth_error (rp_years a) y = Some (yr, ea) /\ nth_error (rp_years l) y = Some (yr, el) /\
        reported_at (se_opf s) (se_taps s) (se_base s) (se_update s) (se_additions s) sorted y (growth_at s y 0) (List.length (se_pd s)) ea /\
        reported_at (se_opf s) (se_taps s) (se_base s) (se_update s) (se_additions s) sorted y (growth_at s y (2 ^ y - 1)) (List.length (se_pd s)) el)).
Proof.
  intros s w limit screened old clusters E NE P. destruct (planning_spec s w clusters P NE) as (mb & sorted & Em & Ps & St & H). exists sorted. sp; auto. unfold attest_run. rewrite Em. cbn [rbind]. rewrite E. cbn [rbind]. exact H.
Qed.
Print Assumptions C77_run.

Example C77_witness : plannable (small by_load) 1 [[5]; [10]]%Q /\ final_clusters [5; 10]%Q [7; 9]%Q 3 [[10]; [5]; [0]]%Q = Ok [[5]; [10]]%Q /\
  attest_run (small by_load) 3 [[10]; [5]; [0]]%Q None (mkFiles [] []) = Ok (Saved (mkReport [(2020%Z, ([5], 300000))] 300000) (mkReport [(2020%Z, ([5], 300000))] 300000))%Q /\
  attest_run (small (fun _ => false)) 3 [[10]; [5]; [0]]%Q None (mkFiles [] []) = Ok NoFeasiblePlan.
Proof.
  sp; try (vm_compute; reflexivity). unfold plannable. sp; try reflexivity; try discriminate; try (cbn; lia); try exact insertion_sorts.
  - intros [|[|y]] l H; try discriminate; inversion H; reflexivity.
  - intros [|[|y]] l H; try discriminate; inversion H; reflexivity.
  - repeat constructor.
  - repeat constructor; intros v [<-|[]] _; [exists 5%Q|exists 10%Q]; (split; [cbn; auto|reflexivity]).
  - apply Forall_forall. intros c I. split; [intros l [<-|[]]; cbn; lia|]. cbn in I |- *. destruct I as [<-|[<-|[]]]; reflexivity.
Qed.

(* ------------------------------------------------------------------ *)
(** ** C78 *)

(** For every rate between 0 and 1 the factors grow with time instead. *)
Theorem C78_grow : forall d years df crf, (0 < d)%Q -> (d < 1)%Q -> get_factors d years = Ok (df, crf) ->
  forall y a b, nth_error df y = Some a -> nth_error df (S y) = Some b -> (0 < a /\ a < b)%Q.
Proof.
  intros d years df crf D0 D1 E y a b Ha Hb. rewrite factors_ok in E by (right; lra). inversion E; subst df. clear E.
  rewrite nth_error_map in Ha, Hb. destruct (nth_error (seq 0 years) y) as [i|] eqn:Ei; [|discriminate]. destruct (nth_error (seq 0 years) (S y)) as [j|] eqn:Ej; [|discriminate]. cbn [option_map] in *.
  assert (Ly : S y < years) by (rewrite <- (seq_length years 0); apply nth_error_Some; congruence).
  rewrite (nth_error_nth' _ 0) in Ei by (rewrite seq_length; lia). rewrite (nth_error_nth' _ 0) in Ej by (rewrite seq_length; lia). rewrite seq_nth in Ei by lia. rewrite seq_nth in Ej by lia. inversion Ei; inversion Ej; subst i j. inversion Ha; inversion Hb; subst. cbn [Nat.add].
  assert (P : forall n, (0 < (1 - d) ^ Z.of_nat n)%Q). { induction n as [|n IH]; [reflexivity|]. rewrite Qpow_S. nra. }
  pose proof (P y) as Py. pose proof (P (S y)) as PSy. split.
  - unfold Qdiv. rewrite Qmult_1_l. now apply Qinv_lt_0_compat.
  - unfold Qdiv. rewrite !Qmult_1_l. apply (Qmult_lt_l _ _ ((1 - d) ^ Z.of_nat y * (1 - d) ^ Z.of_nat (S y))); [nra|].
    setoid_replace ((1 - d) ^ Z.of_nat y * (1 - d) ^ Z.of_nat (S y) * / (1 - d) ^ Z.of_nat y)%Q with ((1 - d) ^ Z.of_nat (S y))%Q by (field; lra).
    setoid_replace ((1 - d) ^ Z.of_nat y * (1 - d) ^ Z.of_nat (S y) * / (1 - d) ^ Z.of_nat (S y))%Q with ((1 - d) ^ Z.of_nat y)%Q by (field; lra).
    rewrite Qpow_S. nra.
Qed.
Print Assumptions C78_grow.

Theorem C78_refuted : exists d df crf a b, (0 < d)%Q /\ get_factors d 2 = Ok (df, crf) /\ nth_error df 0 = Some a /\ nth_error df 1 = Some b /\ ~ (b <= a)%Q.
Proof. exists (1 # 10). eexists _, _, _, _. sp; try reflexivity. vm_compute. auto. Qed.
Print Assumptions C78_refuted.

(* ------------------------------------------------------------------ *)
(** ** C79 *)

(** Clusters given by the user are only used for the planner input; what is verified is what an
    earlier run left in the files. *)
Theorem C79_ignored_partial : forall s limit screened c c' old o o', c <> [] -> c' <> [] ->
  attest_run s limit screened (Some c) old = Ok o -> attest_run s limit screened (Some c') old = Ok o' -> o = o'.
Proof.
  intros s limit screened c c' old o o' N N' H H'. cbn [attest_run] in *. destruct c as [|x r]; [congruence|]. destruct c' as [|x' r']; [congruence|]. unfold planning_run in *.
  destruct (scenario_rows _ _ _ _ _); cbn [rbind] in *; [|discriminate].
  destruct (investment_options (se_cat s) (se_cost s) (se_lengths s) (se_oversize s) (x :: r)); cbn [rbind] in *; [|discriminate].
  destruct (investment_options (se_cat s) (se_cost s) (se_lengths s) (se_oversize s) (x' :: r')); cbn [rbind] in *; [|discriminate]. congruence.
Qed.
Print Assumptions C79_ignored_partial.

Theorem C79_refuted : exists s given old a l c r, attest_run s 3 [] (Some given) old = Ok (Saved a l) /\ rp_years a = [(2020%Z, (c, r))] /\
  given = [[5]]%Q /\ c = [10]%Q.
Proof.
  exists (small by_load), [[5]]%Q, (mkFiles [[10]]%Q [[[5; 5]]]%Q). eexists _, _, _, _. split; [vm_compute; reflexivity|]. sp; reflexivity.
Qed.
Print Assumptions C79_refuted.
