(** Properties C338 and C339: what is written and the costs in the saved plan (SavedPlan.v). *)
From Coq Require Import String List Bool Arith ZArith QArith Lia Sorted.
From Verif Require Import Base Cases CaseName SavedPlan Properties_CaseName.
Import ListNotations.
Open Scope nat_scope.
Open Scope list_scope.

(* ------------------------------------------------------------------ *)
(** ** C338 *)
(** [q] is the cost of scenario [s] in millions: that of its last row, 0 without rows. *)
Definition cost_in_millions (costs : list (Z * Q)) (s : Z) (q : Q) : Prop :=
  (exists before c after, costs = before ++ (s, c) :: after /\ (forall x, In x after -> fst x <> s) /\ (q == c / 1000000)%Q) \/
  ((forall x, In x costs -> fst x <> s) /\ (q == 0)%Q).

Lemma last_scenario_snoc rows r : last_scenario (rows ++ [r]) = Some (sr_scenario r).
Proof. unfold last_scenario. now rewrite fold_left_app. Qed.
Lemma cost_snoc costs s q k c : cost_in_millions costs s q -> cost_in_millions (costs ++ [(k, c)]) s (if Z.eqb k s then c / 1000000 else q)%Q.
Proof.
  intros H. destruct (Z.eqb_spec k s) as [->|N]; [left; exists costs, c, []; split; [reflexivity|split; [intros x []|reflexivity]]|].
  destruct H as [(b & c' & a & -> & F & E)|[F E]]; [left; exists b, c', (a ++ [(k, c)]); split; [now rewrite <- app_assoc|split; [|exact E]]|right; split; [|exact E]];
    intros x I; apply in_app_iff in I as [I|[<-|[]]]; auto.
Qed.
Lemma report_spec rows costs : cost_in_millions costs 0 (fst (report_costs rows costs)) /\
  match last_scenario rows with Some s => cost_in_millions costs s (snd (report_costs rows costs)) | None => snd (report_costs rows costs) = 0%Q end.
Proof.
  unfold report_costs. induction costs as [|[k c] costs [I1 I2]] using rev_ind.
  - cbn [fold_left fst snd]. split; [right; split; [intros x []|reflexivity]|]. destruct (last_scenario rows); [right; split; [intros x []|reflexivity]|reflexivity].
  - rewrite fold_left_app. cbn [fold_left fst snd]. split; [now apply cost_snoc|]. destruct (last_scenario rows); [now apply cost_snoc|exact I2].
Qed.

(** Where the scenarios of the rows start at 0, do not go above 1000 and do not decrease, the saved costs are those of the two
    scenarios whose rows are reported. *)
Theorem C338_costs_partial : forall n pos cap rows costs yrs c1 c2, save_plan n pos cap rows costs = Ok (yrs, (c1, c2)) -> rows <> [] ->
  StronglySorted Z.le (map sr_scenario rows) -> (forall r, In r rows -> 0 <= sr_scenario r <= 1000)%Z -> (exists r, In r rows /\ sr_scenario r = 0%Z) ->
  exists hi, (forall r, In r rows -> sr_scenario r <= hi)%Z /\ fst (first_last rows) = rows_of 0 rows /\ snd (first_last rows) = (if Z.eq_dec 0 hi then [] else rows_of hi rows) /\
    cost_in_millions costs 0 c1 /\ cost_in_millions costs hi c2.
Proof.
  intros n pos cap rows costs yrs c1 c2 E NE SS B (r0 & I0 & Z0). unfold save_plan in E. destruct (save_interventions _ _ _ _ _); cbn [rbind] in E; [|discriminate]. injection E as _ E1.
  destruct (C337_rows_partial rows NE B) as (lo & hi & (rl & Il & El) & (rh & Ih & Eh) & B' & F & S'). exists hi.
  assert (lo = 0)%Z as -> by (pose proof (B' r0 I0); pose proof (B rl Il); lia).
  assert (L : last_scenario rows = Some hi).
  { clear - NE SS B' Ih Eh. destruct rows as [|r rows _] using rev_ind; [congruence|]. rewrite last_scenario_snoc. f_equal. apply Z.le_antisymm; [apply B', in_app_iff; right; now left|].
    rewrite map_app in SS. cbn [map] in SS. apply in_app_iff in Ih as [Ih|[<-|[]]]; [|lia]. rewrite <- Eh. clear - SS Ih. induction rows as [|q rows IH]; [destruct Ih|]. cbn in SS. inversion SS as [|? ? S1 F1]; subst.
    destruct Ih as [<-|Ih]; [|auto]. rewrite Forall_forall in F1. apply F1, in_app_iff. right. now left. }
  destruct (report_spec rows costs) as [R1 R2]. rewrite L in R2. rewrite E1 in R1, R2. cbn [fst snd] in *.
  split; [intros r I; now apply B'|]. split; [exact F|]. split; [exact S'|]. split; assumption.
Qed.
Print Assumptions C338_costs_partial.

(** Refuted for other orders: the rows of scenario 2 are reported with the cost of scenario 0, which is that of the last row. *)
Theorem C338_order_refuted : exists n pos cap rows costs yrs c1 c2, save_plan n pos cap rows costs = Ok (yrs, (c1, c2)) /\ snd (first_last rows) = rows_of 2 rows /\ rows_of 2 rows <> [] /\
  (c2 == 7)%Q /\ cost_in_millions costs 2 9%Q /\ ~ cost_in_millions costs 2 c2.
Proof.
  exists 3, [[]], [[]], [mkS 0 2030 []; mkS 2 2030 []; mkS 0 2040 []]%Z, [(0%Z, 7000000%Q); (2%Z, 9000000%Q)]. eexists. eexists. eexists. split; [vm_compute; reflexivity|]. split; [reflexivity|]. split; [discriminate|]. split; [reflexivity|]. split.
  - left. exists [(0%Z, 7000000%Q)], 9000000%Q, []. split; [reflexivity|]. split; [intros x []|reflexivity].
  - intros [(b & c & a & E & F & X)|[F _]]; [|apply (F (2%Z, 9000000%Q)); [right; now left|reflexivity]].
    destruct b as [|x b]; [discriminate E|]. destruct b as [|y b]; [injection E as _ <- _; vm_compute in X; discriminate X|]. injection E as _ _ E. destruct b; discriminate E.
Qed.
Print Assumptions C338_order_refuted.
(** Refuted for scenarios counted from 1: whatever the costs, the first scenario is saved without cost. *)
Theorem C338_first_refuted : forall n pos cap rows costs yrs c1 c2, save_plan n pos cap rows costs = Ok (yrs, (c1, c2)) -> (forall x, In x costs -> 0 < fst x)%Z -> (c1 == 0)%Q.
Proof.
  intros n pos cap rows costs yrs c1 c2 E P. unfold save_plan in E. destruct (save_interventions _ _ _ _ _); cbn [rbind] in E; [|discriminate]. injection E as _ E1. destruct (report_spec rows costs) as [R1 _]. rewrite E1 in R1. cbn [fst] in R1.
  destruct R1 as [(b & c & aft & EQ & _)|[_ R]]; [|exact R]. subst costs. specialize (P (0%Z, c)). cbn in P. exfalso. assert (0 < 0)%Z by (apply P, in_app_iff; right; now left). lia.
Qed.
Print Assumptions C338_first_refuted.

Example C338_witness : save_plan 3 [[4%Z]; []] [[5%Q]; []] [mkS 0 2030 []; mkS 0 2040 []; mkS 1 2040 []; mkS 3 2050 []]%Z [(0%Z, 7000000%Q); (1%Z, 8000000%Q); (3%Z, 9000000%Q)] = Ok ([2030; 2040; 2050]%Z, (7000000 / 1000000, 9000000 / 1000000)%Q) /\
  save_plan 3 [[]] [[]] [mkS 1 2030 []; mkS 2 2030 []]%Z [(1%Z, 7000000%Q); (2%Z, 9000000%Q)] = Ok ([2030]%Z, (0, 9000000 / 1000000)%Q).
Proof. split; vm_compute; reflexivity. Qed.

(* ------------------------------------------------------------------ *)
(** ** C339 *)
(** Rows of the lowest or the highest scenario. *)
Definition reported (rows : list srow) (r : srow) : Prop :=
  (forall q, In q rows -> sr_scenario r <= sr_scenario q)%Z \/ (forall q, In q rows -> sr_scenario q <= sr_scenario r)%Z.

Lemma empty_found : forall pos, (exists c, find_cluster [] pos = Ok c) <-> In [] pos.
Proof.
  induction pos as [|p pos IH]; cbn [find_cluster].
  - split; [intros (c & H); discriminate|intros []].
  - destruct p as [|a p]; cbn [List.length Nat.eqb keep_searching]; [split; [now left|eauto]|]. destruct (find_cluster [] pos) as [c|] eqn:E; cbn [rbind].
    + split; [intros _; right; apply IH; eauto|eauto].
    + split; [intros (c & H); discriminate|intros [H|H]; [discriminate|apply IH in H as (c & H); discriminate]].
Qed.
Lemma row_saved known n pos cap txt r : existsb (String.eqb txt) saved_keys = false -> ((exists u, save_row known n pos cap txt r = Ok u) <-> sr_lines r = [] /\ In [] pos).
Proof.
  intros NK. unfold save_row. destruct (sr_lines r) as [|l ls] eqn:El.
  - rewrite <- empty_found. destruct (find_cluster [] pos) as [c|]; cbn [rbind List.length seq foldM]; [split; eauto|split; [intros (u & H); discriminate|intros (_ & c & H); discriminate]].
  - split; [|intros [H _]; discriminate]. intros (u & H). exfalso. destruct (find_cluster (l :: ls) pos) as [c|]; cbn [rbind] in H; [|discriminate]. cbn [List.length seq foldM] in H.
    destruct (at_ pos c) as [p|]; cbn [rbind] in H; [|discriminate]. destruct (at_ p 0); cbn [rbind] in H; [|discriminate]. destruct (at_ cap c) as [k|]; cbn [rbind] in H; [|discriminate]. destruct (at_ k 0); cbn [rbind] in H; [|discriminate].
    rewrite NK in H. discriminate.
Qed.
Lemma all_saved (f : nat -> res unit) : forall l, (exists u, foldM (fun _ i => f i) l tt = Ok u) <-> forall i, In i l -> exists u, f i = Ok u.
Proof.
  induction l as [|i l IH]; cbn [foldM]; [split; [intros _ i []|eauto]|]. destruct (f i) as [[]|] eqn:E; cbn [rbind].
  - rewrite IH. split; [intros H j [<-|I]; eauto|intros H j I; apply H; now right].
  - split; [intros (u & H); discriminate|intros H; destruct (H i (or_introl eq_refl)) as (u & Hu); congruence].
Qed.
Lemma in_rows_of v rows i : In i (rows_of v rows) <-> exists r, nth_error rows i = Some r /\ sr_scenario r = v.
Proof.
  unfold rows_of. rewrite filter_In, in_seq, Z.eqb_eq. split.
  - intros [L E]. exists (nth i rows (mkS 0 0 [])). split; [apply nth_error_nth'; lia|exact E].
  - intros (r & N & E). assert (i < List.length rows) by (apply nth_error_Some; congruence). split; [lia|]. now rewrite (nth_error_nth _ _ _ N).
Qed.

(** A plan can be saved exactly where no reported row has lines and, if there are rows, one of the clusters is empty. *)
Theorem C339_saved_iff : forall n pos cap rows costs, (forall r, In r rows -> 0 <= sr_scenario r <= 1000)%Z ->
  ((exists o, save_plan n pos cap rows costs = Ok o) <-> forall r, In r rows -> reported rows r -> sr_lines r = [] /\ In [] pos).
Proof.
  intros n pos cap rows costs B. unfold save_plan. cbv zeta. set (known := fun y => existsb (Z.eqb y) (report_years rows)).
  assert (G : (exists o, (do _ <- save_interventions known n pos cap rows; Ok (report_years rows, report_costs rows costs)) = Ok o) <->
    forall i, In i (fst (first_last rows)) \/ In i (snd (first_last rows)) -> exists r, nth_error rows i = Some r /\ sr_lines r = [] /\ In [] pos).
  { assert (W : forall txt p, existsb (String.eqb txt) saved_keys = false -> ((exists u, foldM (fun _ i => do r <- at_ rows i; save_row known n pos cap txt r) p tt = Ok u) <-> forall i, In i p -> exists r, nth_error rows i = Some r /\ sr_lines r = [] /\ In [] pos)).
    { intros txt p NK. rewrite (all_saved (fun i => do r <- at_ rows i; save_row known n pos cap txt r)). split; intros H i I; specialize (H i I).
      - destruct H as (u & H). destruct (at_ rows i) as [r|] eqn:E; cbn [rbind] in H; [|discriminate]. exists r. unfold at_ in E. destruct (nth_error rows i); [|discriminate]. inversion E; subst. split; [reflexivity|]. apply (row_saved known n pos cap txt r NK). eauto.
      - destruct H as (r & N & H). unfold at_. rewrite N. cbn [rbind]. now apply row_saved. }
    unfold save_interventions. destruct (first_last rows) as [p0 p1]. cbn [fst snd]. pose proof (W "Scenario 1"%string p0 eq_refl) as W0. pose proof (W "Scenario 2"%string p1 eq_refl) as W1.
    destruct (foldM _ p0 tt) as [[]|]; cbn [rbind].
    - destruct (foldM _ p1 tt) as [[]|]; cbn [rbind].
      + split; [|eauto]. intros _ i [I|I]; [apply W0; eauto|apply W1; eauto].
      + split; [intros (o & H); discriminate|]. intros H. destruct (proj2 W1) as (u & Hu); [intros i I; apply H; auto|discriminate].
    - split; [intros (o & H); discriminate|]. intros H. destruct (proj2 W0) as (u & Hu); [intros i I; apply H; auto|discriminate]. }
  rewrite G. clear G. destruct rows as [|q0 rows']; [split; [intros _ r []|intros _ i [I|I]; destruct I]|]. set (rows := q0 :: rows') in *.
  destruct (C337_rows_partial rows ltac:(discriminate) B) as (lo & hi & (rl & Il & El) & (rh & Ih & Eh) & B' & F & S'). rewrite F, S'. split.
  - intros H r I R. assert (V : sr_scenario r = lo \/ sr_scenario r = hi).
    { destruct R as [R|R]; [left|right]; pose proof (B' r I); [pose proof (R rl Il)|pose proof (R rh Ih)]; lia. }
    apply In_nth_error in I as (i & N). destruct (H i) as (r' & N' & X).
    + destruct V as [V|V]; [left; apply in_rows_of; eauto|]. destruct (Z.eq_dec lo hi) as [E|E]; [left|right]; apply in_rows_of; exists r; split; auto; lia.
    + rewrite N in N'. inversion N'; subst r'. exact X.
  - intros H i [I|I].
    + apply in_rows_of in I as (r & N & V). exists r. split; [exact N|]. apply nth_error_In in N. apply H; [exact N|]. left. intros q Iq. pose proof (B' q Iq). lia.
    + destruct (Z.eq_dec lo hi); [destruct I|]. apply in_rows_of in I as (r & N & V). exists r. split; [exact N|]. apply nth_error_In in N. apply H; [exact N|]. right. intros q Iq. pose proof (B' q Iq). lia.
Qed.
Print Assumptions C339_saved_iff.

Example C339_witness : (forall r, In r [mkS 0 2030 []; mkS 1 2030 [4]; mkS 2 2040 []]%Z -> 0 <= sr_scenario r <= 1000)%Z /\
  (exists o, save_plan 5 [[4%Z]; []] [[5%Q]; []] [mkS 0 2030 []; mkS 1 2030 [4]; mkS 2 2040 []]%Z [] = Ok o) /\ save_plan 5 [[4%Z]] [[5%Q]] [mkS 0 2030 []]%Z [] = Err IndexError /\
  save_plan 5 [[4%Z]; []] [[5%Q]; []] [mkS 0 2030 []; mkS 2 2040 [4]]%Z [] = Err KeyError.
Proof. split; [intros r I; cbn in I; destruct I as [<-|[<-|[<-|[]]]]; cbn; lia|]. split; [eexists; vm_compute; reflexivity|split; vm_compute; reflexivity]. Qed.
