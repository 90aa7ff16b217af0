(** Consequences of the equivalence of ScreeningProofs.v: acceptance, totals, orientation,
    reinforcements, shedding, costs and investments. *)
From Coq Require Import List Bool Arith ZArith QArith Qabs Qround Qminmax Lia Lqa Permutation Sorted.
From Verif Require Import Base GraphData GraphDataProofs CasesProofs Cases Screening ScreeningSpec ScreeningProofs.
Import ListNotations.
Open Scope nat_scope.
Open Scope list_scope.

Local Ltac sp := repeat match goal with |- _ /\ _ => split end.
Local Ltac step H := repeat (match type of H with
  | rbind ?m _ = Ok _ => let E := fresh "E" in destruct m eqn:E; cbn [rbind] in H; [|discriminate]
  end).

(** ** Acceptance *)

Lemma at_here {X} (l : list X) i d : i < List.length l -> at_ l i = Ok (nth i l d).
Proof. intros L. apply at_nth. now apply nth_error_nth'. Qed.

Lemma gen_pieces_total M A g : well_formed M A -> g < no_gen M -> exists ps, gen_pieces M g = Ok ps /\ List.length ps = 3.
Proof.
  intros W L. unfold gen_pieces. rewrite (at_here (pmin M) g 0%Q) by (rewrite (wf_pmin _ _ W); auto). rewrite (at_here (pmax M) g 0%Q) by (rewrite (wf_pmax _ _ W); auto).
  rewrite (at_here (gc_ncost M) g 0) by (rewrite (wf_ncost _ _ W); auto). rewrite (at_here (gc_cost M) g []) by (rewrite (wf_cost _ _ W); auto). cbn [rbind].
  destruct (wf_terms _ _ W g L) as [P E]. destruct (mapM_total (poly_at (nth g (gc_ncost M) 0) (nth g (gc_cost M) []))
    [nth g (pmin M) 0; nth g (pmin M) 0 + nth g (pmax M) 0 / 3; nth g (pmin M) 0 + nth g (pmax M) 0 / 3 + nth g (pmax M) 0 / 3; nth g (pmin M) 0 + nth g (pmax M) 0 / 3 + nth g (pmax M) 0 / 3 + nth g (pmax M) 0 / 3]%Q)
    as (ys & Ey); [intros x _; now apply poly_at_total|]. rewrite Ey. cbn [rbind]. apply mapM_Ok in Ey.
  inversion Ey as [|? y0 ? r0 _ F0]; subst. inversion F0 as [|? y1 ? r1 _ F1]; subst. inversion F1 as [|? y2 ? r2 _ F2]; subst. inversion F2 as [|? y3 ? r3 _ F3]; subst. inversion F3; subst.
  eexists. split; reflexivity.
Qed.

Lemma gen_cost_total M A : well_formed M A -> (0 < nth 0 (pmax M) 0)%Q -> exists pieces, gen_cost M = Ok pieces /\ List.length pieces = no_gen M /\ Forall (fun ps => List.length ps = 3) pieces.
Proof.
  intros W P0. unfold gen_cost. pose proof (wf_gen _ _ W) as Pg. rewrite (wf_model _ _ W). destruct (no_gen M) as [|m] eqn:Em; [lia|]. cbn [repeat]. rewrite <- Em.
  change (2%Z :: repeat 2%Z m) with (repeat 2%Z (S m)). rewrite <- Em.
  set (F := fun (st : bool * list (list (Q * Q))) (g : nat) => _).
  assert (G : forall n i st, (i = 0 \/ fst st = true) -> i + n <= no_gen M -> Forall (fun ps => List.length ps = 3) (snd st) ->
    exists r, foldM F (seq i n) st = Ok r /\ List.length (snd r) = List.length (snd st) + n /\ Forall (fun ps => List.length ps = 3) (snd r)).
  { induction n as [|n IH]; intros i st B L H; cbn [seq foldM]; [exists st; sp; auto|].
    assert (S : exists ps, F st i = Ok (true, snd st ++ [ps]) /\ List.length ps = 3).
    { unfold F. rewrite (at_here (repeat 2%Z (no_gen M)) i 2%Z) by (rewrite repeat_length; lia). cbn [rbind].
      assert (N2 : Z.eqb (nth i (repeat 2%Z (no_gen M)) 2%Z) 1 = false) by (rewrite nth_repeat; reflexivity). rewrite N2.
      rewrite (at_here (pmax M) i 0%Q) by (rewrite (wf_pmax _ _ W); lia). cbn [rbind]. destruct (Qle_bool (nth i (pmax M) 0%Q) 0) eqn:Eq.
      - apply Qle_bool_iff in Eq. destruct B as [->| ->]; [lra|]. eexists. split; reflexivity.
      - destruct (gen_pieces_total M A i W ltac:(lia)) as (ps & -> & Lp). cbn [rbind]. eexists. split; [reflexivity|auto]. }
    destruct S as (ps & -> & Lp). cbn [rbind]. destruct (IH (S i) (true, snd st ++ [ps])) as (r & -> & Lr & Fr); [auto|lia|cbn [snd]; apply Forall_app; auto|].
    exists r. sp; auto. cbn [snd] in Lr. rewrite app_length in Lr. cbn in Lr. lia. }
  destruct (G (no_gen M) 0 (false, []) (or_introl eq_refl) (le_n _) (Forall_nil _)) as (r & -> & Lr & Fr). cbn [rbind]. exists (snd r). sp; auto.
Qed.

Lemma demand_total M peak col : List.length col = no_bus M -> (peak = [] \/ List.length peak = no_bus M) -> exists l, demand M peak col = Ok l /\ List.length l = no_bus M.
Proof.
  intros L P. unfold demand. rewrite (mapM_map _ (fun i => nth i col 0%Q)) by (intros i I; apply in_seq in I; apply at_here; lia). cbn [rbind].
  destruct peak as [|q peak]; [|eexists; split; [reflexivity|destruct P; [discriminate|auto]]]. eexists. split; [reflexivity|]. now rewrite map_length, seq_length.
Qed.

Lemma index_total z l : In z l -> exists n, index_of z l = Ok n.
Proof. intros I. unfold index_of. destruct (positions_in z l I) as (n & r & -> & _). eauto. Qed.

Lemma branch_out_total M A b k : well_formed M A -> b < no_branch M -> k < List.length (cont A) -> exists o, branch_out M A b k = Ok o.
Proof.
  intros W Lb Lk. unfold branch_out. assert (R : exists st, (if line_status A then do st <- at_ (br_status M) b; Ok (Z.eqb st 0) else Ok false) = Ok st).
  { destruct (line_status A); [|eauto]. rewrite (at_here (br_status M) b 0%Z) by (rewrite (wf_status _ _ W); auto). cbn [rbind]. eauto. }
  destruct R as (st & ->). cbn [rbind]. rewrite (at_here (cont A) k []) by auto. cbn [rbind]. rewrite (at_here (nth k (cont A) []) b 0%Z); [cbn [rbind]; eauto|].
  pose proof (wf_cont _ _ W) as C. rewrite Forall_forall in C. rewrite (C (nth k (cont A) [])) by (now apply nth_In). auto.
Qed.

Lemma accepted M A : well_formed M A -> (0 < nth 0 (pmax M) 0)%Q -> exists cs, constraints M A = Ok cs.
Proof.
  intros W P0. unfold constraints, read_parameters.
  destruct (Nat.eqb_spec (no_gen M) 0) as [E|_]; [pose proof (wf_gen _ _ W); lia|]. destruct (Nat.eqb_spec (no_bus M) 0) as [E|_]; [pose proof (wf_bus _ _ W); lia|].
  destruct (Nat.eqb_spec (no_branch M) 0) as [E|_]; [pose proof (wf_branch _ _ W); lia|]. cbn [orb rbind].
  destruct (gen_cost_total M A W P0) as (pieces & -> & Lp & Fp). cbn [rbind].
  destruct (demand_total M (peak_p A) (bus_pd M) (wf_pd _ _ W) (wf_peak_p _ _ W)) as (pd & -> & Ld). cbn [rbind].
  destruct (demand_total M (peak_q A) (bus_qd M) (wf_qd _ _ W) (wf_peak_q _ _ W)) as (qd & -> & Lq). cbn [rbind]. cbv zeta.
  assert (Bn : forall g, g < no_gen M -> exists n r, positions (nth g (gen_bus M) 0%Z) (bus_i M) = n :: r /\ n < no_bus M).
  { intros g Lg. destruct (positions_in (nth g (gen_bus M) 0%Z) (bus_i M)) as (n & r & E & Fa); [apply (wf_at _ _ W), nth_In; exact Lg|]. exists n, r. split; auto. now apply first_at_lt in Fa. }
  assert (Of : forall g, g < no_gen M -> exists o, gen_off M A g = Ok o).
  { intros g Lg. unfold gen_off. destruct (gen_status A); [|eauto]. rewrite (at_here (gen_on M) g 0%Z) by (rewrite (wf_on _ _ W); auto). cbn [rbind]. eauto. }
  destruct (over3_total (no_gen M) (List.length (cont A)) (no_time A) (gen_max M A)) as (c1 & ->).
  { intros g k t Lg Lk Lt. unfold gen_max. destruct (Of g Lg) as ([] & ->); cbn [rbind]; [eauto|]. rewrite (at_here (gen_bus M) g 0%Z) by exact Lg. cbn [rbind].
    destruct (Bn g Lg) as (n & r & -> & Ln). cbn [at_ nth_error rbind]. rewrite (at_here (mult A) n 0%Q) by (rewrite (wf_mult _ _ W); auto). cbn [rbind].
    rewrite (at_here (pmax M) g 0%Q) by (rewrite (wf_pmax _ _ W); auto). cbn [rbind]. eauto. }
  cbn [rbind]. destruct (over3_total (no_gen M) (List.length (cont A)) (no_time A) (gen_min M A)) as (c2 & ->).
  { intros g k t Lg Lk Lt. unfold gen_min. destruct (Of g Lg) as ([] & ->); cbn [rbind]; [eauto|]. rewrite (at_here (pmin M) g 0%Q) by (rewrite (wf_pmin _ _ W); auto). cbn [rbind]. eauto. }
  cbn [rbind]. destruct (over4_total (no_gen M) (List.length (cont A)) 3 (no_time A) (pw_cost pieces)) as (c3 & ->).
  { intros g k p t Lg Lk Lp' Lt. unfold pw_cost. rewrite (at_here pieces g []) by lia. cbn [rbind]. rewrite (at_here (nth g pieces []) p (0, 0)%Q); [cbn [rbind]; eauto|].
    rewrite Forall_forall in Fp. rewrite (Fp (nth g pieces [])); [auto|]. apply nth_In. lia. }
  cbn [rbind]. destruct (over3_total (no_branch M) (List.length (cont A)) (no_time A) (dcpf M A)) as (c4 & ->).
  { intros b k t Lb Lk Lt. unfold dcpf. rewrite (at_here (br_x M) b 0%Q) by (rewrite (wf_x _ _ W); auto). cbn [rbind].
    destruct (Qeq_bool (m_base M) 0) eqn:Eb; [apply Qeq_bool_iff in Eb; now apply (wf_base _ _ W) in Eb|].
    rewrite (at_here (f_bus M) b 0%Z) by exact Lb. cbn [rbind]. destruct (index_total (nth b (f_bus M) 0%Z) (bus_i M)) as (f & ->); [apply (wf_from _ _ W), nth_In; exact Lb|]. cbn [rbind].
    rewrite (at_here (t_bus M) b 0%Z) by (rewrite (wf_t _ _ W); exact Lb). cbn [rbind]. destruct (index_total (nth b (t_bus M) 0%Z) (bus_i M)) as (n & ->); [apply (wf_to _ _ W), nth_In; rewrite (wf_t _ _ W); exact Lb|]. cbn [rbind].
    destruct (branch_out_total M A b k W Lb Lk) as ([] & ->); cbn [rbind]; [eauto|]. destruct (Qeq_bool (nth b (br_x M) 0%Q / m_base M) 0) eqn:Ex; [|eauto].
    exfalso. apply Qeq_bool_iff in Ex. apply (wf_reactance _ _ W b Lb). assert (N : ~ (m_base M == 0)%Q) by exact (wf_base _ _ W).
    transitivity (nth b (br_x M) 0 / m_base M * m_base M)%Q; [field; auto|]. rewrite Ex. ring. }
  cbn [rbind]. destruct (over2_total (List.length (cont A)) (no_time A) (slack M)) as (c5 & ->).
  { intros k t Lk Lt. unfold slack.
    assert (G : forall l acc, (forall b, In b l -> b < no_bus M) -> exists r, foldM (fun acc b => do ty <- at_ (bus_type M) b; Ok (if Z.eqb ty 3 then Some b else acc)) l acc = Ok r /\
      ((acc <> None \/ exists b, In b l /\ nth b (bus_type M) 0%Z = 3%Z) -> r <> None)).
    { induction l as [|b l IH]; intros acc B; cbn [foldM]; [exists acc; split; auto; intros [H|(b & [] & _)]; auto|].
      rewrite (at_here (bus_type M) b 0%Z) by (rewrite (wf_type _ _ W); apply B; now left). cbn [rbind].
      destruct (IH (if Z.eqb (nth b (bus_type M) 0%Z) 3 then Some b else acc)) as (r & -> & Hr); [intros; apply B; now right|]. exists r. split; auto.
      intros H. apply Hr. destruct H as [H|(b' & [<-|I] & E)].
      - left. now destruct (Z.eqb _ _).
      - left. rewrite E. discriminate.
      - right. eauto. }
    destruct (G (seq 0 (no_bus M)) None) as (r & -> & Hr); [intros b I; apply in_seq in I; lia|]. cbn [rbind]. destruct r as [b|]; [eauto|]. exfalso. apply Hr; auto. right.
    pose proof (wf_reference _ _ W) as I. apply (In_nth _ _ 0%Z) in I as (b & L & E). exists b. split; auto. apply in_seq. rewrite (wf_type _ _ W) in L. lia. }
  cbn [rbind]. assert (Ra : forall b, b < no_branch M -> at_ (rate_a M) b = Ok (nth b (rate_a M) 0%Q)) by (intros b Lb; apply at_here; rewrite (wf_rate _ _ W); auto).
  destruct (over3_total (no_branch M) (List.length (cont A)) (no_time A) (capacity M A)) as (c6 & ->).
  { intros b k t Lb Lk Lt. unfold capacity. destruct (branch_out_total M A b k W Lb Lk) as ([] & ->); cbn [rbind]; [eauto|]. rewrite (Ra b Lb). cbn [rbind]. destruct (Qeq_bool _ 0); [eauto|].
    rewrite (at_here (prev A) b 0%Q) by (rewrite (wf_prev _ _ W); auto). cbn [rbind]. eauto. }
  cbn [rbind]. destruct (over3_total (no_branch M) (List.length (cont A)) (no_time A) (capacity_n M A)) as (c7 & ->).
  { intros b k t Lb Lk Lt. unfold capacity_n. destruct (branch_out_total M A b k W Lb Lk) as ([] & ->); cbn [rbind]; [eauto|]. rewrite (Ra b Lb). cbn [rbind]. destruct (Qeq_bool _ 0); eauto. }
  cbn [rbind]. destruct (over3_total (no_bus M) (List.length (cont A)) (no_time A) (balance M A pd qd)) as (c8 & ->).
  { intros n k t Ln Lk Lt. unfold balance. rewrite (at_here (bus_i M) n 0%Z) by exact Ln. cbn [rbind].
    destruct (existsb (fun b => no_branch M <=? b) (positions (nth n (bus_i M) 0%Z) (t_bus M))) eqn:Ex.
    { exfalso. apply existsb_exists in Ex as (b & I & Lb). rewrite positions_spec in I. apply filter_In in I as [I _]. apply in_seq in I. apply Nat.leb_le in Lb. rewrite (wf_t _ _ W) in I. lia. }
    cbn [rbind]. rewrite (at_here (mult A) n 0%Q) by (rewrite (wf_mult _ _ W); auto). rewrite (at_here pd n 0%Q) by lia. rewrite (at_here qd n 0%Q) by lia.
    rewrite (at_here (additions A) n 0%Q) by (rewrite (wf_additions _ _ W); auto). cbn [rbind]. eauto. }
  cbn [rbind]. destruct (over3_total (no_bus M) (List.length (cont A)) (no_time A) (curtail A pd)) as (c9 & ->).
  { intros n k t Ln Lk Lt. unfold curtail. rewrite (at_here (mult A) n 0%Q) by (rewrite (wf_mult _ _ W); auto). rewrite (at_here pd n 0%Q) by lia. cbn [rbind]. eauto. }
  cbn [rbind]. eauto.
Qed.

Lemma wf_costs M A : well_formed M A -> costs_match M.
Proof. intros W g L. apply (wf_terms _ _ W g L). Qed.

(** For well-formed cases feasible answers are the plans. *)
Lemma feasible_plan M A two_pi s : well_formed M A -> (0 < nth 0 (pmax M) 0)%Q -> (feasible M A two_pi s <-> plan M A s two_pi).
Proof. intros W P. destruct (accepted M A W P) as (cs & E). apply (model_is_plan M A two_pi s cs E). now apply wf_costs with A. Qed.

(** What an accepted case must satisfy. *)
Lemma gen_cost_first M pieces : gen_cost M = Ok pieces -> 0 < no_gen M -> (0 < nth 0 (pmax M) 0)%Q.
Proof.
  unfold gen_cost. destruct (gc_model M) as [|mo ms] eqn:Em; [discriminate|]. destruct (no_gen M) as [|m]; [lia|]. cbn [seq foldM]. intros H _. cbn [at_ nth_error rbind] in H.
  destruct (Z.eqb mo 1); [discriminate|]. destruct (at_ (pmax M) 0) as [hi|] eqn:Eh; cbn [rbind] in H; [|discriminate]. rewrite (at_val _ _ _ 0%Q Eh). destruct (Qle_bool hi 0) eqn:Eq; [discriminate|].
  apply Qnot_le_lt. intros F. apply Qle_bool_iff in F. congruence.
Qed.

(** ** The objective *)

Lemma objective_is_cost M A s e : objective M A = Ok e -> (eval s e == plan_cost M A s)%Q.
Proof.
  unfold objective. destruct (_ && _ && _); [discriminate|]. intros H. inversion H; subst e. clear H. cbn [eval]. rewrite !eval_esum, !map_map. cbn [eval]. unfold plan_cost, total.
  rewrite (qsum_prod (fun b t => s (ICbra b t))). rewrite (qsum_prod (fun g t => s (Cgen g 0 t))).
  rewrite (qsum_prod (fun nk t => s (Plc (fst nk) (snd nk) t)) (list_prod (seq 0 (no_bus M)) (seq 0 (List.length (cont A))))).
  rewrite (qsum_prod (fun n k => qsum (map (fun t => s (Plc n k t)) (seq 0 (no_time A))))). reflexivity.
Qed.

(** ** Power balance of the whole network *)

Lemma total_ext n f g : (forall i, i < n -> (f i == g i)%Q) -> (total n f == total n g)%Q.
Proof. intros H. apply qsum_ext. intros i I. apply in_seq in I. apply H. lia. Qed.
Lemma total_add n f g : (total n (fun i => f i + g i) == total n f + total n g)%Q.
Proof. apply qsum_add. Qed.

Lemma operation_balance M A two_pi s k t : NoDup (bus_i M) -> (forall b, b < no_branch M -> In (nth b (f_bus M) 0%Z) (bus_i M) /\ In (nth b (t_bus M) 0%Z) (bus_i M)) ->
  operation M A s two_pi k t -> (total (no_gen M) (fun g => s (Pgen g k t)) + total (no_bus M) (fun n => s (Plc n k t)) == total (no_bus M) (demand_of M A))%Q.
Proof.
  intros N K O. assert (E : (total (no_bus M) (fun n => generated M s (nth n (bus_i M) 0%Z) k t + entering M s (nth n (bus_i M) 0%Z) k t + s (Plc n k t)) ==
    total (no_bus M) (fun n => leaving M s (nth n (bus_i M) 0%Z) k t + demand_of M A n))%Q) by (apply total_ext; intros n L; apply (op_balance _ _ _ _ _ _ O n L)).
  rewrite !total_add in E. unfold generated, entering, leaving, no_bus in E.
  rewrite (sum_over_buses (bus_i M) (no_gen M) (fun g => nth g (gen_bus M) 0%Z) (fun g => s (Pgen g k t))) in E; auto.
  - rewrite (sum_over_buses (bus_i M) (no_branch M) (fun b => nth b (t_bus M) 0%Z) (fun b => s (Pbra b k t))) in E; auto.
    + rewrite (sum_over_buses (bus_i M) (no_branch M) (fun b => nth b (f_bus M) 0%Z) (fun b => s (Pbra b k t))) in E; auto.
      * fold (no_bus M) in E. lra.
      * intros b L. left. apply K; auto.
    + intros b L. left. apply K; auto.
  - intros g L. destruct (runs_dec M A g) as [R|R]; [|right; apply (op_off _ _ _ _ _ _ O g L R)]. left. destruct (op_on _ _ _ _ _ _ O g L R) as (_ & n & F & _). now apply first_at_In in F.
Qed.

Lemma accepted_ends M A cs k t : constraints M A = Ok cs -> k < List.length (cont A) -> t < no_time A -> forall b, b < no_branch M -> In (nth b (f_bus M) 0%Z) (bus_i M) /\ In (nth b (t_bus M) 0%Z) (bus_i M).
Proof.
  intros H Lk Lt b Lb. unfold constraints in H. step H. destruct (over3_some _ _ _ _ _ E6 b k t Lb Lk Lt) as (c & Ec). unfold dcpf in Ec. step Ec. destruct (Qeq_bool _ _); [discriminate|]. step Ec.
  apply (at_val _ _ _ 0%Z) in E13, E15. apply index_of_ok in E14, E16. subst. split; eapply first_at_In; eauto.
Qed.

(** ** Orientation of the branches *)

Lemma nth_map_seq {X} (g : nat -> X) n b d : b < n -> nth b (map g (seq 0 n)) d = g b.
Proof. intros L. rewrite (nth_indep _ d (g 0)) by (now rewrite map_length, seq_length). rewrite map_nth, seq_nth by auto. reflexivity. Qed.

Section Flip.
Variables (M : mpc) (A : setup) (F : nat -> bool).
Lemma flip_branches : no_branch (flip F M) = no_branch M.
Proof. unfold no_branch at 1, flip. cbn. now rewrite map_length, seq_length. Qed.
Lemma flip_from b : b < no_branch M -> nth b (f_bus (flip F M)) 0%Z = if F b then nth b (t_bus M) 0%Z else nth b (f_bus M) 0%Z.
Proof. intros L. cbn [f_bus flip]. now rewrite nth_map_seq. Qed.
Lemma flip_to b : b < no_branch M -> nth b (t_bus (flip F M)) 0%Z = if F b then nth b (f_bus M) 0%Z else nth b (t_bus M) 0%Z.
Proof. intros L. cbn [t_bus flip]. now rewrite nth_map_seq. Qed.
Lemma flip_wf : well_formed M A -> well_formed (flip F M) A.
Proof.
  intros W. pose proof flip_branches as E. destruct W. constructor; rewrite ?E; auto; try assumption.
  - cbn [t_bus flip]. now rewrite map_length, seq_length.
  - cbn [f_bus bus_i flip]. intros z I. apply in_map_iff in I as (b & Eb & I). apply in_seq in I. destruct (F b); subst z; [apply wf_to, nth_In; rewrite wf_t; lia|apply wf_from, nth_In; unfold no_branch in I; lia].
  - cbn [t_bus bus_i flip]. intros z I. apply in_map_iff in I as (b & Eb & I). apply in_seq in I. destruct (F b); subst z; [apply wf_from, nth_In; unfold no_branch in I; lia|apply wf_to, nth_In; rewrite wf_t; lia].
Qed.
Lemma flip_net s z k t : (entering (flip F M) (flip_answer F s) z k t + leaving M s z k t == entering M s z k t + leaving (flip F M) (flip_answer F s) z k t)%Q.
Proof.
  unfold entering, leaving, total_where. rewrite flip_branches, !qsum_filter, <- !qsum_add. apply qsum_ext. intros b I. apply in_seq in I. rewrite flip_from, flip_to by lia. cbn [flip_answer].
  destruct (F b), (Z.eqb (nth b (f_bus M) 0%Z) z), (Z.eqb (nth b (t_bus M) 0%Z) z); ring.
Qed.
Lemma flip_plan two_pi s : (forall b, b < no_branch M -> F b = true -> (nth b (prev A) 0 == 0)%Q) -> plan M A s two_pi -> plan (flip F M) A (flip_answer F s) two_pi.
Proof.
  intros Z [I O]. split; [rewrite flip_branches; exact I|]. intros k t Lk Lt. destruct (O k t Lk Lt) as [Oge Oon Oof Oco Ose Ofl Oou Ora Ore Oan Oba Osh].
  constructor; rewrite ?flip_branches; auto.
  - intros b Lb S. destruct (Ofl b Lb S) as (f & n & Ff & Fn & E). rewrite flip_from, flip_to by auto. cbn [flip_answer br_x flip m_base bus_i]. destruct (F b); [exists n, f|exists f, n]; sp; auto.
    transitivity (- (s (Pbra b k t) * nth b (br_x M) 0))%Q; [ring|]. rewrite E. ring.
  - intros b Lb S. cbn [flip_answer]. specialize (Oou b Lb S). destruct (F b); lra.
  - intros b Lb S N. cbn [flip_answer rate_a flip]. specialize (Ora b Lb S N). specialize (Z b Lb). destruct (F b); [|auto]. specialize (Z eq_refl). split; lra.
  - intros n Ln. specialize (Oba n Ln). cbn [bus_i flip]. pose proof (flip_net s (nth n (bus_i M) 0%Z) k t) as E.
    change (generated (flip F M) (flip_answer F s)) with (generated M s). change (demand_of (flip F M) A) with (demand_of M A). cbn [flip_answer]. lra.
Qed.
Lemma flip_cost s : plan_cost (flip F M) A (flip_answer F s) = plan_cost M A s.
Proof. unfold plan_cost. rewrite flip_branches. reflexivity. Qed.
End Flip.

(** ** Earlier investments *)

Lemma prev_wf M A p : well_formed M A -> List.length p = no_branch M -> well_formed M (with_prev A p).
Proof. intros W L. destruct W. constructor; auto. Qed.
Lemma prev_plan M A two_pi s p : (forall b, b < no_branch M -> (nth b (prev A) 0 <= nth b p 0)%Q) -> plan M A s two_pi -> plan M (with_prev A p) s two_pi.
Proof.
  intros P [I O]. split; [exact I|]. intros k t Lk Lt. destruct (O k t Lk Lt) as [Oge Oon Oof Oco Ose Ofl Oou Ora Ore Oan Oba Osh]. constructor; auto.
  intros b Lb S N. specialize (Ora b Lb S N). specialize (P b Lb). cbn [prev with_prev]. split; lra.
Qed.
Lemma carry_plan M A two_pi s p :
  (forall b t, b < no_branch M -> t < no_time A -> (nth b (prev A) 0 + s (ICbra b t) <= nth b p 0)%Q) ->
  (forall b k t, b < no_branch M -> k < List.length (cont A) -> t < no_time A -> in_service M A b k -> ~ (nth b (rate_a M) 0 == 0)%Q -> (- s (Pbra b k t) <= nth b (rate_a M) 0)%Q) ->
  plan M A s two_pi -> plan M (with_prev A p) (no_invest s) two_pi.
Proof.
  intros P Ng [I O]. split; [intros; cbn; lra|]. intros k t Lk Lt. destruct (O k t Lk Lt) as [Oge Oon Oof Oco Ose Ofl Oou Ora Ore Oan Oba Osh]. constructor; auto.
  intros b Lb S N. specialize (Ora b Lb S N). specialize (P b t Lb Lt). specialize (Ng b k t Lb Lk Lt S N). cbn [prev with_prev no_invest]. split; lra.
Qed.

(** ** Contingencies *)

Lemma cont_wf M A c : well_formed M A -> Forall (fun row => List.length row = no_branch M) c -> well_formed M (with_cont A c).
Proof. intros W L. destruct W. constructor; auto. Qed.
Lemma cont_plan M A two_pi s c d : plan M (with_cont A (c ++ d)) s two_pi -> plan M (with_cont A c) s two_pi.
Proof.
  intros [I O]. split; [exact I|]. intros k t Lk Lt. cbn in Lk. assert (Lk' : k < List.length (cont (with_cont A (c ++ d)))) by (cbn; rewrite app_length; lia).
  assert (S : forall b, in_service M (with_cont A (c ++ d)) b k <-> in_service M (with_cont A c) b k) by (intros b; unfold in_service; cbn [cont line_status with_cont]; rewrite app_nth1 by auto; reflexivity).
  destruct (O k t Lk' Lt) as [Oge Oon Oof Oco Ose Ofl Oou Ora Ore Oan Oba Osh]. constructor; auto.
  - intros b Lb X. apply Ofl; auto. now apply S.
  - intros b Lb X. apply Oou; auto. intros Y. now apply X, S.
  - intros b Lb X. apply Ora; auto. now apply S.
Qed.
Lemma total_nonneg n f : (forall i, i < n -> (0 <= f i)%Q) -> (0 <= total n f)%Q.
Proof. intros H. unfold total. rewrite <- (qsum_zero (fun _ => 0%Q) (seq 0 n)) by reflexivity. apply qsum_le. intros i I. apply in_seq in I. apply H. lia. Qed.
Lemma total_split n m f : (total (n + m) f == total n f + total m (fun i => f (n + i)%nat))%Q.
Proof.
  unfold total. rewrite seq_app, map_app, qsum_app. cbn [Nat.add]. assert (E : seq n m = map (fun i => n + i) (seq 0 m)).
  { clear. revert n. induction m as [|m IH]; intros n; [reflexivity|]. cbn [seq map]. rewrite Nat.add_0_r. f_equal. rewrite (IH (S n)), <- seq_shift, map_map. apply map_ext. intros; lia. }
  rewrite E, map_map. reflexivity.
Qed.
Lemma total_le n f g : (forall i, i < n -> (f i <= g i)%Q) -> (total n f <= total n g)%Q.
Proof. intros H. apply qsum_le. intros i I. apply in_seq in I. apply H. lia. Qed.
Lemma total_lt n f g i : i < n -> (f i < g i)%Q -> (forall i, i < n -> (f i <= g i)%Q) -> (total n f < total n g)%Q.
Proof. intros L Lt H. apply (qsum_lt f g _ i); [apply in_seq; lia|auto|]. intros j I. apply in_seq in I. apply H. lia. Qed.
Lemma cont_cost M A two_pi s c d : (0 <= penalty A)%Q -> plan M (with_cont A (c ++ d)) s two_pi -> (plan_cost M (with_cont A c) s <= plan_cost M (with_cont A (c ++ d)) s)%Q.
Proof.
  intros P [I O]. unfold plan_cost. cbn [cicost penalty no_time cont with_cont].
  assert (L : (total (no_bus M) (fun n => total (List.length c) (fun k => total (no_time A) (fun t => s (Plc n k t)))) <= total (no_bus M) (fun n => total (List.length (c ++ d)) (fun k => total (no_time A) (fun t => s (Plc n k t)))))%Q).
  { apply total_le. intros n Ln. rewrite app_length, total_split. assert (X : (0 <= total (List.length d) (fun i => total (no_time A) (fun t => s (Plc n (List.length c + i)%nat t))))%Q); [|lra].
    apply total_nonneg. intros k Lk. apply total_nonneg. intros t Lt. assert (Lk' : List.length c + k < List.length (cont (with_cont A (c ++ d)))) by (cbn; rewrite app_length; lia).
    apply (op_shed _ _ _ _ _ _ (O _ t Lk' Lt) n Ln). }
  assert (X : (penalty A * total (no_bus M) (fun n => total (List.length c) (fun k => total (no_time A) (fun t => s (Plc n k t)))) <=
    penalty A * total (no_bus M) (fun n => total (List.length (c ++ d)) (fun k => total (no_time A) (fun t => s (Plc n k t)))))%Q); [|lra].
  rewrite !(Qmult_comm (penalty A)). now apply Qmult_le_compat_r.
Qed.

(** ** Shedding everything *)

Definition line_at (M : mpc) (g i : nat) (x : Q) : Q :=
  ((cost_at M g (breakpoint M g i) * (breakpoint M g (S i) - x) + cost_at M g (breakpoint M g (S i)) * (x - breakpoint M g i)) / (nth g (pmax M) 0 / 3))%Q.
Definition top (l : list Q) : Q := fold_right Qminmax.Qmax 0%Q l.
Lemma top_nonneg l : (0 <= top l)%Q.
Proof. induction l as [|x l IH]; cbn; [lra|]. eapply Qle_trans; [apply IH|apply Qminmax.Q.le_max_r]. Qed.
Lemma top_ge l x : In x l -> (x <= top l)%Q.
Proof. induction l as [|y l IH]; intros I; [destruct I|]. cbn. destruct I as [->|I]; [apply Qminmax.Q.le_max_l|]. eapply Qle_trans; [apply IH; auto|apply Qminmax.Q.le_max_r]. Qed.
Lemma top_hit l : (top l == 0)%Q \/ exists x, In x l /\ (top l == x)%Q.
Proof.
  induction l as [|x l IH]; [left; reflexivity|]. cbn [top fold_right]. fold (top l). destruct (Qminmax.Q.max_spec x (top l)) as [[_ E]|[_ E]].
  - destruct IH as [IH|(y & I & IH)]; [left; now rewrite E|right; exists y; split; [now right|now rewrite E]].
  - right. exists x. split; [now left|auto].
Qed.
Lemma secant_line M g i x C : (0 < nth g (pmax M) 0)%Q ->
  (cost_at M g (breakpoint M g i) * (breakpoint M g (S i) - x) + cost_at M g (breakpoint M g (S i)) * (x - breakpoint M g i) <= C * (nth g (pmax M) 0 / 3) <-> line_at M g i x <= C)%Q.
Proof.
  intros P. assert (D : (0 < nth g (pmax M) 0 / 3)%Q) by (apply Qlt_shift_div_l; lra). unfold line_at. set (d := (nth g (pmax M) 0 / 3)%Q) in *. set (y := (_ + _)%Q).
  split; intros H; [now apply Qle_shift_div_r|]. assert (E : (y == y / d * d)%Q) by (field; lra). rewrite E. apply Qmult_le_compat_r; [auto|lra].
Qed.
Definition lines_at (M : mpc) (g : nat) (x : Q) : list Q := if Qle_bool (nth g (pmax M) 0%Q) 0 then [] else map (fun i => line_at M g i x) (seq 0 3).

Definition shed_all (M : mpc) (A : setup) (v : var) : Q :=
  match v with Cgen g _ _ => top (lines_at M g 0) | Plc n _ _ => demand_of M A n | _ => 0%Q end.
Lemma total_where_zero n p f : (forall i, i < n -> (f i == 0)%Q) -> (total_where n p f == 0)%Q.
Proof. intros H. apply qsum_zero. intros i I. apply filter_In in I as [I _]. apply in_seq in I. apply H. lia. Qed.
Lemma shed_plan M A two_pi : well_formed M A -> (0 <= two_pi)%Q ->
  (forall g, g < no_gen M -> runs M A g -> (nth g (pmin M) 0 <= 0)%Q /\ (0 <= nth g (pmax M) 0)%Q) -> (forall n, n < no_bus M -> (0 <= nth n (mult A) 0)%Q) ->
  (forall b, b < no_branch M -> (0 <= nth b (rate_a M) 0)%Q /\ (0 <= nth b (prev A) 0)%Q) ->
  (forall n, n < no_bus M -> (0 <= demand_of M A n)%Q /\ (demand_of M A n <= nth n (mult A) 0 * Qabs (pd_of M A n))%Q) ->
  plan M A (shed_all M A) two_pi.
Proof.
  intros W Tp G Mu B D. split; [intros; cbn; lra|]. intros k t Lk Lt. constructor.
  - intros. cbn. lra.
  - intros g Lg R. destruct (G g Lg R) as [G1 G2]. split; [cbn; auto|]. destruct (positions_in (nth g (gen_bus M) 0%Z) (bus_i M)) as (n & r & _ & Fn); [apply (wf_at _ _ W), nth_In; exact Lg|].
    exists n. split; auto. cbn. apply first_at_lt in Fn. apply Qmult_le_0_compat; auto.
  - intros. reflexivity.
  - intros g Lg. cbn. apply top_nonneg.
  - intros g i Lg Pg Li. cbn [shed_all]. apply (secant_line M g i 0 _ Pg). apply top_ge. unfold lines_at. destruct (Qle_bool _ _) eqn:Eq; [apply Qle_bool_iff in Eq; lra|].
    apply in_map_iff. exists i. split; auto. apply in_seq. lia.
  - intros b Lb S. destruct (positions_in (nth b (f_bus M) 0%Z) (bus_i M)) as (f & r & _ & Ff); [apply (wf_from _ _ W), nth_In; exact Lb|].
    destruct (positions_in (nth b (t_bus M) 0%Z) (bus_i M)) as (n & r' & _ & Fn); [apply (wf_to _ _ W), nth_In; rewrite (wf_t _ _ W); exact Lb|]. exists f, n. sp; auto. cbn. ring.
  - intros. reflexivity.
  - intros b Lb S N. destruct (B b Lb). cbn. split; lra.
  - pose proof (wf_reference _ _ W) as I. apply (In_nth _ _ 0%Z) in I as (b & L & E). rewrite (wf_type _ _ W) in L.
    assert (X : forall m, (exists b, b < m /\ nth b (bus_type M) 0%Z = 3%Z) -> exists b, b < m /\ nth b (bus_type M) 0%Z = 3%Z /\ forall j, b < j < m -> nth j (bus_type M) 0%Z <> 3%Z).
    { clear. induction m as [|m IH]; intros (b & Lb & E); [lia|]. destruct (Z.eq_dec (nth m (bus_type M) 0%Z) 3) as [Em|Nm]; [exists m; sp; auto; intros; lia|].
      destruct IH as (b' & L' & E' & U'); [exists b; split; auto; destruct (Nat.eq_dec b m) as [->|]; [contradiction|lia]|]. exists b'. sp; auto. intros j Lj. destruct (Nat.eq_dec j m) as [->|]; auto. apply U'. lia. }
    destruct (X (no_bus M)) as (b' & L' & E' & U'); [eauto|]. exists b'. split; [split; auto|reflexivity].
  - intros n Ln. cbn. split; lra.
  - intros n Ln. unfold generated, entering, leaving. rewrite !total_where_zero by (intros; reflexivity). cbn [shed_all]. ring.
  - intros n Ln. cbn [shed_all]. destruct (D n Ln). auto.
Qed.

(** ** Cheapest answers *)

Definition var_eq_dec (v w : var) : {v = w} + {v <> w}.
Proof. decide equality; apply Nat.eq_dec. Defined.
Definition change (s : var -> Q) (v : var) (q : Q) (w : var) : Q := if var_eq_dec w v then q else s w.
Lemma change_same s v q : change s v q v = q.
Proof. unfold change. now destruct (var_eq_dec v v). Qed.
Lemma change_other s v q w : w <> v -> change s v q w = s w.
Proof. unfold change. now destruct (var_eq_dec w v). Qed.

Section Optimum.
Variables (M : mpc) (A : setup) (two_pi : Q) (s : var -> Q) (cs : list constr).
Hypothesis Built : constraints M A = Ok cs.
Hypothesis Costs : costs_match M.
Hypothesis Opt : optimal M A two_pi s.

Lemma opt_plan : plan M A s two_pi.
Proof. destruct Opt as [F _]. now apply (model_is_plan _ _ _ _ _ Built Costs). Qed.
Lemma opt_least s' : plan M A s' two_pi -> (plan_cost M A s <= plan_cost M A s')%Q.
Proof. intros P. destruct Opt as (_ & e & E & H). rewrite <- !(objective_is_cost M A _ _ E). apply H. now apply (model_is_plan _ _ _ _ _ Built Costs). Qed.

(** What branch [b] needs at time point [t]: the largest overload. *)
Definition overloads (b t : nat) : list Q :=
  flat_map (fun k => if in_service_dec M A b k then if Qeq_bool (nth b (rate_a M) 0%Q) 0 then [] else
    [s (Pbra b k t) - nth b (rate_a M) 0 - nth b (prev A) 0; - s (Pbra b k t) - nth b (rate_a M) 0]%Q else []) (seq 0 (List.length (cont A))).
Lemma overloads_spec b t q : In q (overloads b t) <-> exists k, k < List.length (cont A) /\ in_service M A b k /\ ~ (nth b (rate_a M) 0 == 0)%Q /\
  (q = s (Pbra b k t) - nth b (rate_a M) 0 - nth b (prev A) 0 \/ q = - s (Pbra b k t) - nth b (rate_a M) 0)%Q.
Proof.
  unfold overloads. rewrite in_flat_map. split.
  - intros (k & I & H). apply in_seq in I. destruct (in_service_dec M A b k) as [S|S]; [|destruct H]. destruct (Qeq_bool _ 0) eqn:Eq; [destruct H|]. exists k. sp; auto; try lia.
    + intros F. apply Qeq_bool_iff in F. congruence.
    + destruct H as [H|[H|[]]]; auto.
  - intros (k & L & S & N & H). exists k. split; [apply in_seq; lia|]. destruct (in_service_dec M A b k) as [_|S']; [|contradiction].
    destruct (Qeq_bool _ 0) eqn:Eq; [apply Qeq_bool_iff in Eq; contradiction|]. destruct H as [->| ->]; [now left|right; now left].
Qed.
Lemma invested_exactly b t : b < no_branch M -> t < no_time A -> (0 < cicost A)%Q -> (s (ICbra b t) == top (overloads b t))%Q.
Proof.
  intros Lb Lt Pc. pose proof opt_plan as [I O]. assert (G : (top (overloads b t) <= s (ICbra b t))%Q).
  { destruct (top_hit (overloads b t)) as [E|(q & Iq & E)]; rewrite E; [apply I; auto|]. apply overloads_spec in Iq as (k & Lk & S & N & Hq).
    destruct (op_rate _ _ _ _ _ _ (O k t Lk Lt) b Lb S N) as [U V]. destruct Hq as [->| ->]; lra. }
  destruct (Qlt_le_dec (top (overloads b t)) (s (ICbra b t))) as [L|L]; [|now apply Qle_antisym]. exfalso.
  set (s' := change s (ICbra b t) (top (overloads b t))).
  assert (P' : plan M A s' two_pi).
  { split.
    - intros b' t' Lb' Lt'. unfold s', change. destruct (var_eq_dec _ _); [apply top_nonneg|apply I; auto].
    - intros k' t' Lk' Lt'. destruct (O k' t' Lk' Lt') as [Oge Oon Oof Oco Ose Ofl Oou Ora Ore Oan Oba Osh]. constructor; auto.
      intros b' Lb' S N. unfold s'. rewrite (change_other _ _ _ (Pbra b' k' t')) by discriminate. unfold change. destruct (var_eq_dec _ _) as [E|E]; [|apply Ora; auto]. inversion E; subst b' t'.
      assert (J1 : In (s (Pbra b k' t) - nth b (rate_a M) 0 - nth b (prev A) 0)%Q (overloads b t)) by (apply overloads_spec; exists k'; sp; auto).
      assert (J2 : In (- s (Pbra b k' t) - nth b (rate_a M) 0)%Q (overloads b t)) by (apply overloads_spec; exists k'; sp; auto).
      apply top_ge in J1, J2. split; lra. }
  apply opt_least in P'. apply Qle_not_lt in P'. apply P'. unfold plan_cost.
  assert (Lc : (total (no_branch M) (fun b0 => total (no_time A) (fun t0 => s' (ICbra b0 t0))) < total (no_branch M) (fun b0 => total (no_time A) (fun t0 => s (ICbra b0 t0))))%Q).
  { assert (X : forall b0 t0, (s' (ICbra b0 t0) <= s (ICbra b0 t0))%Q).
    { intros b0 t0. unfold s', change. destruct (var_eq_dec _ _) as [E|E]; [|lra]. inversion E; subst. lra. }
    apply (total_lt _ _ _ b Lb).
    - apply (total_lt _ _ _ t Lt); [unfold s'; now rewrite change_same|auto].
    - intros b0 _. apply total_le. intros t0 _. apply X. }
  change (total (no_gen M) (fun g => total (no_time A) (fun t0 => s' (Cgen g 0 t0)))) with (total (no_gen M) (fun g => total (no_time A) (fun t0 => s (Cgen g 0 t0)))).
  change (total (no_bus M) (fun n => total (List.length (cont A)) (fun k => total (no_time A) (fun t0 => s' (Plc n k t0))))) with (total (no_bus M) (fun n => total (List.length (cont A)) (fun k => total (no_time A) (fun t0 => s (Plc n k t0))))).
  apply (Qmult_lt_compat_r _ _ _ Pc) in Lc. rewrite !(Qmult_comm _ (cicost A)) in Lc. lra.
Qed.

Lemma cost_exactly g t : g < no_gen M -> t < no_time A -> 0 < List.length (cont A) -> (s (Cgen g 0 t) == top (lines_at M g (s (Pgen g 0 t))))%Q.
Proof.
  intros Lg Lt Lk. pose proof opt_plan as [I O]. set (T := top (lines_at M g (s (Pgen g 0 t)))).
  assert (Li : forall q, In q (lines_at M g (s (Pgen g 0 t))) <-> (0 < nth g (pmax M) 0)%Q /\ exists i, i < 3 /\ q = line_at M g i (s (Pgen g 0 t))).
  { intros q. unfold lines_at. destruct (Qle_bool (nth g (pmax M) 0%Q) 0) eqn:Eq.
    - apply Qle_bool_iff in Eq. split; [intros []|intros [P _]; lra].
    - assert (P : (0 < nth g (pmax M) 0)%Q) by (apply Qnot_le_lt; intros F; apply Qle_bool_iff in F; congruence). rewrite in_map_iff. split.
      + intros (i & <- & J). apply in_seq in J. split; auto. exists i. split; [lia|auto].
      + intros (_ & i & L & ->). exists i. split; auto. apply in_seq. lia. }
  assert (G : (T <= s (Cgen g 0 t))%Q).
  { unfold T. destruct (top_hit (lines_at M g (s (Pgen g 0 t)))) as [E|(q & Iq & E)]; rewrite E; [apply (op_cost _ _ _ _ _ _ (O 0 t Lk Lt) g Lg)|].
    apply Li in Iq as (P & i & L & ->). apply secant_line; auto. apply (op_secants _ _ _ _ _ _ (O 0 t Lk Lt) g i Lg P L). }
  destruct (Qlt_le_dec T (s (Cgen g 0 t))) as [L|L]; [|now apply Qle_antisym]. exfalso.
  set (s' := change s (Cgen g 0 t) T).
  assert (P' : plan M A s' two_pi).
  { split; [exact I|]. intros k' t' Lk' Lt'. destruct (O k' t' Lk' Lt') as [Oge Oon Oof Oco Ose Ofl Oou Ora Ore Oan Oba Osh]. constructor; auto.
    - intros g' Lg'. unfold s', change. destruct (var_eq_dec _ _); [apply top_nonneg|auto].
    - intros g' i Lg' Pg' Li'. unfold s'. rewrite (change_other _ _ _ (Pgen g' k' t')) by discriminate. unfold change. destruct (var_eq_dec _ _) as [E|E]; [|apply Ose; auto]. inversion E; subst g' k' t'.
      apply (secant_line M g i _ _ Pg'). apply top_ge, Li. split; auto. eauto. }
  apply opt_least in P'. apply Qle_not_lt in P'. apply P'. unfold plan_cost.
  assert (Lc : (total (no_gen M) (fun g0 => total (no_time A) (fun t0 => s' (Cgen g0 0 t0))) < total (no_gen M) (fun g0 => total (no_time A) (fun t0 => s (Cgen g0 0 t0))))%Q).
  { assert (X : forall g0 t0, (s' (Cgen g0 0 t0) <= s (Cgen g0 0 t0))%Q).
    { intros g0 t0. unfold s', change. destruct (var_eq_dec _ _) as [E|E]; [|lra]. inversion E; subst. lra. }
    apply (total_lt _ _ _ g Lg).
    - apply (total_lt _ _ _ t Lt); [unfold s'; now rewrite change_same|auto].
    - intros g0 _. apply total_le. intros t0 _. apply X. }
  change (total (no_branch M) (fun b0 => total (no_time A) (fun t0 => s' (ICbra b0 t0)))) with (total (no_branch M) (fun b0 => total (no_time A) (fun t0 => s (ICbra b0 t0)))).
  change (total (no_bus M) (fun n => total (List.length (cont A)) (fun k => total (no_time A) (fun t0 => s' (Plc n k t0))))) with (total (no_bus M) (fun n => total (List.length (cont A)) (fun k => total (no_time A) (fun t0 => s (Plc n k t0))))).
  lra.
Qed.
End Optimum.

(** Secants of a convex quadratic. *)
Lemma secant_quadratic M g i x a b c : (0 < nth g (pmax M) 0)%Q -> (forall y, cost_at M g y == a * y * y + b * y + c)%Q ->
  (line_at M g i x == a * x * x + b * x + c + a * (x - breakpoint M g i) * (breakpoint M g (S i) - x))%Q.
Proof.
  intros P F. unfold line_at. assert (D : (0 < nth g (pmax M) 0 / 3)%Q) by (apply Qlt_shift_div_l; lra).
  assert (E : (breakpoint M g (S i) == breakpoint M g i + nth g (pmax M) 0 / 3)%Q).
  { unfold breakpoint. rewrite Nat2Z.inj_succ. unfold Z.succ. rewrite inject_Z_plus. change (inject_Z 1) with 1%Q. ring. }
  rewrite !F, E. set (d := (nth g (pmax M) 0 / 3)%Q) in *. set (u := breakpoint M g i). field. lra.
Qed.

(** ** The lists of results *)

Lemma qmax_of_spec : forall l x, (x <= qmax_of x l)%Q /\ (forall y, In y l -> (y <= qmax_of x l)%Q) /\ In (qmax_of x l) (x :: l).
Proof.
  induction l as [|y l IH]; intros x; cbn [qmax_of]; [sp; [lra|intros y []|now left]|]. destruct (Qle_bool y x) eqn:E.
  - apply Qle_bool_iff in E. destruct (IH x) as (A & B & C). sp; auto.
    + intros z [<-|I]; auto. lra.
    + destruct C as [C|C]; [now left|right; now right].
  - assert (L : (x <= y)%Q) by (apply Qlt_le_weak, Qnot_le_lt; intros F; apply Qle_bool_iff in F; congruence). destruct (IH y) as (A & B & C). sp; auto.
    + lra.
    + intros z [<-|I]; auto.
    + destruct C as [C|C]; [right; now left|right; now right].
Qed.
