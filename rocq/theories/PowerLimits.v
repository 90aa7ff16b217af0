(** Flows, losses, limits and costs. *)
From Coq Require Import List Bool Arith ZArith QArith Qabs Qround Lia Lqa.
From Verif Require Import Base ReaderProofs GraphData GraphDataProofs Cases CasesProofs Network InputOutput InputOutputProofs ConverterOpen HydroSpec HydroTables HydroNet ScreeningProofs Linear LinearProofs Devices Power PowerSpec DevicesProofs FleetProofs PowerTables PowerBalance.
Import ListNotations.
Open Scope nat_scope.
Open Scope list_scope.
Local Ltac sp := repeat match goal with |- _ /\ _ => split end.

Section Limits.
Variable cf : list Q -> nat -> res (list Q).
Variables (W : power) (M : model) (s : var -> Q).
Hypothesis I : initialise cf W = Ok M.
Hypothesis A : answer W M s.

Lemma time_pos : 0 < w_time W.
Proof. destruct (initialise_inv _ _ _ I) as (gs & _ & _ & _ & _ & _ & _ & _ & _ & _ & _ & _ & _ & _ & _ & P & _). now apply previous_ok in P. Qed.

(** ** Without network *)

Definition spilled (h t : nat) : Q := if w_feas W then s (NFea h t) else 0%Q.
Theorem one_bus_balance : w_flag W = false -> forall t h, t < w_time W -> h < w_noh W -> exists q, (forall n, n < n_bus W -> load_at W n t h (q n))
  /\ (below (n_gen W) (output W s h t) + spilled h t == load_factor W * below (n_bus W) q + below (n_pump W) (pump_power W s h t))%Q.
Proof.
  intros FL t h Lt Lh. pose proof (proj1 (answer_rules _ _ _ A)) as R. destruct R as (R & _). rewrite FL in R. destruct (R t 0 h Lt ltac:(lia) Lh) as (o & E & S). clear R. unfold balance0_rule in E. apply bind_inv in E as (ds & Eds & E). apply bind_inv in E as (p & Ep & E). apply bind_inv in E as (c & Ec & E). apply bind_inv in E as (g & Eg & E). apply bind_inv in E as (ss & Ess & E). injection E as <-.
  specialize (S _ eq_refl). cbn [sat eval] in S. rewrite (no_store _ _ _ A) in Ess. cbn in Ess. injection Ess as <-. cbn [esum fold_left eval] in S. apply (gen_sum_ok W M s) in Eg. change (eval s g == below (n_gen W) (output W s h t))%Q in Eg.
  exists (fun n => nth n ds 0%Q). split.
  - intros n Ln. destruct (mapM_seq _ _ _ Eds n Ln) as (q & Eq & Nq). rewrite (nth_error_nth _ _ _ Nq). apply bind_inv in Eq as (load & El & Eq). apply bind_inv in Eq as (d & Ed & Eq). injection Eq as <-. exact (load_at_ok cf W M I n t h load d Ln El Ed).
  - assert (D : (below (n_bus W) (fun n => nth n ds 0) == qsum ds)%Q). { apply mapM_Ok, Forall2_length in Eds. rewrite seq_length in Eds. unfold below. rewrite Eds. clear. assert (X : forall l : list Q, map (fun n => nth n l 0%Q) (seq 0 (List.length l)) = l). { induction l as [|x l IH]; [reflexivity|]. cbn [List.length seq map nth]. f_equal. rewrite <- seq_shift, map_map. exact IH. } now rewrite X. }
    rewrite D. apply (gets_inv W M s) in Ep as (Vp & _). rewrite map_map in Vp. change (eval s p == below (n_pump W) (pump_power W s h t))%Q in Vp. rewrite Vp in S. apply (gets_inv W M s) in Ec as (Vc & _). assert (C : (eval s c == spilled h t)%Q). { rewrite Vc. unfold faux, spilled. destruct (w_feas W); cbn; ring. } rewrite C in S.
    unfold load_factor. rewrite FL. cbn [andb]. change (loss_factor W) with (extra W) in S. rewrite <- Eg. lra.
Qed.

(** ** Flows *)

Theorem security_flag_fails : w_flag W = true -> 0 < n_bra W -> 0 < w_noh W -> w_secflag W = false.
Proof.
  intros FL Ln Lh. destruct (w_secflag W) eqn:SF; [exfalso|reflexivity]. pose proof (proj1 (answer_rules _ _ _ A)) as R. destruct R as (R & _). rewrite FL in R. destruct R as (R & _). destruct (initialise_inv _ _ _ I) as (gs & _ & G & _ & EC & _).
  pose proof (build_grid_cases (numbers W) (w_branches W) (w_secflag W) (w_security W)) as B. rewrite G in B. rewrite SF in B. destruct B as (_ & _ & _ & _ & N1). cbn [tripped] in N1. change (List.length (w_branches W)) with (n_bra W) in N1. set (n := n_bra W) in *.
  assert (Cp : 0 < m_cases M). { rewrite EC. unfold security. rewrite SF. destruct (w_security W); [rewrite seq_length; exact Ln|cbn; lia]. }
  destruct (m_cases M) as [|k] eqn:Ek; [lia|]. assert (RN : forall b, b < n -> holds s (flow_rule W M 0 b (S k) (w_noh W - 1))) by (intros b Lb; apply R; [exact time_pos|exact Lb|lia|lia]). clear R.
  destruct (RN (n - 1) ltac:(lia)) as (o & E & _). unfold flow_rule in E. apply bind_inv in E as (br & _ & E). apply bind_inv in E as (fo & Ef & E). unfold flow_no in Ef. apply bind_inv in Ef as (r & Er & Ef). rewrite N1 in Er. apply at_nth in Er. assert (Lk : k < n). { assert (S k < List.length (fst (case_rows n (seq 0 n)))) by (apply nth_error_Some; congruence). rewrite case_rows_length, seq_length in H. lia. }
  rewrite (case_rows_nth n (seq 0 n) k k) in Er by now apply nth_seq0. injection Er as <-. apply at_nth in Ef. rewrite case_row_spec in Ef. cbn [fst] in Ef. rewrite nth_error_map, nth_seq0 in Ef by lia. cbn [option_map] in Ef. destruct (Nat.eqb_spec (S (n - 1)) k); [lia|]. injection Ef as <-.
  apply bind_inv in E as (e & _ & E). apply bind_inv in E as (v1 & _ & E). apply bind_inv in E as (v2 & _ & E). apply bind_inv in E as (f & Ef & _). apply get_inv in Ef as (_ & D). cbn [declared] in D. rewrite FL in D. cbn [andb] in D. apply andb_prop in D as (D & _). apply Nat.ltb_lt in D.
  assert (CNT : snd (case_rows n (firstn k (seq 0 n))) + counted k (n - 1) >= all_flows W M).
  { unfold all_flows. fold n. rewrite Ek. destruct k as [|k].
    - cbn [firstn case_rows fold_left snd]. unfold counted. cbn. lia.
    - assert (FS : firstn (S k) (seq 0 n) = 0 :: seq 1 k). { replace n with (S k + (n - S k)) by lia. rewrite seq_app, firstn_app, seq_length, Nat.sub_diag, firstn_O, List.app_nil_r, firstn_all2 by (rewrite seq_length; lia). reflexivity. } rewrite FS.
      assert (X : forall j, j < n -> snd (case_rows n (0 :: seq 1 j)) = n + n + j * (n - 1)). { induction j as [|j IH]; intros Lj; [change (0 :: seq 1 0) with ([] ++ [0]); rewrite case_rows_snoc; cbn [snd]; rewrite case_row_spec; cbn [snd fst case_rows fold_left]; unfold counted; cbn; lia|]. rewrite seq_S. change (0 :: seq 1 j ++ [1 + j]) with ((0 :: seq 1 j) ++ [1 + j]). rewrite case_rows_snoc. cbn [snd]. rewrite case_row_spec, IH by lia. cbn [snd]. unfold counted. replace (1 <=? 1 + j) with true by reflexivity. replace (1 + j <=? n) with true by (symmetry; apply Nat.leb_le; lia). cbn [andb]. lia. }
      rewrite X by lia. unfold counted. replace (1 <=? S k) with true by reflexivity. replace (S k <=? n - 1) with true by (symmetry; apply Nat.leb_le; lia). cbn [andb]. nia. }
  unfold con_flow in D. set (AF := all_flows W M) in *. destruct (w_noh W) as [|hh]; [lia|]. replace (S hh - 1) with hh in D by lia. nia.
Qed.
Hypothesis NF : w_secflag W = false.
Hypothesis FL : w_flag W = true.
Theorem flow_law t b xs h br i : t < w_time W -> nth_error (w_branches W) b = Some br -> xs <= List.length (w_security W) -> h < w_noh W -> flow_index (n_bra W) (w_security W) xs b = Some i ->
  exists p q, first_at (numbers W) (br_from br) p = true /\ first_at (numbers W) (br_to br) q = true /\ ~ (br_x br == 0)%Q /\ (flow W s h t xs b * br_x br == angle W s h t xs p - angle W s h t xs q)%Q.
Proof.
  intros Lt Nb Lx Lh Fi. assert (Lb : b < n_bra W) by (apply nth_error_Some; congruence). pose proof (proj1 (answer_rules _ _ _ A)) as R. destruct R as (R & _). rewrite FL in R. destruct R as (R & _). pose proof (cases_same _ _ _ I NF) as CS. destruct (R t b xs h Lt Lb ltac:(rewrite CS; lia) Lh) as (o & E & S). clear R. unfold flow_rule in E.
  rewrite (proj2 (at_nth _ _ _) Nb) in E. rewrite bind_ok in E. rewrite (flow_no_ok _ _ _ I NF xs b Lx Lb), bind_ok, Fi in E. apply bind_inv in E as (e & Ee & E). apply bind_inv in E as (v1 & Ev1 & E). apply bind_inv in E as (v2 & Ev2 & E). apply bind_inv in E as (f & Ef & E). apply bind_inv in E as (a & Ea & E). apply bind_inv in E as (c & Ec & E).
  destruct (Qeq_bool (br_x br) 0) eqn:X; [discriminate|]. injection E as <-. specialize (S _ eq_refl). apply get_inv in Ef as (-> & _). apply get_inv in Ea as (-> & _). apply get_inv in Ec as (-> & _). cbn [sat eval] in S.
  destruct (grid_facts _ _ _ I NF) as (EO & _ & _ & _). apply at_nth in Ee. destruct (F2_nth _ _ _ _ _ EO Nb) as (e' & Ne & F1 & F2). assert (e' = e) by congruence. subst e'. exists (fst e), (snd e). split; [now apply find_bus_first|]. split; [now apply find_bus_first|]. assert (NX : ~ (br_x br == 0)%Q) by (intros Z; apply Qeq_bool_iff in Z; congruence). split; [exact NX|].
  unfold volt_no in Ev1, Ev2. destruct (xs <? _); [|discriminate]. injection Ev1 as <-. injection Ev2 as <-. unfold flow, angle. rewrite Fi. unfold con_flow, con_volt, all_volts in S. rewrite (all_flows_same _ _ _ I NF), CS in S. rewrite S. field. exact NX.
Qed.
Theorem flow_limit t b xs h br : t < w_time W -> nth_error (w_branches W) b = Some br -> xs <= List.length (w_security W) -> h < w_noh W -> flow_index (n_bra W) (w_security W) xs b <> None ->
  (- (br_rate br / w_base W) <= flow W s h t xs b <= br_rate br / w_base W)%Q.
Proof.
  intros Lt Nb Lx Lh Fi. destruct (flow_index (n_bra W) (w_security W) xs b) as [i|] eqn:Ei; [|congruence]. assert (Lb : b < n_bra W) by (apply nth_error_Some; congruence). pose proof (proj1 (answer_rules _ _ _ A)) as R. destruct R as (R & _). rewrite FL in R. destruct R as (_ & R1 & R2 & _). pose proof (cases_same _ _ _ I NF) as CS. split.
  - destruct (R1 t b xs h Lt Lb ltac:(rewrite CS; lia) Lh) as (o & E & S). unfold limit_rule in E. rewrite (proj2 (at_nth _ _ _) Nb), bind_ok, (flow_no_ok _ _ _ I NF xs b Lx Lb), bind_ok, Ei in E. apply bind_inv in E as (f & Ef & E). injection E as <-. specialize (S _ eq_refl). apply get_inv in Ef as (-> & _). cbn [sat eval] in S. unfold flow. rewrite Ei. unfold con_flow in S. now rewrite (all_flows_same _ _ _ I NF) in S.
  - destruct (R2 t b xs h Lt Lb ltac:(rewrite CS; lia) Lh) as (o & E & S). unfold limit_rule in E. rewrite (proj2 (at_nth _ _ _) Nb), bind_ok, (flow_no_ok _ _ _ I NF xs b Lx Lb), bind_ok, Ei in E. apply bind_inv in E as (f & Ef & E). injection E as <-. specialize (S _ eq_refl). apply get_inv in Ef as (-> & _). cbn [sat eval] in S. unfold flow. rewrite Ei. unfold con_flow in S. now rewrite (all_flows_same _ _ _ I NF) in S.
Qed.
(** Fixed losses of the cases: the number of a flow is taken for a branch. *)
Theorem fixed_losses_no_cases : w_losses W = false -> 0 < w_noh W -> 2 <= n_bra W -> w_security W = [].
Proof.
  intros NL Lh L2. destruct (w_security W) as [|x sec] eqn:ES; [reflexivity|exfalso]. pose proof (secs_valid _ _ _ I NF) as V. rewrite ES in V. inversion V as [|? ? Bx _]; subst.
  assert (exists b, b < n_bra W /\ S b <> x) as (b & Lb & Nb) by (destruct (Nat.eq_dec x 1); [exists 1|exists 0]; lia). destruct (nth_error (w_branches W) b) as [br|] eqn:Nbr; [|apply nth_error_None in Nbr; unfold n_bra in Lb; lia].
  destruct (flow_index (n_bra W) (w_security W) 1 b) as [i|] eqn:Fi. 2:{ rewrite ES in Fi. cbn [flow_index nth_error] in Fi. destruct (Nat.eqb_spec (S b) x); [contradiction|discriminate]. }
  pose proof (ends_known _ _ _ I) as (KF & _). rewrite Forall_forall in KF. assert (Kb : In (br_from br) (numbers W)) by (apply KF; unfold froms; apply in_map; eapply nth_error_In; eauto). apply find_bus_total in Kb as (n & Fn). pose proof (find_bus_lt _ _ _ Fn) as Ln. assert (Ln2 : n < n_bus W) by (unfold numbers in Ln; now rewrite map_length in Ln).
  pose proof (proj1 (answer_rules _ _ _ A)) as R. destruct R as (R & _). rewrite FL in R. destruct R as (_ & _ & _ & _ & R). pose proof (cases_same _ _ _ I NF) as CS. rewrite ES in CS. cbn [List.length] in CS. destruct (R n 0 1 0 Ln2 time_pos ltac:(lia) Lh) as (o & E & _). clear R. unfold balance_rule in E.
  apply bind_inv in E as (sr & Esr & E). apply bind_inv in E as (si & Esi & E). apply bind_inv in E as (eff & Eeff & E). apply bind_inv in E as (fin & Ein & E). apply bind_inv in E as (fout & Eout & E). apply bind_inv in E as (lf & Elf & E). clear E. unfold half_losses in Elf. rewrite NL in Elf. apply bind_inv in Elf as (ls & Els & _).
  assert (Ii : In i fout). { unfold flows_at in Eout. apply bind_inv in Eout as (bs & Eb & Eout). apply bind_inv in Eout as (os & Eo & Eout). injection Eout as <-. apply somes_in. apply mapM_Ok in Eo. destruct (grid_facts _ _ _ I NF) as (_ & (_ & P) & _ & _). apply at_nth in Eb. rewrite P in Eb by exact Ln. injection Eb as <-.
    assert (Ib : In b (filter (fun i0 => first_at (numbers W) (nth i0 (froms W) 0) n) (seq 0 (n_bra W)))). { apply filter_In. split; [apply in_seq; lia|]. unfold froms. rewrite (nth_error_nth (map br_from (w_branches W)) b 0 (x := br_from br)) by (now rewrite nth_error_map, Nbr). now apply find_bus_first. }
    apply In_nth_error in Ib as (k & Nk). destruct (F2_nth _ _ _ _ _ Eo Nk) as (oo & No & Ho). rewrite (flow_no_ok _ _ _ I NF) in Ho by (rewrite ?ES; cbn; lia). rewrite Fi in Ho. injection Ho as <-. eapply nth_error_In; eauto. }
  apply mapM_Ok in Els. apply In_nth_error in Ii as (k & Nk). destruct (F2_nth _ _ _ _ _ Els Nk) as (q & _ & Hq). apply bind_inv in Hq as (brr & Eb & _). apply at_nth in Eb. assert (i < n_bra W) by (apply nth_error_Some; congruence).
  destruct (flow_index_case _ _ _ _ _ (secs_valid _ _ _ I NF) Lb Fi) as (j & _ & ->). lia.
Qed.

(** ** Losses *)

Theorem losses_above (l : nat) t b h br c : w_losses W = true -> t < w_time W -> nth_error (w_branches W) b = Some br -> h < w_noh W -> nth_error (m_chords M) l = Some c ->
  (br_loss br / w_base W + br_r br * (fst c + snd c * flow W s h t 0 b) <= lost W s h t b)%Q /\ (br_loss br / w_base W + br_r br * (fst c - snd c * flow W s h t 0 b) <= lost W s h t b)%Q.
Proof.
  intros LS Lt Nb Lh Nc. assert (Lb : b < n_bra W) by (apply nth_error_Some; congruence). assert (Ll : l < List.length (m_chords M)) by (apply nth_error_Some; congruence). pose proof (proj1 (answer_rules _ _ _ A)) as R. destruct R as (R & _). rewrite FL in R. destruct R as (_ & _ & _ & R & _). destruct (R LS) as (R1 & R2).
  split; [destruct (R1 b l t h Lb Ll Lt Lh) as (o & E & S)|destruct (R2 b l t h Lb Ll Lt Lh) as (o & E & S)]; unfold loss_rule in E; rewrite (proj2 (at_nth _ _ _) Nb), bind_ok, (proj2 (at_nth _ _ _) Nc), bind_ok in E; apply bind_inv in E as (v & Ev & E); apply bind_inv in E as (f & Ef & E); injection E as <-; specialize (S _ eq_refl);
    apply get_inv in Ev as (-> & _); apply get_inv in Ef as (-> & _); cbn [sat eval] in S; unfold flow, lost; cbn [flow_index]; unfold con_flow, con_loss in S; rewrite (all_flows_same _ _ _ I NF) in S; lra.
Qed.
End Limits.

Lemma chords_nth : forall pts cs, chords pts = Ok cs -> forall l a b, nth_error pts l = Some a -> nth_error pts (S l) = Some b -> nth_error cs l = Some ((a ^ 2 - a * ((b ^ 2 - a ^ 2) / (b - a)))%Q, ((b ^ 2 - a ^ 2) / (b - a))%Q) /\ ~ (b - a == 0)%Q.
Proof.
  induction pts as [|x pts IH]; intros cs E l a b Na Nb; [destruct l; discriminate|]. cbn [chords] in E. destruct pts as [|y pts]; [destruct l; cbn in Nb; [discriminate|destruct l; discriminate]|]. apply bind_inv in E as (c & Ec & E). apply bind_inv in E as (r & Er & E). injection E as <-. destruct l as [|l].
  - cbn in Na, Nb. injection Na as <-. injection Nb as <-. unfold chord in Ec. destruct (Qeq_bool (y - x) 0) eqn:X; [discriminate|]. injection Ec as <-. split; [reflexivity|]. intros Z. apply Qeq_bool_iff in Z. congruence.
  - cbn [nth_error]. apply (IH r Er l a b); auto.
Qed.
Lemma chord_value a b x : ~ (b - a == 0)%Q -> ((a ^ 2 - a * ((b ^ 2 - a ^ 2) / (b - a))) + (b ^ 2 - a ^ 2) / (b - a) * x == x ^ 2 + (b - x) * (x - a))%Q.
Proof. intros N. field. exact N. Qed.
Lemma chords_length : forall pts cs, chords pts = Ok cs -> List.length pts = S (List.length cs).
Proof. induction pts as [|x pts IH]; intros cs E; [discriminate|]. cbn [chords] in E. destruct pts as [|y pts]; [injection E as <-; reflexivity|]. apply bind_inv in E as (c & Ec & E). apply bind_inv in E as (r & Er & E). injection E as <-. cbn [List.length]. f_equal. now apply IH. Qed.
