(** The commands of the energy tree and the optimal power flow together. *)
From Coq Require Import List String Bool Arith ZArith QArith Lia Lqa Permutation.
From Verif Require Import Base Cases Network GraphData GraphDataProofs HydroTables EnergyTree Joint Glpk GlpkSpec GlpkProofs GlpkEnergy GlpkEnergyProofs GlpkRows GlpkParts GlpkNetwork GlpkNetworkSpec GlpkNetworkParts GlpkNetworkPlaces GlpkNetworkRows GlpkNetworkSystem GlpkFinal GlpkJoint.
Import ListNotations.
Open Scope nat_scope.
Open Scope list_scope.
Local Ltac sp := repeat match goal with |- _ /\ _ => split end.

(** ** Parts of the network whose rows are their own *)

Definition own (C : list (name * nat)) (p : part) : Prop := forall s, In s (pt_sp p) -> inside (pt_rows p) (rs_place s) /\ forall t, In t (rs_terms s) -> inside C (fst t).
Lemma fine_own R C p : pt_cols p = [] -> pt_cb p = [] -> NoDup (map fst (R ++ pt_rows p)) -> NoDup (map fst C) -> (forall n k, In (n, k) (pt_rows p) -> 0 < k) -> own C p -> fine R C (part_cmds p).
Proof.
  intros E1 E2 NR NC PO O. apply fine_part; auto.
  - now rewrite E1, app_nil_r.
  - rewrite E1. intros n k [I|[]]. now apply (PO n k).
  - rewrite E2. intros q b [].
  - intros s I. destruct (O s I) as (A & B). split; [now apply inside_app_r|]. intros t J. apply inside_app_l. now apply B.
Qed.
Lemma own_parts R C ps : (forall p, In p ps -> pt_cols p = [] /\ pt_cb p = [] /\ own C p) -> sound_parts R C ps.
Proof.
  revert R. induction ps as [|p r IH]; intros R H; [exact I|]. cbn [sound_parts]. destruct (H p ltac:(now left)) as (E1 & E2 & O). rewrite E1, E2. sp.
  - intros q b [].
  - intros s I. destruct (O s I) as (A & B). split; [now apply inside_app_r|]. intros t J. rewrite app_nil_r. now apply B.
  - rewrite app_nil_r. apply IH. intros q I. apply H. now right.
Qed.
Lemma own_weak C C' p : (forall q, inside C q -> inside C' q) -> own C p -> own C' p.
Proof. intros H O s I. destruct (O s I) as (A & B). split; [exact A|]. intros t J. apply H. now apply B. Qed.

Lemma net_own m p : usable m -> In p (piece_part m :: net_parts m) -> pt_cols p = [] /\ pt_cb p = [] /\ own (vcols m) p.
Proof.
  intros U. assert (W : forall rows l, (forall r, In r l -> rowed m r) -> (forall r, In r l -> inside rows (rs_place r)) -> own (vcols m) (mkPart [] [] rows l)).
  { intros rows l H H' s I. split; [now apply H'|]. intros t J. apply (terms_inside m s); auto. }
  unfold net_parts. rewrite !loss_part_eq. unfold piece_part. intros [<-|[<-|[<-|[<-|[<-|[]]]]]]; (split; [reflexivity|]; split; [reflexivity|]); apply W; intros r I.
  - apply in_vspecs. unfold vspecs. apply in_or_app. now left.
  - apply in_piece_specs in I as (k & i & j & o & u & l & c & P & E & E' & ->). exists (List.length (un_pieces u)). split; [|eapply enum_lt; eauto]. apply in_piece_rows. exists k, i, j, o, u. auto.
  - apply in_vspecs. unfold vspecs. apply in_or_app. right. apply in_or_app. now left.
  - apply in_node_specs in I as (i & j & k & n & b & P & E & T & ->). exists (List.length (nm_buses m)). split; [|eapply enum_lt; eauto]. apply in_node_rows. exists i, j, k. auto.
  - apply in_vspecs. unfold vspecs. do 2 (apply in_or_app; right). apply in_or_app. now left.
  - apply in_line_specs in I as (i & j & k & c & n & l & P & E & ->). exists (if k =? 0 then List.length (nm_lines m) else List.length (nm_lines m) - 1). split; [apply in_line_rows; exists i, j, k; auto|]. apply enum_lt in E. unfold rs_place, line_spec; cbn [fst snd]. destruct (Nat.eqb_spec k 0).
    + pose proof (lines_on_le m k). lia.
    + destruct P as (_ & _ & K). pose proof (lines_on_lt m k U ltac:(lia)). lia.
  - apply in_vspecs. unfold vspecs. do 3 (apply in_or_app; right). apply in_or_app. now left.
  - apply in_loss_part in I as (c & i & j & k & o & l & q & ab & N & P & E & O & E' & ->). exists (List.length c). split; [|eapply enum_lt; eauto]. apply (in_loss_part_rows m loss1_row _ _ _ loss1_shape). exists c, i, j, k, o, l. sp; auto.
  - apply in_vspecs. unfold vspecs. do 3 (apply in_or_app; right). apply in_or_app. now right.
  - apply in_loss_part in I as (c & i & j & k & o & l & q & ab & N & P & E & O & E' & ->). exists (List.length c). split; [|eapply enum_lt; eauto]. apply (in_loss_part_rows m loss2_row _ _ _ loss2_shape). exists c, i, j, k, o, l. sp; auto.
Qed.
Lemma vars_sound m R C : sound_parts R C (vars_parts m).
Proof.
  unfold vars_parts. cbn [sound_parts pt_cols pt_cb pt_rows pt_sp]. sp; try (intros s X; exact (False_ind _ X)); try exact I.
  - intros q b I. apply inside_app_r. assert (D : column m q) by (apply (bounded_column m q b), in_vbnds; unfold vbnds; apply in_or_app; now left). apply column_inside in D. unfold vcols in D. apply inside_app_inv in D as [D|D]; [exact D|exfalso]. apply in_flat_map in I as (pr & _ & I). apply name_of_place in I. destruct D as (c & D & _). apply in_flat_map in D as (pr' & _ & D). apply in_map with (f := fst) in D. apply opf_snd in D. cbn [fst] in D. rewrite I in D. discriminate D.
  - intros q b I. rewrite <- app_assoc. apply inside_app_r. apply column_inside, (bounded_column m q b), in_vbnds. unfold vbnds. apply in_or_app. now right.
Qed.
Lemma vars_cols m : flat_map pt_cols (vars_parts m) = vcols m.
Proof. unfold vars_parts, vcols. cbn [flat_map pt_cols]. now rewrite app_nil_r. Qed.
Lemma vars_cb m : flat_map pt_cb (vars_parts m) = vbnds m.
Proof. unfold vars_parts, vbnds. cbn [flat_map pt_cb]. now rewrite app_nil_r. Qed.
Lemma vars_desc m : described (flat_map part_cmds (vars_parts m)) (vcols m) (vbnds m) [] [] [].
Proof. pose proof (described_parts (vars_parts m)) as D. now rewrite vars_cols, vars_cb in D. Qed.
Definition net_rows (m : nm) : list (name * nat) := flat_map pt_rows (net_parts m).
Definition net_specs (m : nm) : list rowspec := flat_map pt_sp (net_parts m).
Lemma net_desc m : described (flat_map part_cmds (net_parts m)) [] [] (net_rows m) (net_specs m) [].
Proof. pose proof (described_parts (net_parts m)) as D. unfold net_parts in D. rewrite !loss_part_eq in D. cbn [flat_map pt_cols pt_cb List.app] in D. unfold net_rows, net_specs, net_parts. rewrite !loss_part_eq. exact D. Qed.
Lemma vrows_split m : vrows m = flat_map (piece_rows m) (periods m) ++ net_rows m.
Proof. unfold vrows, net_rows, net_parts. rewrite !loss_part_eq. cbn [flat_map pt_rows]. now rewrite app_nil_r. Qed.
Lemma vspecs_split m : vspecs m = flat_map (piece_specs m) (periods m) ++ net_specs m.
Proof. unfold vspecs, net_specs, net_parts. rewrite !loss_part_eq. cbn [flat_map pt_sp]. now rewrite app_nil_r. Qed.

(** ** Ramps *)

Definition all_ramp_rows (m : nm) := flat_map (ramp_rows m) (periods m).
Definition all_ramp_specs (m : nm) := flat_map (ramp_specs m) (periods m).
Definition ramp_spec (k : kind) (i j n : nat) (u : unit_) : rowspec :=
  ((ramp_row k i j, n), [((gen_name k i j, n), 1%Q); ((gen_name k i (j - 1), n), (- (1))%Q)], Bounded (- un_ramp u) (un_ramp u)).
Definition ramp_part (m : nm) : part := mkPart [] [] (all_ramp_rows m) (all_ramp_specs m).
Lemma in_ramp_rows m n z : In (n, z) (all_ramp_rows m) <-> exists k i j, In k ramped /\ period m i j /\ 0 < j /\ n = ramp_row k i j /\ z = List.length (nm_units m k) /\ 0 < z.
Proof.
  unfold all_ramp_rows. rewrite in_flat_map. split.
  - intros ((i & j) & P & I). apply in_periods in P. unfold ramp_rows in I. destruct (Nat.eqb_spec j 0) as [_|J]; [destruct I|]. apply filter_In in I as (I & Z). apply in_map_iff in I as (k & E & K). injection E as <- <-. exists k, i, j. apply Nat.ltb_lt in Z. cbn [snd] in Z. sp; auto; try apply P; lia.
  - intros (k & i & j & K & P & J & -> & -> & Z). exists (i, j). split; [now apply period_in|]. unfold ramp_rows. destruct (Nat.eqb_spec j 0); [lia|]. apply filter_In. split; [|cbn [snd]; now apply Nat.ltb_lt]. apply in_map_iff. exists k. auto.
Qed.
Lemma in_ramp_specs m r : In r (all_ramp_specs m) <-> exists k i j n u, In k ramped /\ period m i j /\ 0 < j /\ nth_error (nm_units m k) n = Some u /\ r = ramp_spec k i j n u.
Proof.
  unfold all_ramp_specs. rewrite in_flat_map. split.
  - intros ((i & j) & P & I). apply in_periods in P. unfold ramp_specs in I. destruct (Nat.eqb_spec j 0) as [_|J]; [destruct I|]. apply in_flat_map in I as (k & K & I). apply in_map_iff in I as ((n & u) & <- & I). apply in_enum in I. exists k, i, j, n, u. sp; auto; try apply P; lia.
  - intros (k & i & j & n & u & K & P & J & E & ->). exists (i, j). split; [now apply period_in|]. unfold ramp_specs. destruct (Nat.eqb_spec j 0); [lia|]. apply in_flat_map. exists k. split; [exact K|]. apply in_map_iff. exists (n, u). split; [reflexivity|]. now apply in_enum.
Qed.
Lemma ramp_string k k' i j i' j' : ramp_row k i j = ramp_row k' i' j' -> k = k' /\ i = i' /\ j = j'.
Proof. destruct k, k'; unfold ramp_row; intros E; injection E; auto; discriminate. Qed.
Lemma ramp_rows_nodup m : NoDup (map fst (all_ramp_rows m)).
Proof.
  unfold all_ramp_rows. rewrite map_flat. apply (NoDup_keyed (snd : name -> list nat) key2); [apply NoDup_periods|intros; now apply key2_inj| |].
  - intros (i & j) _. unfold ramp_rows. destruct (j =? 0); [constructor|]. apply NoDup_map_filter. cbn [map ramped fst]. constructor; [|constructor; [intros []|constructor]]. intros [E|[]]. discriminate E.
  - intros (i & j) n _ I. apply in_map_iff in I as ((n' & z) & <- & I). unfold ramp_rows in I. destruct (j =? 0); [destruct I|]. apply filter_In in I as (I & _). apply in_map_iff in I as (k & E & _). injection E as <- _. reflexivity.
Qed.
Lemma ramp_specs_nodup m : NoDup (map rs_place (all_ramp_specs m)).
Proof.
  unfold all_ramp_specs. rewrite map_flat. apply (NoDup_keyed (fun p : place => snd (fst p)) key2); [apply NoDup_periods|intros; now apply key2_inj| |].
  - intros (i & j) _. unfold ramp_specs. destruct (j =? 0); [constructor|]. rewrite map_flat. apply (NoDup_keyed (fun p : place => fst (fst p)) (fun k => fst (ramp_row k i j))).
    + repeat constructor; cbn; intuition discriminate.
    + intros [] [] _ _; (reflexivity || discriminate).
    + intros k _. rewrite map_map. unfold rs_place. cbn [fst]. apply (NoDup_map_in (fun u => (ramp_row k i j, fst u))); [apply enum_NoDup|]. intros (a & u) (b & u') Ia Ib E. injection E as E. cbn [fst] in E. subst b. apply in_enum in Ia, Ib. congruence.
    + intros k p _ I. rewrite map_map in I. apply in_map_iff in I as (u & <- & _). reflexivity.
  - intros (i & j) p _ I. apply in_map_iff in I as (r & <- & I). unfold ramp_specs in I. destruct (j =? 0); [destruct I|]. apply in_flat_map in I as (k & _ & I). apply in_map_iff in I as (u & <- & _). reflexivity.
Qed.
Lemma ramp_own m : own (vcols m) (ramp_part m).
Proof.
  intros s I. cbn [pt_sp pt_rows ramp_part] in *. apply in_ramp_specs in I as (k & i & j & n & u & K & P & J & E & ->). split.
  - exists (List.length (nm_units m k)). unfold rs_place, ramp_spec. cbn [fst snd]. apply enum_lt in E. split; [|exact E]. apply in_ramp_rows. exists k, i, j. sp; auto. lia.
  - apply enum_lt in E. destruct P as (Pi & Pj). intros t [<-|[<-|[]]]; apply gen_inside; auto; split; auto; lia.
Qed.
Lemma ramps_eq m : 0 < nm_times m -> ramps m = Ok (part_cmds (ramp_part m)).
Proof. intros T. unfold ramps. destruct (Nat.eqb_spec (nm_times m) 0); [lia|]. reflexivity. Qed.

(** ** The tree as rows *)

Section Tree.
Variables (m : tree_model) (fwd bwd : nat -> nat * nat) (w : nat -> Q) (inp out : nat -> nat -> Q).
Hypothesis OKm : sound m fwd bwd w inp out.
Notation N := (tm_nodes m).
Notation V := (tm_trees m).

Definition over_nodes {A} (f : nat -> nat -> A) : list A := flat_map (fun i => map (f i) (seq 1 (N - 1))) (seq 0 V).
Lemma in_over {A} (f : nat -> nat -> A) a : In a (over_nodes f) <-> exists i n, i < V /\ 1 <= n < N /\ a = f i n.
Proof.
  unfold over_nodes. rewrite in_flat_map. split.
  - intros (i & I & J). apply in_map_iff in J as (n & <- & J). apply in_seq in I, J. exists i, n. sp; auto; lia.
  - intros (i & n & I & J & ->). exists i. split; [apply in_seq; lia|]. apply in_map_iff. exists n. split; [reflexivity|apply in_seq; lia].
Qed.
Definition bal_spec (i n : nat) : rowspec :=
  ((TB i, n - 1), [((PS i, n), 1%Q); ((side i (snd (fwd n)), fst (fwd n)), (- (1))%Q); ((IT i, n), (- (1))%Q); ((OT i, n), 1%Q)], Fixed 0).
Definition agg_spec (i n : nat) : rowspec :=
  ((TA i, n - 1), [((TS i, n), 1%Q); ((side i (snd (bwd n)), fst (bwd n)), (- w n)%Q)] ++ (if Qeq_bool (1 - w n) 0 then [] else [((side i (snd (fwd n)), fst (fwd n)), (- (1 - w n))%Q)]), Fixed 0).
Definition bal_specs := over_nodes bal_spec.
Definition agg_specs := over_nodes agg_spec.
Lemma specs_entries (f : nat -> nat -> rowspec) (g : nat -> nat -> list cmd) : (forall i n, entries_of (g i n) = spec_entries (f i n)) -> entries_of (loop m g) = flat_map spec_entries (over_nodes f).
Proof.
  intros H. unfold loop, over_nodes. rewrite entries_flat. induction (seq 0 V) as [|i l IH]; [reflexivity|]. cbn [flat_map]. rewrite flat_map_app, <- IH. f_equal. rewrite entries_flat. clear - H. induction (seq 1 (N - 1)) as [|n r IH]; [reflexivity|]. cbn [flat_map map]. now rewrite H, IH.
Qed.
Lemma bal_desc : described (bal_l m fwd) [] [] (tree_rows m TB) bal_specs [].
Proof.
  constructor.
  - eapply bal_cols; exact OKm.
  - eapply bal_rows; exact OKm.
  - intros n o b. split; [|intros []]. intros I. exfalso. exact (no_bound_bal m fwd n o b I).
  - intros n o b. rewrite in_bal_bound, in_map_iff. split.
    + intros (i & k & L & J & -> & -> & ->). exists (bal_spec i k). split; [reflexivity|]. apply in_over. eauto 6.
    + intros (r & E & I). apply in_over in I as (i & k & L & J & ->). unfold rs_place, rs_bnd, bal_spec in E. cbn [fst snd] in E. injection E as <- <- <-. exists i, k. auto.
  - unfold bal_l, add_rows. rewrite !entries_app, entries_of_addrows, entries_limits, app_nil_r. cbn [List.app]. apply specs_entries. reflexivity.
  - intros n o q. split; [|intros []]. intros I. unfold bal_l in I. apply in_app_or in I as [I|I]; [apply in_map_iff in I as (x & E & _); discriminate E|]. apply in_app_or in I as [I|I]; [|apply in_limits in I as (i & k & _ & _ & E); discriminate E]. apply in_loop in I as (i & k & _ & _ & I). cbn in I. destruct I as [E|[E|[E|[E|[]]]]]; discriminate E.
Qed.
Lemma agg_desc : described (agg_l m fwd bwd w) [] [] (tree_rows m TA) agg_specs [].
Proof.
  constructor.
  - eapply agg_cols; exact OKm.
  - eapply agg_rows; exact OKm.
  - intros n o b. split; [|intros []]. intros I. exfalso. exact (no_bound_agg m fwd bwd w n o b I).
  - intros n o b. rewrite in_agg_bound, in_map_iff. split.
    + intros (i & k & L & J & -> & -> & ->). exists (agg_spec i k). split; [reflexivity|]. apply in_over. eauto 6.
    + intros (r & E & I). apply in_over in I as (i & k & L & J & ->). unfold rs_place, rs_bnd, agg_spec in E. cbn [fst snd] in E. injection E as <- <- <-. exists i, k. auto.
  - unfold agg_l, add_rows. rewrite !entries_app, entries_of_addrows, entries_limits, app_nil_r. cbn [List.app]. apply specs_entries. intros i n. unfold agg_p, agg_spec, spec_entries, rs_place, rs_terms. cbn [fst snd]. rewrite entries_app. destruct (Qeq_bool (1 - w n) 0); reflexivity.
  - intros n o q. split; [|intros []]. intros I. unfold agg_l in I. apply in_app_or in I as [I|I]; [apply in_map_iff in I as (x & E & _); discriminate E|]. apply in_app_or in I as [I|I]; [|apply in_limits in I as (i & k & _ & _ & E); discriminate E]. apply in_loop in I as (i & k & _ & _ & I). unfold agg_p in I. apply in_app_or in I as [[E|[E|[]]]|I]; try discriminate E. destruct (Qeq_bool (1 - w k) 0); [destruct I|]. destruct I as [E|[]]. discriminate E.
Qed.
Definition tree_bnds : list (place * bnd) := flat_map (fun i => [((PS i, 0), Fixed 0); ((TS i, 0), Fixed 0)] ++ flat_map (fun j => [((IT i, j), Fixed (inp j i)); ((OT i, j), Fixed (out j i))]) (seq 0 N)) (seq 0 V).
Lemma in_tree_bnds p b : In (p, b) tree_bnds <-> exists i, i < V /\ ((p = (PS i, 0) /\ b = Fixed 0) \/ (p = (TS i, 0) /\ b = Fixed 0) \/ (exists j, j < N /\ p = (IT i, j) /\ b = Fixed (inp j i)) \/ (exists j, j < N /\ p = (OT i, j) /\ b = Fixed (out j i))).
Proof.
  unfold tree_bnds. rewrite in_flat_map. split.
  - intros (i & I & J). apply in_seq in I. exists i. split; [lia|]. apply in_app_or in J as [[E|[E|[]]]|J]; [injection E as <- <-; auto|injection E as <- <-; auto|]. apply in_flat_map in J as (j & J & E). apply in_seq in J. destruct E as [E|[E|[]]]; injection E as <- <-; right; right; [left|right]; exists j; sp; auto; lia.
  - intros (i & L & H). exists i. split; [apply in_seq; lia|]. apply in_or_app. destruct H as [(-> & ->)|[(-> & ->)|[(j & J & -> & ->)|(j & J & -> & ->)]]]; [left; now left|left; right; now left|right|right]; apply in_flat_map; exists j; (split; [apply in_seq; lia|]); [now left|right; now left].
Qed.
Lemma tree_bnds_uniq p b b' : In (p, b) tree_bnds -> In (p, b') tree_bnds -> b = b'.
Proof.
  rewrite !in_tree_bnds. intros (i & _ & [(-> & ->)|[(-> & ->)|[(j & _ & -> & ->)|(j & _ & -> & ->)]]]) (i' & _ & [(E & ->)|[(E & ->)|[(j' & _ & E & ->)|(j' & _ & E & ->)]]]); try discriminate E; auto; injection E as -> ->; reflexivity.
Qed.
Lemma tree_bnds_inside p b : 0 < N -> In (p, b) tree_bnds -> inside (tree_cols m) p.
Proof.
  intros N0 I. apply in_tree_bnds in I as (i & L & [(-> & _)|[(-> & _)|[(j & J & -> & _)|(j & J & -> & _)]]]); apply inside_col with (i := i); auto.
Qed.
Lemma var_desc : described (var_l m inp out) (tree_cols m) tree_bnds [] [] [].
Proof.
  replace (var_l m inp out) with (part_cmds (mkPart (tree_cols m) tree_bnds [] [])).
  - apply described_part.
  - unfold part_cmds, var_l. cbn [pt_cols pt_cb pt_rows pt_sp add_rows map flat_map]. rewrite !app_nil_r. f_equal. unfold tree_bnds. rewrite map_flat. apply flat_map_ext. intros i. unfold bounds_p. rewrite map_app, map_flat. reflexivity.
Qed.
Lemma over_nodup (f : nat -> nat -> rowspec) (g : nat -> name) : (forall a b, g a = g b -> a = b) -> (forall i n, rs_place (f i n) = (g i, n - 1)) -> NoDup (map rs_place (over_nodes f)).
Proof.
  intros INJ H. unfold over_nodes. rewrite map_flat. apply (NoDup_keyed (fst : place -> name) g); [apply seq_NoDup|auto| |].
  - intros i _. rewrite map_map. apply NoDup_map_in; [apply seq_NoDup|]. intros a b Ia Ib E. rewrite !H in E. injection E as E. apply in_seq in Ia, Ib. lia.
  - intros i p _ I. rewrite map_map in I. apply in_map_iff in I as (n & <- & _). now rewrite H.
Qed.
Lemma bal_specs_nodup : NoDup (map rs_place bal_specs).
Proof. apply (over_nodup bal_spec TB); [intros a b E; now injection E|reflexivity]. Qed.
Lemma agg_specs_nodup : NoDup (map rs_place agg_specs).
Proof. apply (over_nodup agg_spec TA); [intros a b E; now injection E|reflexivity]. Qed.
Lemma bal_terms_nodup r : In r bal_specs -> NoDup (map fst (rs_terms r)).
Proof.
  intros I. apply in_over in I as (i & n & L & J & ->). destruct (sd_fwd _ _ _ _ _ _ OKm n J) as (_ & F1 & F2). unfold rs_terms, bal_spec. cbn [fst snd map].
  assert (S1 : (PS i, n) <> (side i (snd (fwd n)), fst (fwd n))) by (intros E; injection E; lia). assert (S2 : forall o, (side i (snd (fwd n)), fst (fwd n)) <> (IT i, o) /\ (side i (snd (fwd n)), fst (fwd n)) <> (OT i, o)) by (intros o; unfold side; destruct (snd (fwd n) =? 0); split; discriminate).
  constructor; [intros [E|[E|[E|[]]]]; [now apply S1|discriminate E|discriminate E]|]. constructor; [intros [E|[E|[]]]; [now apply (proj1 (S2 n))|now apply (proj2 (S2 n))]|]. constructor; [intros [E|[]]; discriminate E|]. apply NoDup_one.
Qed.
Lemma agg_terms_nodup r : In r agg_specs -> NoDup (map fst (rs_terms r)).
Proof.
  intros I. apply in_over in I as (i & n & L & J & ->). destruct (sd_fwd _ _ _ _ _ _ OKm n J) as (_ & F1 & F2). destruct (sd_bwd _ _ _ _ _ _ OKm n J) as (_ & B). unfold rs_terms, agg_spec. cbn [fst snd].
  assert (B1 : (TS i, n) <> (side i (snd (bwd n)), fst (bwd n))). { intros E. destruct B as [B|(B & _)]; [rewrite B in E; cbn in E; discriminate E|injection E; lia]. }
  assert (B2 : (side i (snd (bwd n)), fst (bwd n)) <> (side i (snd (fwd n)), fst (fwd n))). { intros E. assert (X : fst (bwd n) = fst (fwd n)) by congruence. destruct B as [B|(B & _)]; [rewrite B in X; cbn in X; lia|lia]. }
  assert (F : (TS i, n) <> (side i (snd (fwd n)), fst (fwd n))) by (intros E; injection E; lia).
  destruct (Qeq_bool (1 - w n) 0); cbn [map fst List.app].
  - constructor; [intros [E|[]]; now apply B1|]. apply NoDup_one.
  - constructor; [intros [E|[E|[]]]; [now apply B1|now apply F]|]. constructor; [intros [E|[]]; now apply B2|]. apply NoDup_one.
Qed.
Lemma bal_own : own (tree_cols m) (mkPart [] [] (tree_rows m TB) bal_specs).
Proof.
  intros s I. cbn [pt_sp pt_rows] in *. apply in_over in I as (i & n & L & J & ->). destruct (sd_fwd _ _ _ _ _ _ OKm n J) as (_ & F1 & F2). split; [now apply inside_row|]. unfold rs_terms, bal_spec. cbn [fst snd]. intros t [<-|[<-|[<-|[<-|[]]]]]; cbn [fst]; [|apply inside_side; lia| |]; apply (inside_col m i n); auto; lia.
Qed.
Lemma agg_own : own (tree_cols m) (mkPart [] [] (tree_rows m TA) agg_specs).
Proof.
  intros s I. cbn [pt_sp pt_rows] in *. apply in_over in I as (i & n & L & J & ->). destruct (sd_fwd _ _ _ _ _ _ OKm n J) as (_ & F1 & F2). destruct (sd_bwd _ _ _ _ _ _ OKm n J) as (_ & B). split; [now apply inside_row|]. unfold rs_terms, agg_spec. cbn [fst snd]. intros t I. apply in_app_or in I as [[<-|[<-|[]]]|I]; cbn [fst].
  - apply (inside_col m i n); auto; lia.
  - apply inside_side; auto. destruct B as [-> |(B & _)]; cbn [fst]; lia.
  - destruct (Qeq_bool (1 - w n) 0); [destruct I|]. destruct I as [<-|[]]. apply inside_side; auto. cbn [fst]. lia.
Qed.
End Tree.
