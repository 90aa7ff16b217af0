(** The rows of the optimal power flow together, and its construction. *)
From Coq Require Import List String Bool Arith ZArith QArith Lia Lqa.
From Verif Require Import Base Cases GraphData GraphDataProofs HydroTables Glpk GlpkSpec GlpkProofs GlpkEnergy GlpkRows GlpkParts GlpkNetwork GlpkNetworkSpec GlpkNetworkParts GlpkNetworkPlaces GlpkNetworkRows.
Import ListNotations.
Open Scope nat_scope.
Open Scope list_scope.
Local Ltac sp := repeat match goal with |- _ /\ _ => split end.

Definition loss_part_rows (m : nm) (f : nat -> nat -> nat -> nat -> name) := match nm_losses m with None => [] | Some c => flat_map (loss_rows m f c) (instances m) end.
Definition loss_part_specs (m : nm) (f : nat -> nat -> nat -> nat -> name) (sign : Q) := match nm_losses m with None => [] | Some c => flat_map (loss_specs m f sign c) (instances m) end.
Definition vrows (m : nm) : list (name * nat) := flat_map (piece_rows m) (periods m) ++ node_rows m ++ line_rows m ++ loss_part_rows m loss1_row ++ loss_part_rows m loss2_row.
Definition vspecs (m : nm) : list rowspec :=
  flat_map (piece_specs m) (periods m) ++ flat_map (node_specs m) (instances m) ++ flat_map (line_specs m) (instances m) ++ loss_part_specs m loss1_row (- (1)) ++ loss_part_specs m loss2_row 1.

Lemma loss_part_eq m f sign : loss_part m f sign = mkPart [] [] (loss_part_rows m f) (loss_part_specs m f sign).
Proof. unfold loss_part, loss_part_rows, loss_part_specs. destruct (nm_losses m); reflexivity. Qed.
Lemma parts_cols m : flat_map pt_cols (opf_parts m) = vcols m.
Proof. unfold opf_parts, vars_parts, piece_part, net_parts, vcols. rewrite !loss_part_eq. cbn [flat_map List.app pt_cols]. now rewrite app_nil_r. Qed.
Lemma parts_cb m : flat_map pt_cb (opf_parts m) = vbnds m.
Proof. unfold opf_parts, vars_parts, piece_part, net_parts, vbnds. rewrite !loss_part_eq. cbn [flat_map List.app pt_cb]. now rewrite app_nil_r. Qed.
Lemma parts_rows m : flat_map pt_rows (opf_parts m) = vrows m.
Proof. unfold opf_parts, vars_parts, piece_part, net_parts, vrows. rewrite !loss_part_eq. cbn [flat_map List.app pt_rows]. now rewrite app_nil_r. Qed.
Lemma parts_sp m : flat_map pt_sp (opf_parts m) = vspecs m.
Proof. unfold opf_parts, vars_parts, piece_part, net_parts, vspecs. rewrite !loss_part_eq. cbn [flat_map List.app pt_sp]. now rewrite app_nil_r. Qed.

(** ** All rows *)

Inductive rowed (m : nm) : rowspec -> Prop :=
| rw_piece k i j o u l c : period m i j -> nth_error (nm_units m k) o = Some u -> nth_error (un_pieces u) l = Some c -> rowed m (piece_spec m k i j o l c)
| rw_node i j k n b : instance m i j k -> nth_error (nm_buses m) n = Some b -> bs_type b <> 4 -> rowed m (node_spec m i j k n b)
| rw_line i j k c n l : instance m i j k -> nth_error (lines_on m k) c = Some (n, l) -> rowed m (line_spec i j k c n l)
| rw_loss1 c i j k o l q ab : nm_losses m = Some c -> instance m i j k -> nth_error (nm_lines m) o = Some l -> ln_on l k = true -> nth_error c q = Some ab -> rowed m (loss_spec loss1_row (- (1)) i j k o q l ab)
| rw_loss2 c i j k o l q ab : nm_losses m = Some c -> instance m i j k -> nth_error (nm_lines m) o = Some l -> ln_on l k = true -> nth_error c q = Some ab -> rowed m (loss_spec loss2_row 1 i j k o q l ab).

Lemma in_loss_part m f sign r : In r (loss_part_specs m f sign) <-> exists c i j k o l q ab, nm_losses m = Some c /\ instance m i j k /\ nth_error (nm_lines m) o = Some l /\ ln_on l k = true /\ nth_error c q = Some ab /\ r = loss_spec f sign i j k o q l ab.
Proof.
  unfold loss_part_specs. destruct (nm_losses m) as [c|].
  - rewrite in_loss_specs. split; [intros (i & j & k & o & l & q & ab & H); exists c, i, j, k, o, l, q, ab; tauto|intros (c' & i & j & k & o & l & q & ab & E & H); injection E as <-; exists i, j, k, o, l, q, ab; exact H].
  - split; [intros []|intros (c & i & j & k & o & l & q & ab & E & _); discriminate E].
Qed.
Lemma in_vspecs m r : In r (vspecs m) <-> rowed m r.
Proof.
  unfold vspecs. rewrite !in_app_iff, in_piece_specs, in_node_specs, in_line_specs, !in_loss_part. split.
  - intros [(k & i & j & o & u & l & c & P & E & E' & ->)|[(i & j & k & n & b & P & E & T & ->)|[(i & j & k & c & n & l & P & E & ->)|[(c & i & j & k & o & l & q & ab & N & P & E & O & E' & ->)|(c & i & j & k & o & l & q & ab & N & P & E & O & E' & ->)]]]].
    + exact (rw_piece m k i j o u l c P E E').
    + exact (rw_node m i j k n b P E T).
    + exact (rw_line m i j k c n l P E).
    + exact (rw_loss1 m c i j k o l q ab N P E O E').
    + exact (rw_loss2 m c i j k o l q ab N P E O E').
  - destruct 1 as [k i j o u l c P E E'|i j k n b P E T|i j k c n l P E|c i j k o l q ab N P E O E'|c i j k o l q ab N P E O E'].
    + left. exists k, i, j, o, u, l, c. auto.
    + right. left. exists i, j, k, n, b. auto.
    + right. right. left. exists i, j, k, c, n, l. auto.
    + right. right. right. left. exists c, i, j, k, o, l, q, ab. sp; auto.
    + right. right. right. right. exists c, i, j, k, o, l, q, ab. sp; auto.
Qed.

Lemma in_loss_part_rows m f text n z : (forall i j k l, f i j k l = (text, [i; j; k; l])) -> In (n, z) (loss_part_rows m f) <-> exists c i j k o l, nm_losses m = Some c /\ instance m i j k /\ nth_error (nm_lines m) o = Some l /\ ln_on l k = true /\ n = f i j k o /\ z = List.length c.
Proof.
  intros F. unfold loss_part_rows. destruct (nm_losses m) as [c|].
  - rewrite in_loss_rows by exact F. split; [intros (i & j & k & o & l & H); exists c, i, j, k, o, l; tauto|intros (c' & i & j & k & o & l & E & H); injection E as <-; exists i, j, k, o, l; exact H].
  - split; [intros []|intros (c & i & j & k & o & l & E & _); discriminate E].
Qed.
Lemma loss1_shape i j k l : loss1_row i j k l = ("activepowerlosses1"%string, [i; j; k; l]).
Proof. reflexivity. Qed.
Lemma loss2_shape i j k l : loss2_row i j k l = ("activepowerlosses2"%string, [i; j; k; l]).
Proof. reflexivity. Qed.
Lemma in_vrows m n z : In (n, z) (vrows m) <->
  (exists k i j o u, period m i j /\ nth_error (nm_units m k) o = Some u /\ n = piece_name k i j o /\ z = List.length (un_pieces u)) \/
  (exists i j k, instance m i j k /\ n = node_row i j k /\ z = List.length (nm_buses m)) \/
  (exists i j k, instance m i j k /\ n = line_row i j k /\ z = if k =? 0 then List.length (nm_lines m) else List.length (nm_lines m) - 1) \/
  (exists c i j k o l, nm_losses m = Some c /\ instance m i j k /\ nth_error (nm_lines m) o = Some l /\ ln_on l k = true /\ n = loss1_row i j k o /\ z = List.length c) \/
  (exists c i j k o l, nm_losses m = Some c /\ instance m i j k /\ nth_error (nm_lines m) o = Some l /\ ln_on l k = true /\ n = loss2_row i j k o /\ z = List.length c).
Proof. unfold vrows. now rewrite !in_app_iff, in_piece_rows, in_node_rows, in_line_rows, (in_loss_part_rows m loss1_row _ n z loss1_shape), (in_loss_part_rows m loss2_row _ n z loss2_shape). Qed.
Lemma vrows_pos m n z : usable m -> In (n, z) (vrows m) -> 0 < z.
Proof.
  intros U I. pose proof (us_buses m U) as B. pose proof (us_lines m U) as L. assert (0 < List.length (nm_buses m)) by (destruct (nm_buses m); [congruence|cbn; lia]). assert (0 < List.length (nm_lines m)) by (destruct (nm_lines m); [congruence|cbn; lia]).
  assert (LC : forall c, nm_losses m = Some c -> 0 < List.length c) by (intros c E; pose proof (us_losses m U); destruct c; [congruence|cbn; lia]).
  apply in_vrows in I as [(k & i & j & o & u & _ & E & _ & ->)|[(i & j & k & _ & _ & ->)|[(i & j & k & P & _ & ->)|[(c & i & j & k & o & l & N & _ & _ & _ & _ & ->)|(c & i & j & k & o & l & N & _ & _ & _ & _ & ->)]]]]; auto.
  - pose proof (us_pieces m U k u (nth_error_In _ _ E)). destruct (un_pieces u); [congruence|cbn; lia].
  - destruct (Nat.eqb_spec k 0); [assumption|]. destruct P as (_ & _ & K). pose proof (us_conts m U). unfold cases in K. lia.
Qed.
Lemma two_parts {A B} (f : A -> B) (l l' : list A) (P : B -> Prop) : NoDup (map f l) -> NoDup (map f l') -> (forall a, In a l -> P (f a)) -> (forall a, In a l' -> ~ P (f a)) -> NoDup (map f (l ++ l')).
Proof. intros N N' H H'. rewrite map_app. apply NoDup_app'; auto. intros p I J. apply in_map_iff in I as (a & <- & I), J as (b & E & J). apply (H' b J). rewrite E. now apply H. Qed.
Lemma loss_part_nodup m f text : (forall i j k l, f i j k l = (text, [i; j; k; l])) -> NoDup (map fst (loss_part_rows m f)).
Proof. intros F. unfold loss_part_rows. destruct (nm_losses m); [|constructor]. now apply (loss_rows_nodup m f text). Qed.
Lemma vrows_nodup m : NoDup (map fst (vrows m)).
Proof.
  unfold vrows. apply (two_parts _ _ _ (fun n => exists k, fst n = fst (piece_name k 0 0 0))); [apply piece_rows_nodup| | |].
  - apply (two_parts _ _ _ (fun n => fst n = "activepowerbalancenode"%string)); [apply node_rows_nodup| | |].
    + apply (two_parts _ _ _ (fun n => fst n = "activepowerflowconstraint"%string)); [apply line_rows_nodup| | |].
      * apply (two_parts _ _ _ (fun n => fst n = "activepowerlosses1"%string)); [now apply (loss_part_nodup m loss1_row "activepowerlosses1")|now apply (loss_part_nodup m loss2_row "activepowerlosses2")| |].
        -- intros (n & z) I. apply (in_loss_part_rows m loss1_row _ n z loss1_shape) in I as (c & i & j & k & o & l & _ & _ & _ & _ & -> & _). reflexivity.
        -- intros (n & z) I. apply (in_loss_part_rows m loss2_row _ n z loss2_shape) in I as (c & i & j & k & o & l & _ & _ & _ & _ & -> & _). discriminate.
      * intros (n & z) I. apply in_line_rows in I as (i & j & k & _ & -> & _). reflexivity.
      * intros (n & z) I. apply in_app_or in I as [I|I]; [apply (in_loss_part_rows m loss1_row _ n z loss1_shape) in I|apply (in_loss_part_rows m loss2_row _ n z loss2_shape) in I]; destruct I as (c & i & j & k & o & l & _ & _ & _ & _ & -> & _); discriminate.
    + intros (n & z) I. apply in_node_rows in I as (i & j & k & _ & -> & _). reflexivity.
    + intros (n & z) I. apply in_app_or in I as [I|I]; [apply in_line_rows in I as (i & j & k & _ & -> & _); discriminate|].
      apply in_app_or in I as [I|I]; [apply (in_loss_part_rows m loss1_row _ n z loss1_shape) in I|apply (in_loss_part_rows m loss2_row _ n z loss2_shape) in I]; destruct I as (c & i & j & k & o & l & _ & _ & _ & _ & -> & _); discriminate.
  - intros (n & z) I. apply in_piece_rows in I as (k & i & j & o & u & _ & _ & -> & _). exists k. destruct k; reflexivity.
  - intros (n & z) I (kd & X). apply in_app_or in I as [I|I]; [apply in_node_rows in I as (i & j & k & _ & -> & _); destruct kd; discriminate X|].
    apply in_app_or in I as [I|I]; [apply in_line_rows in I as (i & j & k & _ & -> & _); destruct kd; discriminate X|].
    apply in_app_or in I as [I|I]; [apply (in_loss_part_rows m loss1_row _ n z loss1_shape) in I|apply (in_loss_part_rows m loss2_row _ n z loss2_shape) in I]; destruct I as (c & i & j & k & o & l & _ & _ & _ & _ & -> & _); destruct kd; discriminate X.
Qed.

Definition row_of (r : rowspec) : string := fst (fst (rs_place r)).
Lemma loss_part_specs_nodup m f text sign : (forall i j k l, f i j k l = (text, [i; j; k; l])) -> NoDup (map rs_place (loss_part_specs m f sign)).
Proof. intros F. unfold loss_part_specs. destruct (nm_losses m); [|constructor]. now apply (loss_specs_nodup m f text). Qed.
Lemma vspecs_nodup m : NoDup (map rs_place (vspecs m)).
Proof.
  unfold vspecs. apply (two_parts _ _ _ (fun p : place => exists k, fst (fst p) = fst (piece_name k 0 0 0))); [apply piece_specs_nodup| | |].
  - apply (two_parts _ _ _ (fun p : place => fst (fst p) = "activepowerbalancenode"%string)); [apply node_specs_nodup| | |].
    + apply (two_parts _ _ _ (fun p : place => fst (fst p) = "activepowerflowconstraint"%string)); [apply line_specs_nodup| | |].
      * apply (two_parts _ _ _ (fun p : place => fst (fst p) = "activepowerlosses1"%string)); [now apply (loss_part_specs_nodup m loss1_row "activepowerlosses1")|now apply (loss_part_specs_nodup m loss2_row "activepowerlosses2")| |].
        -- intros r I. apply in_loss_part in I as (c & i & j & k & o & l & q & ab & _ & _ & _ & _ & _ & ->). reflexivity.
        -- intros r I. apply in_loss_part in I as (c & i & j & k & o & l & q & ab & _ & _ & _ & _ & _ & ->). discriminate.
      * intros r I. apply in_line_specs in I as (i & j & k & c & n & l & _ & _ & ->). reflexivity.
      * intros r I. apply in_app_or in I as [I|I]; apply in_loss_part in I as (c & i & j & k & o & l & q & ab & _ & _ & _ & _ & _ & ->); discriminate.
    + intros r I. apply in_node_specs in I as (i & j & k & n & b & _ & _ & _ & ->). reflexivity.
    + intros r I. apply in_app_or in I as [I|I]; [apply in_line_specs in I as (i & j & k & c & n & l & _ & _ & ->); discriminate|].
      apply in_app_or in I as [I|I]; apply in_loss_part in I as (c & i & j & k & o & l & q & ab & _ & _ & _ & _ & _ & ->); discriminate.
  - intros r I. apply in_piece_specs in I as (k & i & j & o & u & l & c & _ & _ & _ & ->). exists k. destruct k; reflexivity.
  - intros r I (kd & X). apply in_app_or in I as [I|I]; [apply in_node_specs in I as (i & j & k & n & b & _ & _ & _ & ->); destruct kd; discriminate X|].
    apply in_app_or in I as [I|I]; [apply in_line_specs in I as (i & j & k & c & n & l & _ & _ & ->); destruct kd; discriminate X|].
    apply in_app_or in I as [I|I]; apply in_loss_part in I as (c & i & j & k & o & l & q & ab & _ & _ & _ & _ & _ & ->); destruct kd; discriminate X.
Qed.

(** ** Places of rows and of their coefficients *)

Lemma row_inside m r : usable m -> rowed m r -> inside (vrows m) (rs_place r).
Proof.
  intros U. destruct 1 as [k i j o u l c P E E'|i j k n b P E T|i j k c n l P E|c i j k o l q ab N P E O E'|c i j k o l q ab N P E O E']; unfold inside, rs_place, piece_spec, node_spec, line_spec, loss_spec; cbn [fst snd].
  - exists (List.length (un_pieces u)). split; [|eapply enum_lt; eauto]. apply in_vrows. left. exists k, i, j, o, u. auto.
  - exists (List.length (nm_buses m)). split; [|eapply enum_lt; eauto]. apply in_vrows. right. left. exists i, j, k. auto.
  - exists (if k =? 0 then List.length (nm_lines m) else List.length (nm_lines m) - 1). split; [apply in_vrows; right; right; left; exists i, j, k; auto|]. apply enum_lt in E. destruct (Nat.eqb_spec k 0).
    + pose proof (lines_on_le m k). lia.
    + destruct P as (_ & _ & K). pose proof (lines_on_lt m k U ltac:(lia)). lia.
  - exists (List.length c). split; [|eapply enum_lt; eauto]. apply in_vrows. right. right. right. left. exists c, i, j, k, o, l. sp; auto.
  - exists (List.length c). split; [|eapply enum_lt; eauto]. apply in_vrows. right. right. right. right. exists c, i, j, k, o, l. sp; auto.
Qed.
Lemma terms_inside m r t : usable m -> rowed m r -> In t (rs_terms r) -> inside (vcols m) (fst t).
Proof.
  intros U R. destruct R as [k i j o u l c P E E'|i j k n b P E T|i j k c n l P E|c i j k o l q ab N P E O E'|c i j k o l q ab N P E O E']; unfold rs_terms, piece_spec, node_spec, line_spec, loss_spec; cbn [fst snd]; intros I.
  - apply enum_lt in E. destruct I as [<-|[<-|[]]]; [now apply cost_inside|now apply gen_inside].
  - now apply (bus_terms_inside m i j k n b t).
  - apply nth_error_In in E. apply in_lines_on in E as (E & _). destruct (us_ends m U l (nth_error_In _ _ E)) as (A & B & _). apply enum_lt in E. destruct I as [<-|[<-|[<-|[]]]]; [now apply flow_inside|now apply angle_inside|now apply angle_inside].
  - apply enum_lt in E. destruct I as [<-|[<-|[]]]; [apply loss_inside; auto; congruence|now apply flow_inside].
  - apply enum_lt in E. destruct I as [<-|[<-|[]]]; [apply loss_inside; auto; congruence|now apply flow_inside].
Qed.
Lemma terms_nodup m r : usable m -> rowed m r -> NoDup (map fst (rs_terms r)).
Proof.
  intros U R. destruct R as [k i j o u l c P E E'|i j k n b P E T|i j k c n l P E|c i j k o l q ab N P E O E'|c i j k o l q ab N P E O E']; unfold rs_terms, piece_spec, node_spec, line_spec, loss_spec; cbn [fst snd].
  - cbn [map fst piece_spec snd]. constructor; [|apply NoDup_one]. intros [X|[]]. destruct k; discriminate X.
  - now apply bus_terms_nodup.
  - apply nth_error_In in E. apply in_lines_on in E as (E & _). destruct (us_ends m U l (nth_error_In _ _ E)) as (_ & _ & D & _). cbn [map fst line_spec snd]. constructor; [intros [X|[X|[]]]; discriminate X|]. constructor; [|apply NoDup_one]. intros [X|[]]. injection X as X. congruence.
  - cbn [map fst loss_spec snd]. constructor; [|apply NoDup_one]. intros [X|[]]. discriminate X.
  - cbn [map fst loss_spec snd]. constructor; [|apply NoDup_one]. intros [X|[]]. discriminate X.
Qed.

(** ** Objective *)

Inductive costed (m : nm) : place -> Prop :=
| cs_cost k i j n u : period m i j -> nth_error (nm_units m k) n = Some u -> costed m (cost_name k i j, n)
| cs_pump i j n e : period m i j -> nth_error (nm_pumps m) n = Some e -> costed m (pump_name i j, n)
| cs_lc i j k n b : nm_feas m = true -> instance m i j k -> nth_error (nm_buses m) n = Some b -> costed m (lc_name i j k, n)
| cs_gc i j k n b : nm_feas m = true -> instance m i j k -> nth_error (nm_buses m) n = Some b -> costed m (gc_name i j k, n).
Lemma costs_costed m w y p q i j : nm_flag m = true -> period m i j -> In (p, q) (common_costs m w y (i, j)) -> costed m p /\ firstn 2 (snd (fst p)) = [i; j].
Proof.
  intros FL P I. unfold common_costs in I. rewrite FL in I. apply in_app_or in I as [I|I]; [|apply in_app_or in I as [I|I]].
  - apply in_flat_map in I as (k & _ & I). apply in_map_iff in I as ((n & u) & E & I). apply in_enum in I. injection E as <- _. split; [now apply (cs_cost m k i j n u)|reflexivity].
  - apply in_map_iff in I as ((n & u) & E & I). apply in_enum in I. injection E as <- _. split; [now apply (cs_pump m i j n u)|reflexivity].
  - destruct (nm_feas m) eqn:N; [|destruct I]. apply in_flat_map in I as (k & K & I). apply in_seq in K. assert (P' : instance m i j k) by (unfold instance, period in *; lia). apply in_app_or in I as [I|I]; apply in_map_iff in I as ((n & u) & E & I); apply in_enum in I; injection E as <- _; split; try reflexivity; [now apply (cs_lc m i j k n u)|now apply (cs_gc m i j k n u)].
Qed.
Lemma objs_nodup m w y : nm_flag m = true -> NoDup (map fst (flat_map (common_costs m w y) (periods m))).
Proof.
  intros FL. rewrite map_flat. apply (NoDup_keyed (fun p : place => firstn 2 (snd (fst p))) key2); [apply NoDup_periods|intros; now apply key2_inj| |].
  - intros (i & j) _. unfold common_costs. rewrite FL. apply (NoDup_two _ _ (fun n => exists k, fst n = fst (cost_name k i j))).
    + rewrite map_flat. apply (NoDup_keyed (fun p : place => fst (fst p)) (fun k => fst (cost_name k i j))); [apply NoDup_kinds|intros [] [] _ _; (reflexivity || discriminate)|intros k _; apply NoDup_places|].
      intros k p _ I. rewrite map_map in I. apply in_map_iff in I as (u & <- & _). reflexivity.
    + apply (NoDup_two _ _ (fun n => fst n = "Pumps"%string)); [apply NoDup_places| | |].
      * destruct (nm_feas m); [|constructor]. rewrite map_flat. apply (NoDup_keyed (fun p : place => snd (fst p)) (fun k => [i; j; k])); [apply seq_NoDup|intros a b _ _ E; now injection E| |].
        -- intros k _. apply (NoDup_two _ _ (fun n => fst n = "LoadCurtailmentNode"%string)); try apply NoDup_places; intros p b I; apply in_map_iff in I as (u & E & _); injection E as <- _; [reflexivity|discriminate].
        -- intros k p _ I. apply in_map_fst in I as (b & I). apply in_app_or in I as [I|I]; apply in_map_iff in I as (u & E & _); injection E as <- _; reflexivity.
      * intros p b I. apply in_map_iff in I as (u & E & _); injection E as <- _. reflexivity.
      * intros p b I. destruct (nm_feas m); [|destruct I]. apply in_flat_map in I as (k & _ & I). apply in_app_or in I as [I|I]; apply in_map_iff in I as (u & E & _); injection E as <- _; discriminate.
    + intros p b I. apply in_flat_map in I as (k & _ & I). apply in_map_iff in I as (u & E & _); injection E as <- _. exists k. reflexivity.
    + intros p b I (kd & X). apply in_app_or in I as [I|I].
      * apply in_map_iff in I as (u & E & _); injection E as <- _. destruct kd; discriminate X.
      * destruct (nm_feas m); [|destruct I]. apply in_flat_map in I as (k & _ & I). apply in_app_or in I as [I|I]; apply in_map_iff in I as (u & E & _); injection E as <- _; destruct kd; discriminate X.
  - intros (i & j) p J I. apply in_periods in J. apply in_map_fst in I as (q & I). exact (proj2 (costs_costed m w y p q i j FL J I)).
Qed.
Lemma costed_column m p : costed m p -> column m p.
Proof. destruct 1; econstructor; eauto. Qed.
Lemma objs_inside m w y p q : nm_flag m = true -> In (p, q) (flat_map (common_costs m w y) (periods m)) -> inside (vcols m) p.
Proof.
  intros FL I. apply in_flat_map in I as ((i & j) & J & I). apply in_periods in J. apply column_inside, costed_column. exact (proj1 (costs_costed m w y p q i j FL J I)).
Qed.

(** ** The construction *)

Lemma inside_app_l R R' p : inside R p -> inside (R ++ R') p.
Proof. intros (c & I & L). exists c. split; [apply in_or_app; now left|exact L]. Qed.
Lemma inside_app_r R R' p : inside R' p -> inside (R ++ R') p.
Proof. intros (c & I & L). exists c. split; [apply in_or_app; now right|exact L]. Qed.
Lemma inside_app_inv R R' p : inside (R ++ R') p -> inside R p \/ inside R' p.
Proof. intros (c & I & L). apply in_app_or in I as [I|I]; [left|right]; exists c; auto. Qed.
Lemma inside_by R p c : inside R p -> (forall z, In (fst p, z) R -> c = z) -> snd p < c.
Proof. intros (z & I & L) H. now rewrite (H z I). Qed.

Lemma parts_sound m : usable m -> sound_parts [] [] (opf_parts m).
Proof.
  intros U. assert (CC : [] ++ flat_map (common_cols m) (periods m) ++ flat_map (opf_cols m) (instances m) = vcols m) by reflexivity.
  assert (RS : forall r, In r (vspecs m) -> inside (vrows m) (rs_place r) /\ forall t, In t (rs_terms r) -> inside (vcols m) (fst t)).
  { intros r I. apply in_vspecs in I. split; [now apply row_inside|]. intros t J. now apply (terms_inside m r). }
  unfold opf_parts, vars_parts, piece_part, net_parts. rewrite !loss_part_eq. cbn [List.app sound_parts pt_cols pt_cb pt_rows pt_sp]. rewrite !app_nil_r.
  assert (W : forall l R, (forall r, In r l -> rowed m r) -> (forall r, In r l -> inside R (rs_place r)) -> forall s, In s l -> inside R (rs_place s) /\ forall t, In t (rs_terms s) -> inside (vcols m) (fst t)).
  { intros l R H H' s I. split; [now apply H'|]. intros t J. apply (terms_inside m s); auto. }
  unfold vcols in W |- *. sp; try (intros s X; exact (False_ind _ X)); try (intros q b X; exact (False_ind _ X)); try exact I.
  - intros q b I. assert (C : column m q) by (apply (bounded_column m q b), in_vbnds; unfold vbnds; apply in_or_app; now left). apply column_inside in C. unfold vcols in C. apply inside_app_inv in C as [C|C]; [exact C|exfalso]. apply in_flat_map in I as (pr & _ & I). apply name_of_place in I. destruct C as (c & C & _). apply in_flat_map in C as (pr' & _ & C). apply in_map with (f := fst) in C. apply opf_snd in C. cbn [fst] in C. rewrite I in C. discriminate C.
  - intros q b I. apply column_inside, (bounded_column m q b), in_vbnds. unfold vbnds. apply in_or_app. now right.
  - apply W; intros r I.
    + apply in_vspecs. unfold vspecs. apply in_or_app. now left.
    + apply in_piece_specs in I as (k & i & j & o & u & l & c & P & E & E' & ->). exists (List.length (un_pieces u)). split; [|eapply enum_lt; eauto]. apply in_piece_rows. exists k, i, j, o, u. auto.
  - apply W; intros r I.
    + apply in_vspecs. unfold vspecs. apply in_or_app. right. apply in_or_app. now left.
    + apply inside_app_r. apply in_node_specs in I as (i & j & k & n & b & P & E & T & ->). exists (List.length (nm_buses m)). split; [|eapply enum_lt; eauto]. apply in_node_rows. exists i, j, k. auto.
  - apply W; intros r I.
    + apply in_vspecs. unfold vspecs. do 2 (apply in_or_app; right). apply in_or_app. now left.
    + apply inside_app_r. apply in_line_specs in I as (i & j & k & c & n & l & P & E & ->). exists (if k =? 0 then List.length (nm_lines m) else List.length (nm_lines m) - 1). split; [apply in_line_rows; exists i, j, k; auto|]. apply enum_lt in E. unfold rs_place, line_spec; cbn [fst snd]. destruct (Nat.eqb_spec k 0).
      * pose proof (lines_on_le m k). lia.
      * destruct P as (_ & _ & K). pose proof (lines_on_lt m k U ltac:(lia)). lia.
  - apply W; intros r I.
    + apply in_vspecs. unfold vspecs. do 3 (apply in_or_app; right). apply in_or_app. now left.
    + apply inside_app_r. apply in_loss_part in I as (c & i & j & k & o & l & q & ab & N & P & E & O & E' & ->). exists (List.length c). split; [|eapply enum_lt; eauto]. apply (in_loss_part_rows m loss1_row _ _ _ loss1_shape). exists c, i, j, k, o, l. sp; auto.
  - apply W; intros r I.
    + apply in_vspecs. unfold vspecs. do 3 (apply in_or_app; right). apply in_or_app. now right.
    + apply inside_app_r. apply in_loss_part in I as (c & i & j & k & o & l & q & ab & N & P & E & O & E' & ->). exists (List.length c). split; [|eapply enum_lt; eauto]. apply (in_loss_part_rows m loss2_row _ _ _ loss2_shape). exists c, i, j, k, o, l. sp; auto.
Qed.

Theorem opf_run m : usable m -> nm_flag m = true ->
  exists l S, definition_opf m = Ok l /\ run l = Ok S /\
    (solvable S = true <-> forall p b, bounded m p b -> proper b = true) /\
    exists vw : (nat -> Q) -> place -> Q,
      (forall x, feasible S x <-> conds (vcols m) (vbnds m) (vspecs m) (vw x)) /\
      (forall x n o, In n (map fst (vcols m)) -> primal S x n o = Ok (vw x (n, o))) /\
      (forall s, exists x, forall p, inside (vcols m) p -> vw x p = s p) /\
      (forall x, (objective S x == term_sum (vw x) (opf_objs m))%Q).
Proof.
  intros U FL. exists (flat_map part_cmds (opf_parts m) ++ Load :: map obj_cmd (opf_objs m)). pose proof (parts_run (opf_parts m) (opf_objs m)) as H. rewrite parts_cols, parts_cb, parts_rows, parts_sp in H.
  destruct H as (S & R & SO & vw & F & P & B & O).
  - apply vcols_nodup.
  - apply vrows_nodup.
  - intros n k [I|I]; [exact (vrows_pos m n k U I)|exact (vcols_pos m n k U I)].
  - now apply parts_sound.
  - apply vbnds_nodup.
  - apply vspecs_nodup.
  - now apply objs_nodup.
  - intros p q I. exact (objs_inside m _ _ p q FL I).
  - intros r I. apply in_vspecs in I. now apply (terms_nodup m).
  - intros p b I. apply column_inside, (bounded_column m p b). now apply in_vbnds.
  - intros r I. apply in_vspecs in I. now apply row_inside.
  - exists S. split; [now apply definition_parts|]. split; [exact R|]. split.
    + rewrite SO. split; [intros (A & _) p b I; apply (A p b); now apply in_vbnds|intros A; split; [intros p b I; apply (A p b); now apply in_vbnds|]]. intros r I. apply in_vspecs in I. destruct I; reflexivity.
    + exists vw. auto.
Qed.
