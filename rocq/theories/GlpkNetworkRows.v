(** Rows of the optimal power flow: names, places and coefficients. *)
From Coq Require Import List String Bool Arith ZArith QArith Lia Lqa.
From Verif Require Import Base Cases GraphData GraphDataProofs HydroTables Glpk GlpkSpec GlpkProofs GlpkEnergy GlpkRows GlpkParts GlpkNetwork GlpkNetworkSpec GlpkNetworkParts GlpkNetworkPlaces.
Import ListNotations.
Open Scope nat_scope.
Open Scope list_scope.
Local Ltac sp := repeat match goal with |- _ /\ _ => split end.

Lemma NoDup_one {A} (a : A) : NoDup [a].
Proof. constructor; [intros []|constructor]. Qed.

Lemma NoDup_by {A B} (g : nat * A -> B) l : NoDup (map fst l) -> (forall a b, g a = g b -> fst a = fst b) -> NoDup (map g l).
Proof.
  intros H G. induction l as [|a l IH]; [constructor|]. cbn in *. inversion H as [|? ? N H']; subst. constructor; auto. intros I. apply N. apply in_map_iff in I as (b & E & I). apply G in E. rewrite <- E. now apply in_map.
Qed.

(** ** Costs of units *)

Lemma in_piece_rows m n c : In (n, c) (flat_map (piece_rows m) (periods m)) <-> exists k i j o u, period m i j /\ nth_error (nm_units m k) o = Some u /\ n = piece_name k i j o /\ c = List.length (un_pieces u).
Proof.
  rewrite in_flat_map. split.
  - intros ((i & j) & J & I). apply in_periods in J. unfold piece_rows in I. apply in_flat_map in I as (k & _ & I). apply in_map_iff in I as ((o & u) & E & I). injection E as <- <-. apply in_enum in I. exists k, i, j, o, u. sp; auto; exact (proj1 J) || exact (proj2 J).
  - intros (k & i & j & o & u & P & E & -> & ->). exists (i, j). split; [now apply period_in|]. unfold piece_rows. apply in_flat_map. exists k. split; [apply in_kinds|]. apply in_map_iff. exists (o, u). split; [reflexivity|]. now apply in_enum.
Qed.
Lemma piece_rows_nodup m : NoDup (map fst (flat_map (piece_rows m) (periods m))).
Proof.
  rewrite map_flat. apply (NoDup_keyed (fun n : name => firstn 2 (snd n)) key2); [apply NoDup_periods|intros; now apply key2_inj| |].
  - intros (i & j) _. unfold piece_rows. rewrite map_flat. apply (NoDup_keyed (fst : name -> string) (fun k => fst (piece_name k i j 0))); [apply NoDup_kinds|intros [] [] _ _; (reflexivity || discriminate)| |].
    + intros k _. rewrite map_map. apply NoDup_by; [apply enum_nodup|]. intros a b E. now injection E.
    + intros k n _ I. rewrite map_map in I. apply in_map_iff in I as (u & <- & _). reflexivity.
  - intros (i & j) n _ I. apply in_map_fst in I as (c & I). unfold piece_rows in I. apply in_flat_map in I as (k & _ & I). apply in_map_iff in I as (u & E & _). injection E as <- _. reflexivity.
Qed.
Definition piece_spec (m : nm) (k : kind) (i j o l : nat) (c : Q * Q) : rowspec :=
  ((piece_name k i j o, l), [((cost_name k i j, o), 1%Q); ((gen_name k i j, o), (- nm_hours m j * fst c)%Q)], Lower (nm_hours m j * snd c)).
Lemma in_piece_specs m r : In r (flat_map (piece_specs m) (periods m)) <-> exists k i j o u l c, period m i j /\ nth_error (nm_units m k) o = Some u /\ nth_error (un_pieces u) l = Some c /\ r = piece_spec m k i j o l c.
Proof.
  rewrite in_flat_map. split.
  - intros ((i & j) & J & I). apply in_periods in J. unfold piece_specs in I. apply in_flat_map in I as (k & _ & I). apply in_flat_map in I as ((o & u) & I' & I). apply in_map_iff in I as ((l & c) & E & I). apply in_enum in I, I'. exists k, i, j, o, u, l, c. sp; auto; exact (proj1 J) || exact (proj2 J).
  - intros (k & i & j & o & u & l & c & P & E & E' & ->). exists (i, j). split; [now apply period_in|]. unfold piece_specs. apply in_flat_map. exists k. split; [apply in_kinds|]. apply in_flat_map. exists (o, u). split; [now apply in_enum|]. apply in_map_iff. exists (l, c). split; [reflexivity|]. now apply in_enum.
Qed.
Lemma piece_specs_nodup m : NoDup (map rs_place (flat_map (piece_specs m) (periods m))).
Proof.
  rewrite map_flat. apply (NoDup_keyed (fun p : place => firstn 2 (snd (fst p))) key2); [apply NoDup_periods|intros; now apply key2_inj| |].
  - intros (i & j) _. unfold piece_specs. rewrite map_flat. apply (NoDup_keyed (fun p : place => fst (fst p)) (fun k => fst (piece_name k i j 0))); [apply NoDup_kinds|intros [] [] _ _; (reflexivity || discriminate)| |].
    + intros k _. rewrite map_flat. apply (NoDup_keyed (fun p : place => snd (fst p)) (fun u => [i; j; fst u])); [apply enum_NoDup| | |].
      * intros (a & u) (b & u') Ia Ib E. cbn in E. injection E as <-. apply in_enum in Ia, Ib. congruence.
      * intros (o & u) _. rewrite map_map. apply NoDup_by; [apply enum_nodup|]. intros a b E. now injection E.
      * intros (o & u) p _ I. rewrite map_map in I. apply in_map_iff in I as (c & <- & _). reflexivity.
    + intros k p _ I. rewrite map_flat in I. apply in_flat_map in I as (u & _ & I). rewrite map_map in I. apply in_map_iff in I as (c & <- & _). reflexivity.
  - intros (i & j) p _ I. apply in_map_iff in I as (r & <- & I). unfold piece_specs in I. apply in_flat_map in I as (k & _ & I). apply in_flat_map in I as (u & _ & I). apply in_map_iff in I as (c & <- & _). reflexivity.
Qed.

(** ** Balance of buses *)

Lemma node_rows_nodup m : NoDup (map fst (node_rows m)).
Proof.
  unfold node_rows. rewrite map_map. cbn [fst]. apply NoDup_map_in; [apply NoDup_instances|]. intros ((i & j) & k) ((i' & j') & k') _ _ E. cbn in E. injection E as -> -> ->. reflexivity.
Qed.
Lemma in_node_rows m n c : In (n, c) (node_rows m) <-> exists i j k, instance m i j k /\ n = node_row i j k /\ c = List.length (nm_buses m).
Proof.
  unfold node_rows. rewrite in_map_iff. split.
  - intros (((i & j) & k) & E & I). injection E as <- <-. apply in_instances in I. exists i, j, k. unfold instance. tauto.
  - intros (i & j & k & P & -> & ->). exists (i, j, k). split; [reflexivity|now apply instance_in].
Qed.
Definition node_spec (m : nm) (i j k n : nat) (b : bus) : rowspec := ((node_row i j k, n), bus_terms m i j k n b, Fixed (resource m i j n b)).
Lemma in_node_specs m r : In r (flat_map (node_specs m) (instances m)) <-> exists i j k n b, instance m i j k /\ nth_error (nm_buses m) n = Some b /\ bs_type b <> 4 /\ r = node_spec m i j k n b.
Proof.
  rewrite in_flat_map. split.
  - intros (((i & j) & k) & J & I). apply in_instances in J. unfold node_specs in I. apply in_flat_map in I as ((n & b) & I' & I). unfold bus_spec in I. cbn [fst snd] in I. destruct (Nat.eqb_spec (bs_type b) 4); [destruct I|]. destruct I as [<-|[]]. apply in_enum in I'. exists i, j, k, n, b. unfold instance. sp; auto; tauto.
  - intros (i & j & k & n & b & P & E & T & ->). exists (i, j, k). split; [now apply instance_in|]. unfold node_specs. apply in_flat_map. exists (n, b). split; [now apply in_enum|]. unfold bus_spec. cbn [fst snd]. apply Nat.eqb_neq in T. rewrite T. now left.
Qed.
Lemma node_specs_nodup m : NoDup (map rs_place (flat_map (node_specs m) (instances m))).
Proof.
  rewrite map_flat. apply (NoDup_keyed (fun p : place => snd (fst p)) key3); [apply NoDup_instances|intros; now apply key3_inj| |].
  - intros ((i & j) & k) _. unfold node_specs. rewrite map_flat. apply (NoDup_keyed (snd : place -> nat) fst); [apply enum_NoDup| | |].
    + intros (a & u) (b & u') Ia Ib E. cbn in E. subst b. apply in_enum in Ia, Ib. congruence.
    + intros (n & b) _. unfold bus_spec. destruct (bs_type (snd (n, b)) =? 4); [constructor|]. apply NoDup_one.
    + intros (n & b) p _ I. unfold bus_spec in I. destruct (bs_type (snd (n, b)) =? 4); [destruct I|]. destruct I as [<-|[]]. reflexivity.
  - intros ((i & j) & k) p _ I. apply in_map_iff in I as (r & <- & I). unfold node_specs in I. apply in_flat_map in I as (b & _ & I). unfold bus_spec in I. destruct (bs_type (snd b) =? 4); [destruct I|]. destruct I as [<-|[]]. reflexivity.
Qed.

(** The columns of a row of a bus. *)
Lemma in_gen_terms m i j b t : In t (gen_terms m i j b) <-> exists k n u, nth_error (nm_units m k) n = Some u /\ un_bus u = bs_no b /\ t = ((gen_name k i j, n), 1%Q).
Proof.
  unfold gen_terms. rewrite in_flat_map. split.
  - intros (k & _ & I). apply in_flat_map in I as ((n & u) & I' & I). cbn [fst snd] in I. destruct (Nat.eqb_spec (un_bus u) (bs_no b)); [|destruct I]. destruct I as [<-|[]]. apply in_enum in I'. exists k, n, u. auto.
  - intros (k & n & u & E & B & ->). exists k. split; [apply in_kinds|]. apply in_flat_map. exists (n, u). split; [now apply in_enum|]. cbn [fst snd]. rewrite B, Nat.eqb_refl. now left.
Qed.
Lemma in_store_terms m i j t : In t (store_terms m i j) <-> exists n e, nth_error (nm_stores m) n = Some e /\ t = ((store_name i j, n), (e / nm_hours m (j - 1))%Q).
Proof.
  unfold store_terms. rewrite in_map_iff. split; [intros ((n & e) & <- & I)|intros (n & e & E & ->)].
  - apply in_enum in I. exists n, e. auto.
  - exists (n, e). split; [reflexivity|now apply in_enum].
Qed.
Lemma in_pump_terms m i j t : In t (pump_terms m i j) -> exists n e, nth_error (nm_pumps m) n = Some e /\ fst t = (pump_name i j, n).
Proof. unfold pump_terms. intros I. apply in_flat_map in I as ((n & e) & I' & I). destruct (Qle_bool _ _); [destruct I|]. destruct I as [<-|[]]. apply in_enum in I'. exists n, e. auto. Qed.
Lemma in_flow_terms m i j k b t : In t (flow_terms m i j k b) -> exists n l, nth_error (nm_lines m) n = Some l /\ fst t = (flow_name i j k, n).
Proof.
  unfold flow_terms. intros I. apply in_flat_map in I as ((n & l) & I' & I). apply in_enum in I'. exists n, l. split; auto. apply in_app_or in I as [I|I].
  - destruct (ln_from _ =? _); [|destruct I]. destruct I as [<-|[]]. reflexivity.
  - destruct (ln_to _ =? _); [|destruct I]. destruct I as [<-|[]]. reflexivity.
Qed.
Lemma in_loss_terms m i j k b t : In t (loss_terms m i j k b) -> nm_losses m <> None /\ exists n l, nth_error (nm_lines m) n = Some l /\ fst t = (loss_name i j k, n).
Proof.
  unfold loss_terms. destruct (nm_losses m); [|intros []]. intros I. split; [discriminate|]. apply in_flat_map in I as ((n & l0) & I' & I). apply in_enum in I'. exists n, l0. split; auto. destruct (_ || _); [|destruct I]. destruct I as [<-|[]]. reflexivity.
Qed.
Lemma in_curtail_terms m i j k n t : In t (curtail_terms m i j k n) -> nm_feas m = true /\ (fst t = (lc_name i j k, n) \/ fst t = (gc_name i j k, n)).
Proof. unfold curtail_terms. destruct (nm_feas m); [|intros []]. intros [<-|[<-|[]]]; auto. Qed.

Lemma bus_terms_inside m i j k n b t : usable m -> instance m i j k -> nth_error (nm_buses m) n = Some b -> In t (bus_terms m i j k n b) -> inside (vcols m) (fst t).
Proof.
  intros U P EB I. assert (P' : period m i j) by (unfold period, instance in *; tauto). unfold bus_terms in I. apply in_app_or in I as [I|I]; [|apply in_app_or in I as [I|I]; [|apply in_app_or in I as [I|I]; [|apply in_app_or in I as [I|I]; [|apply in_app_or in I as [I|I]]]]].
  - apply in_gen_terms in I as (kd & o & u & E & _ & ->). apply gen_inside; auto. eapply enum_lt; eauto.
  - destruct (stored m j) eqn:ST; [|destruct I]. destruct (stored_cases m j U ltac:(unfold instance in *; tauto) ST) as (J0 & L1 & _). apply in_app_or in I as [I|I].
    + apply in_store_terms in I as (o & e & E & ->). apply store_inside; auto. eapply enum_lt; eauto.
    + destruct I as [<-|[]]. apply store_inside; [unfold period in *; lia|lia].
  - apply in_pump_terms in I as (o & e & E & ->). apply pump_inside; auto. eapply enum_lt; eauto.
  - apply in_flow_terms in I as (o & e & E & ->). apply flow_inside; auto. eapply enum_lt; eauto.
  - apply in_loss_terms in I as (N & o & e & E & ->). apply loss_inside; auto. eapply enum_lt; eauto.
  - apply in_curtail_terms in I as (N & [-> | ->]); [apply lc_inside|apply gc_inside]; auto; eapply enum_lt; eauto.
Qed.

Lemma gen_terms_nodup m i j b : NoDup (map fst (gen_terms m i j b)).
Proof.
  unfold gen_terms. rewrite map_flat. apply (NoDup_keyed (fun p : place => fst (fst p)) (fun k => fst (gen_name k i j))); [apply NoDup_kinds|intros [] [] _ _; (reflexivity || discriminate)| |].
  - intros k _. apply (NoDup_some _ (gen_name k i j)).
    + intros u q I. destruct (_ =? _); [|destruct I]. destruct I as [<-|[]]. reflexivity.
    + intros u. destruct (_ =? _); [apply NoDup_one|constructor].
  - intros k p _ I. apply in_map_iff in I as (t & <- & I). apply in_flat_map in I as (u & _ & I). destruct (_ =? _); [|destruct I]. destruct I as [<-|[]]. reflexivity.
Qed.
Lemma bus_terms_nodup m i j k n b : usable m -> instance m i j k -> NoDup (map fst (bus_terms m i j k n b)).
Proof.
  intros U P. unfold bus_terms.
  apply (NoDup_two _ _ (fun x => exists kd, fst x = fst (gen_name kd i j))); [apply gen_terms_nodup| |intros p a I; apply in_gen_terms in I as (kd & o & u & _ & _ & E); injection E as -> _; exists kd; reflexivity|].
  apply (NoDup_two _ _ (fun x => fst x = "ESS"%string)).
  - destruct (stored m j) eqn:ST; [|constructor]. destruct (stored_cases m j U ltac:(unfold instance in *; tauto) ST) as (J0 & _ & _). apply (NoDup_two _ _ (fun x => snd x = [i; j])).
    + apply NoDup_places.
    + apply NoDup_one.
    + intros p a I. apply in_store_terms in I as (o & e & _ & E). injection E as -> _. reflexivity.
    + intros p a [E|[]] X. injection E as <- _. cbn in X. injection X as X. lia.
  - apply (NoDup_two _ _ (fun x => fst x = "Pumps"%string)).
    + apply (NoDup_some _ (pump_name i j)).
      * intros u q I. destruct (Qle_bool _ _); [destruct I|]. destruct I as [<-|[]]. reflexivity.
      * intros u. destruct (Qle_bool _ _); [constructor|apply NoDup_one].
    + apply (NoDup_two _ _ (fun x => fst x = "ActivePowerFlow"%string)).
      * unfold flow_terms. rewrite map_flat. apply (NoDup_keyed (snd : place -> nat) fst); [apply enum_NoDup| | |].
        -- intros (a & u) (a' & u') Ia Ib E. cbn in E. subst a'. apply in_enum in Ia, Ib. congruence.
        -- intros (o & l) I. apply in_enum in I. cbn [fst snd]. destruct (us_ends m U l (nth_error_In _ _ I)) as (_ & _ & _ & N). destruct (Nat.eqb_spec (ln_from l) (bs_no b)), (Nat.eqb_spec (ln_to l) (bs_no b)); try apply NoDup_one; [congruence|constructor].
        -- intros (o & l) p _ I. apply in_map_iff in I as (t & <- & I). cbn [fst snd] in I. apply in_app_or in I as [I|I]; (destruct (_ =? _); [|destruct I]); destruct I as [<-|[]]; reflexivity.
      * apply (NoDup_two _ _ (fun x => fst x = "ActivePowerLosses"%string)).
        -- unfold loss_terms. destruct (nm_losses m); [|constructor]. apply (NoDup_some _ (loss_name i j k)).
           ++ intros u q I. destruct (_ || _); [|destruct I]. destruct I as [<-|[]]. reflexivity.
           ++ intros u. destruct (_ || _); [apply NoDup_one|constructor].
        -- unfold curtail_terms. destruct (nm_feas m); [|constructor]. cbn. constructor; [|apply NoDup_one]. intros [E|[]]. discriminate E.
        -- intros p a I. apply in_loss_terms in I as (_ & o & l & _ & E). cbn [fst] in E. subst p. reflexivity.
        -- intros p a I. apply in_curtail_terms in I as (_ & [E|E]); cbn [fst] in E; subst p; discriminate.
      * intros p a I. apply in_flow_terms in I as (o & l & _ & E). cbn [fst] in E. subst p. reflexivity.
      * intros p a I. apply in_app_or in I as [I|I]; [apply in_loss_terms in I as (_ & o & l & _ & E); cbn [fst] in E; subst p; discriminate|]. apply in_curtail_terms in I as (_ & [E|E]); cbn [fst] in E; subst p; discriminate.
    + intros p a I. apply in_pump_terms in I as (o & e & _ & E). cbn [fst] in E. subst p. reflexivity.
    + intros p a I. apply in_app_or in I as [I|I]; [apply in_flow_terms in I as (o & l & _ & E); cbn [fst] in E; subst p; discriminate|]. apply in_app_or in I as [I|I]; [apply in_loss_terms in I as (_ & o & l & _ & E); cbn [fst] in E; subst p; discriminate|]. apply in_curtail_terms in I as (_ & [E|E]); cbn [fst] in E; subst p; discriminate.
  - intros p a I. destruct (stored m j); [|destruct I]. apply in_app_or in I as [I|I]; [apply in_store_terms in I as (o & e & _ & E); injection E as -> _; reflexivity|]. destruct I as [E|[]]. injection E as <- _. reflexivity.
  - intros p a I. apply in_app_or in I as [I|I]; [apply in_pump_terms in I as (o & e & _ & E); cbn [fst] in E; subst p; discriminate|]. apply in_app_or in I as [I|I]; [apply in_flow_terms in I as (o & l & _ & E); cbn [fst] in E; subst p; discriminate|]. apply in_app_or in I as [I|I]; [apply in_loss_terms in I as (_ & o & l & _ & E); cbn [fst] in E; subst p; discriminate|]. apply in_curtail_terms in I as (_ & [E|E]); cbn [fst] in E; subst p; discriminate.
  - intros p a I (kd & X). apply in_app_or in I as [I|I]; [destruct (stored m j); [|destruct I]; apply in_app_or in I as [I|[E|[]]]; [apply in_store_terms in I as (o & e & _ & E)|]; injection E; intros; subst p; destruct kd; discriminate X|].
    apply in_app_or in I as [I|I]; [apply in_pump_terms in I as (o & e & _ & E); cbn [fst] in E; subst p; destruct kd; discriminate X|]. apply in_app_or in I as [I|I]; [apply in_flow_terms in I as (o & l & _ & E); cbn [fst] in E; subst p; destruct kd; discriminate X|]. apply in_app_or in I as [I|I]; [apply in_loss_terms in I as (_ & o & l & _ & E); cbn [fst] in E; subst p; destruct kd; discriminate X|]. apply in_curtail_terms in I as (_ & [E|E]); cbn [fst] in E; subst p; destruct kd; discriminate X.
Qed.

(** ** Flows and losses *)

Lemma in_lines_on m k n l : In (n, l) (lines_on m k) <-> nth_error (nm_lines m) n = Some l /\ ln_on l k = true.
Proof. unfold lines_on. rewrite filter_In, in_enum. reflexivity. Qed.
Lemma filter_le {A} (f : A -> bool) l : List.length (filter f l) <= List.length l.
Proof. induction l as [|a l IH]; [reflexivity|]. cbn. destruct (f a); cbn; lia. Qed.
Lemma lines_on_le m k : List.length (lines_on m k) <= List.length (nm_lines m).
Proof. unfold lines_on. replace (List.length (nm_lines m)) with (List.length (enum (nm_lines m))) by (rewrite <- (map_length fst), enum_fst, seq_length; reflexivity). apply filter_le. Qed.
Lemma filter_lt {A} (f : A -> bool) l a : In a l -> f a = false -> List.length (filter f l) < List.length l.
Proof.
  induction l as [|b l IH]; intros I E; [destruct I|]. cbn [filter List.length]. destruct I as [->|I].
  - rewrite E. pose proof (filter_le f l). lia.
  - specialize (IH I E). destruct (f b); cbn [List.length]; lia.
Qed.
Lemma lines_on_lt m k : usable m -> 0 < k < cases m -> List.length (lines_on m k) < List.length (nm_lines m).
Proof.
  intros U K. destruct (us_off m U k K) as (l & I & O). apply In_nth_error in I as (n & E). replace (List.length (nm_lines m)) with (List.length (enum (nm_lines m))) by (rewrite <- (map_length fst), enum_fst, seq_length; reflexivity).
  apply (filter_lt _ _ (n, l)); [now apply in_enum|exact O].
Qed.
Lemma line_rows_nodup m : NoDup (map fst (line_rows m)).
Proof.
  unfold line_rows. rewrite map_map. cbn [fst]. apply NoDup_map_in; [apply NoDup_instances|]. intros ((i & j) & k) ((i' & j') & k') _ _ E. cbn in E. injection E as -> -> ->. reflexivity.
Qed.
Lemma in_line_rows m n c : In (n, c) (line_rows m) <-> exists i j k, instance m i j k /\ n = line_row i j k /\ c = if k =? 0 then List.length (nm_lines m) else List.length (nm_lines m) - 1.
Proof.
  unfold line_rows. rewrite in_map_iff. split.
  - intros (((i & j) & k) & E & I). injection E as <- <-. apply in_instances in I. exists i, j, k. unfold instance. tauto.
  - intros (i & j & k & P & -> & ->). exists (i, j, k). split; [reflexivity|now apply instance_in].
Qed.
Definition line_spec (i j k c n : nat) (l : line) : rowspec :=
  ((line_row i j k, c), [((flow_name i j k, n), 1%Q); ((angle_name i j k, ln_pf l), (- (1) / ln_x l)%Q); ((angle_name i j k, ln_pt l), (1 / ln_x l)%Q)], Fixed 0).
Lemma in_line_specs m r : In r (flat_map (line_specs m) (instances m)) <-> exists i j k c n l, instance m i j k /\ nth_error (lines_on m k) c = Some (n, l) /\ r = line_spec i j k c n l.
Proof.
  rewrite in_flat_map. split.
  - intros (((i & j) & k) & J & I). apply in_instances in J. unfold line_specs in I. apply in_map_iff in I as ((c & (n & l)) & <- & I). apply in_enum in I. exists i, j, k, c, n, l. unfold instance. sp; auto; tauto.
  - intros (i & j & k & c & n & l & P & E & ->). exists (i, j, k). split; [now apply instance_in|]. unfold line_specs. apply in_map_iff. exists (c, (n, l)). split; [reflexivity|now apply in_enum].
Qed.
Lemma line_specs_nodup m : NoDup (map rs_place (flat_map (line_specs m) (instances m))).
Proof.
  rewrite map_flat. apply (NoDup_keyed (fun p : place => snd (fst p)) key3); [apply NoDup_instances|intros; now apply key3_inj| |].
  - intros ((i & j) & k) _. unfold line_specs. rewrite map_map. apply NoDup_by; [apply enum_nodup|]. intros (a & (n & l)) (b & (n' & l')) E. now injection E.
  - intros ((i & j) & k) p _ I. apply in_map_iff in I as (r & <- & I). unfold line_specs in I. apply in_map_iff in I as ((c & (n & l)) & <- & _). reflexivity.
Qed.

Section Losses.
Variables (m : nm) (f : nat -> nat -> nat -> nat -> name) (text : string) (c : list (Q * Q)).
Hypothesis F : forall i j k l, f i j k l = (text, [i; j; k; l]).
Lemma in_loss_rows n z : In (n, z) (flat_map (loss_rows m f c) (instances m)) <-> exists i j k o l, instance m i j k /\ nth_error (nm_lines m) o = Some l /\ ln_on l k = true /\ n = f i j k o /\ z = List.length c.
Proof.
  rewrite in_flat_map. split.
  - intros (((i & j) & k) & J & I). apply in_instances in J. unfold loss_rows in I. apply in_map_iff in I as ((o & l) & E & I). injection E as <- <-. apply in_lines_on in I as (I & O). exists i, j, k, o, l. unfold instance. sp; auto; tauto.
  - intros (i & j & k & o & l & P & E & O & -> & ->). exists (i, j, k). split; [now apply instance_in|]. unfold loss_rows. apply in_map_iff. exists (o, l). split; [reflexivity|now apply in_lines_on].
Qed.
Lemma lines_on_nodup k : NoDup (map fst (lines_on m k)).
Proof. unfold lines_on. apply NoDup_map_filter. apply enum_nodup. Qed.
Lemma loss_rows_nodup : NoDup (map fst (flat_map (loss_rows m f c) (instances m))).
Proof.
  rewrite map_flat. apply (NoDup_keyed (fun n : name => firstn 3 (snd n)) key3); [apply NoDup_instances|intros; now apply key3_inj| |].
  - intros ((i & j) & k) _. unfold loss_rows. rewrite map_map. apply NoDup_by; [apply lines_on_nodup|]. intros a b E. cbn [fst] in E. rewrite !F in E. now injection E.
  - intros ((i & j) & k) n _ I. unfold loss_rows in I. rewrite map_map in I. apply in_map_iff in I as (u & <- & _). cbn [fst]. now rewrite F.
Qed.
Definition loss_spec (sign : Q) (i j k o q : nat) (l : line) (ab : Q * Q) : rowspec :=
  ((f i j k o, q), [((loss_name i j k, o), 1%Q); ((flow_name i j k, o), (sign * snd ab * ln_r l)%Q)], Lower (fst ab * ln_r l)).
Lemma in_loss_specs sign r : In r (flat_map (loss_specs m f sign c) (instances m)) <-> exists i j k o l q ab, instance m i j k /\ nth_error (nm_lines m) o = Some l /\ ln_on l k = true /\ nth_error c q = Some ab /\ r = loss_spec sign i j k o q l ab.
Proof.
  rewrite in_flat_map. split.
  - intros (((i & j) & k) & J & I). apply in_instances in J. unfold loss_specs in I. apply in_flat_map in I as ((o & l) & I' & I). apply in_map_iff in I as ((q & ab) & <- & I). apply in_enum in I. apply in_lines_on in I' as (I' & O). exists i, j, k, o, l, q, ab. unfold instance. sp; auto; tauto.
  - intros (i & j & k & o & l & q & ab & P & E & O & E' & ->). exists (i, j, k). split; [now apply instance_in|]. unfold loss_specs. apply in_flat_map. exists (o, l). split; [now apply in_lines_on|]. apply in_map_iff. exists (q, ab). split; [reflexivity|now apply in_enum].
Qed.
Lemma loss_specs_nodup sign : NoDup (map rs_place (flat_map (loss_specs m f sign c) (instances m))).
Proof.
  rewrite map_flat. apply (NoDup_keyed (fun p : place => firstn 3 (snd (fst p))) key3); [apply NoDup_instances|intros; now apply key3_inj| |].
  - intros ((i & j) & k) _. unfold loss_specs. rewrite map_flat. apply (NoDup_keyed (fun p : place => snd (fst p)) (fun u => [i; j; k; fst u])).
    + eapply NoDup_map_inv. apply lines_on_nodup.
    + intros (a & u) (b & u') Ia Ib E. cbn in E. injection E as <-. apply in_lines_on in Ia as (Ia & _), Ib as (Ib & _). congruence.
    + intros (o & l) _. rewrite map_map. apply NoDup_by; [apply enum_nodup|]. intros a b E. now injection E.
    + intros (o & l) p _ I. rewrite map_map in I. apply in_map_iff in I as (u & <- & _). unfold rs_place; cbn [fst snd]. now rewrite F.
  - intros ((i & j) & k) p _ I. apply in_map_iff in I as (r & <- & I). unfold loss_specs in I. apply in_flat_map in I as (u & _ & I). apply in_map_iff in I as (v & <- & _). unfold rs_place; cbn [fst snd]. now rewrite F.
Qed.
End Losses.
