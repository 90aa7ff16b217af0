(** Names and places of the optimal power flow. *)
From Coq Require Import List String Bool Arith ZArith QArith Lia Lqa.
From Verif Require Import Base Cases GraphData GraphDataProofs HydroTables Glpk GlpkSpec GlpkProofs GlpkEnergy GlpkRows GlpkParts GlpkNetwork GlpkNetworkSpec GlpkNetworkParts.
Import ListNotations.
Open Scope nat_scope.
Open Scope list_scope.
Local Ltac sp := repeat match goal with |- _ /\ _ => split end.
Local Ltac nodup := repeat constructor; cbn; intuition discriminate.

(** ** Columns *)

Definition key2 (p : nat * nat) : list nat := [fst p; snd p].
Definition key3 (p : nat * nat * nat) : list nat := [fst (fst p); snd (fst p); snd p].
Lemma key2_inj p q : key2 p = key2 q -> p = q.
Proof. destruct p, q. unfold key2. cbn. intros E. injection E as -> ->. reflexivity. Qed.
Lemma key3_inj p q : key3 p = key3 q -> p = q.
Proof. destruct p as [[? ?] ?], q as [[? ?] ?]. unfold key3. cbn. intros E. injection E as -> -> ->. reflexivity. Qed.

Definition vcols (m : nm) : list (name * nat) := flat_map (common_cols m) (periods m) ++ flat_map (opf_cols m) (instances m).
Definition vbnds (m : nm) : list (place * bnd) := flat_map (common_bounds m) (periods m) ++ flat_map (opf_bounds m) (instances m).

Lemma common_snd m p n : In n (map fst (common_cols m p)) -> snd n = key2 p.
Proof.
  destruct p as [i j]. unfold common_cols. intros I. apply in_map_iff in I as ((a & c) & <- & I). apply filter_In in I as (I & _). cbn in I. repeat (destruct I as [I|I]; [injection I as <- <-; reflexivity|]). destruct I.
Qed.
Lemma opf_snd m p n : In n (map fst (opf_cols m p)) -> snd n = key3 p.
Proof.
  destruct p as [[i j] k]. unfold opf_cols. intros I. destruct (nm_losses m), (nm_feas m); cbn in I; repeat (destruct I as [I|I]; [subst n; reflexivity|]); destruct I.
Qed.
Lemma vcols_nodup m : NoDup (map fst (vcols m)).
Proof.
  unfold vcols. rewrite map_app, !map_flat. apply NoDup_app'.
  - apply (NoDup_keyed snd key2); [apply NoDup_periods|intros; now apply key2_inj| |intros; now apply (common_snd m)]. intros (i & j) _. unfold common_cols. apply NoDup_map_filter. cbn. nodup.
  - apply (NoDup_keyed snd key3); [apply NoDup_instances|intros; now apply key3_inj| |intros; now apply (opf_snd m)]. intros ((i & j) & k) _. unfold opf_cols. destruct (nm_losses m), (nm_feas m); cbn; nodup.
  - intros n I J. apply in_flat_map in I as (p & _ & I), J as (q & _ & J). apply common_snd in I. apply opf_snd in J. rewrite I in J. discriminate J.
Qed.
Lemma vcols_pos m n c : usable m -> In (n, c) (vcols m) -> 0 < c.
Proof.
  intros U I. unfold vcols in I. apply in_app_or in I as [I|I]; apply in_flat_map in I as (p & _ & I).
  - destruct p as [i j]. unfold common_cols in I. apply filter_In in I as (_ & I). now apply Nat.ltb_lt in I.
  - pose proof (us_buses m U) as B. pose proof (us_lines m U) as L. assert (0 < List.length (nm_buses m)) by (destruct (nm_buses m); [congruence|cbn; lia]). assert (0 < List.length (nm_lines m)) by (destruct (nm_lines m); [congruence|cbn; lia]).
    destruct p as [[i j] k]. unfold opf_cols in I. destruct (nm_losses m), (nm_feas m); cbn in I; repeat (destruct I as [I|I]; [injection I as <- <-; assumption|]); destruct I.
Qed.

Definition period (m : nm) (i j : nat) : Prop := i < nm_days m /\ j < nm_times m.
Definition instance (m : nm) (i j k : nat) : Prop := i < nm_days m /\ j < nm_times m /\ k < cases m.
Lemma period_in m i j : period m i j -> In (i, j) (periods m).
Proof. intros H. now apply in_periods. Qed.
Lemma instance_in m i j k : instance m i j k -> In (i, j, k) (instances m).
Proof. intros (A & B & C). apply in_instances. auto. Qed.

Lemma common_inside m i j n c o : period m i j -> In (n, c) (map (fun k => (gen_name k i j, List.length (nm_units m k))) kinds ++ map (fun k => (cost_name k i j, List.length (nm_units m k))) kinds ++
     [(store_name i j, List.length (nm_stores m)); (pump_name i j, List.length (nm_pumps m))]) -> o < c -> inside (vcols m) (n, o).
Proof.
  intros P I L. exists c. cbn [fst snd]. split; [|exact L]. unfold vcols. apply in_or_app. left. apply in_flat_map. exists (i, j). split; [now apply period_in|]. unfold common_cols. apply filter_In. split; [exact I|]. cbn [snd]. apply Nat.ltb_lt. lia.
Qed.
Lemma gen_inside m k i j o : period m i j -> o < List.length (nm_units m k) -> inside (vcols m) (gen_name k i j, o).
Proof. intros P L. eapply common_inside; [exact P| |exact L]. apply in_or_app. left. apply in_map_iff. exists k. split; [reflexivity|apply in_kinds]. Qed.
Lemma cost_inside m k i j o : period m i j -> o < List.length (nm_units m k) -> inside (vcols m) (cost_name k i j, o).
Proof. intros P L. eapply common_inside; [exact P| |exact L]. apply in_or_app. right. apply in_or_app. left. apply in_map_iff. exists k. split; [reflexivity|apply in_kinds]. Qed.
Lemma store_inside m i j o : period m i j -> o < List.length (nm_stores m) -> inside (vcols m) (store_name i j, o).
Proof. intros P L. eapply common_inside; [exact P| |exact L]. apply in_or_app. right. apply in_or_app. right. now left. Qed.
Lemma pump_inside m i j o : period m i j -> o < List.length (nm_pumps m) -> inside (vcols m) (pump_name i j, o).
Proof. intros P L. eapply common_inside; [exact P| |exact L]. apply in_or_app. right. apply in_or_app. right. right. now left. Qed.
Lemma opf_inside m i j k n c o : instance m i j k -> In (n, c) (opf_cols m (i, j, k)) -> o < c -> inside (vcols m) (n, o).
Proof. intros P I L. exists c. cbn [fst snd]. split; [|exact L]. unfold vcols. apply in_or_app. right. apply in_flat_map. exists (i, j, k). split; [now apply instance_in|exact I]. Qed.
Lemma flow_inside m i j k o : instance m i j k -> o < List.length (nm_lines m) -> inside (vcols m) (flow_name i j k, o).
Proof. intros P L. eapply opf_inside; [exact P|now left|exact L]. Qed.
Lemma loss_inside m i j k o : nm_losses m <> None -> instance m i j k -> o < List.length (nm_lines m) -> inside (vcols m) (loss_name i j k, o).
Proof. intros N P L. eapply opf_inside; [exact P| |exact L]. unfold opf_cols. destruct (nm_losses m); [|congruence]. right. now left. Qed.
Lemma lc_inside m i j k o : nm_feas m = true -> instance m i j k -> o < List.length (nm_buses m) -> inside (vcols m) (lc_name i j k, o).
Proof. intros N P L. eapply opf_inside; [exact P| |exact L]. unfold opf_cols. rewrite N. apply in_or_app. right. apply in_or_app. right. now left. Qed.
Lemma gc_inside m i j k o : nm_feas m = true -> instance m i j k -> o < List.length (nm_buses m) -> inside (vcols m) (gc_name i j k, o).
Proof. intros N P L. eapply opf_inside; [exact P| |exact L]. unfold opf_cols. rewrite N. apply in_or_app. right. apply in_or_app. right. right. now left. Qed.
Lemma angle_inside m i j k o : instance m i j k -> o < List.length (nm_buses m) -> inside (vcols m) (angle_name i j k, o).
Proof. intros P L. eapply opf_inside; [exact P| |exact L]. unfold opf_cols. apply in_or_app. right. apply in_or_app. right. apply in_or_app. right. now left. Qed.

(** All places. *)
Inductive column (m : nm) : place -> Prop :=
| col_gen k i j n u : period m i j -> nth_error (nm_units m k) n = Some u -> column m (gen_name k i j, n)
| col_cost k i j n u : period m i j -> nth_error (nm_units m k) n = Some u -> column m (cost_name k i j, n)
| col_store i j n e : period m i j -> nth_error (nm_stores m) n = Some e -> column m (store_name i j, n)
| col_pump i j n e : period m i j -> nth_error (nm_pumps m) n = Some e -> column m (pump_name i j, n)
| col_flow i j k n l : instance m i j k -> nth_error (nm_lines m) n = Some l -> column m (flow_name i j k, n)
| col_loss i j k n l : nm_losses m <> None -> instance m i j k -> nth_error (nm_lines m) n = Some l -> column m (loss_name i j k, n)
| col_lc i j k n b : nm_feas m = true -> instance m i j k -> nth_error (nm_buses m) n = Some b -> column m (lc_name i j k, n)
| col_gc i j k n b : nm_feas m = true -> instance m i j k -> nth_error (nm_buses m) n = Some b -> column m (gc_name i j k, n)
| col_angle i j k n b : instance m i j k -> nth_error (nm_buses m) n = Some b -> column m (angle_name i j k, n).

Lemma nth_lt {A} (l : list A) n : n < List.length l -> exists a, nth_error l n = Some a.
Proof. intros L. destruct (nth_error l n) as [a|] eqn:E; [eauto|]. apply nth_error_None in E. lia. Qed.
Lemma inside_column m p : inside (vcols m) p -> column m p.
Proof.
  destruct p as [n o]. intros (c & I & L). cbn [fst snd] in *. unfold vcols in I. apply in_app_or in I as [I|I]; apply in_flat_map in I as (q & J & I).
  - destruct q as [i j]. apply in_periods in J. unfold common_cols in I. apply filter_In in I as (I & _). apply in_app_or in I as [I|I]; [|apply in_app_or in I as [I|I]].
    + apply in_map_iff in I as (k & E & _). injection E as <- <-. destruct (nth_lt _ _ L) as (u & E). exact (col_gen m k i j o u J E).
    + apply in_map_iff in I as (k & E & _). injection E as <- <-. destruct (nth_lt _ _ L) as (u & E). exact (col_cost m k i j o u J E).
    + destruct I as [E|[E|[]]]; injection E as <- <-; destruct (nth_lt _ _ L) as (u & E); [exact (col_store m i j o u J E)|exact (col_pump m i j o u J E)].
  - destruct q as [[i j] k]. apply in_instances in J. assert (P : instance m i j k) by (unfold instance; tauto). unfold opf_cols in I. apply in_app_or in I as [I|I]; [|apply in_app_or in I as [I|I]; [|apply in_app_or in I as [I|I]]].
    + destruct I as [E|[]]; injection E as <- <-; destruct (nth_lt _ _ L) as (u & E). exact (col_flow m i j k o u P E).
    + destruct (nm_losses m) eqn:N; [|destruct I]. destruct I as [E|[]]; injection E as <- <-; destruct (nth_lt _ _ L) as (u & E). apply (col_loss m i j k o u); auto. congruence.
    + destruct (nm_feas m) eqn:N; [|destruct I]. destruct I as [E|[E|[]]]; injection E as <- <-; destruct (nth_lt _ _ L) as (u & E); [exact (col_lc m i j k o u N P E)|exact (col_gc m i j k o u N P E)].
    + destruct I as [E|[]]; injection E as <- <-; destruct (nth_lt _ _ L) as (u & E). exact (col_angle m i j k o u P E).
Qed.
Lemma column_inside m p : column m p -> inside (vcols m) p.
Proof.
  destruct 1 as [k i j n u P E|k i j n u P E|i j n u P E|i j n u P E|i j k n u P E|i j k n u N P E|i j k n u N P E|i j k n u N P E|i j k n u P E]; apply enum_lt in E;
    [apply gen_inside|apply cost_inside|apply store_inside|apply pump_inside|apply flow_inside|apply loss_inside|apply lc_inside|apply gc_inside|apply angle_inside]; auto.
Qed.

(** ** Bounds *)

Inductive bounded (m : nm) : place -> bnd -> Prop :=
| bd_gen k i j n u : period m i j -> nth_error (nm_units m k) n = Some u -> bounded m (gen_name k i j, n) (unit_bound m k i j n u)
| bd_pump i j n e : period m i j -> nth_error (nm_pumps m) n = Some e -> bounded m (pump_name i j, n) (pump_bound e)
| bd_flow i j k n l : instance m i j k -> nth_error (nm_lines m) n = Some l -> bounded m (flow_name i j k, n) (flow_bound k l)
| bd_loss i j k n l : nm_losses m <> None -> instance m i j k -> nth_error (nm_lines m) n = Some l -> ln_on l k = false -> bounded m (loss_name i j k, n) (Fixed 0)
| bd_lc i j k n b : nm_feas m = true -> instance m i j k -> nth_error (nm_buses m) n = Some b -> bounded m (lc_name i j k, n) (lc_bound m i j n b)
| bd_gc i j k n b : nm_feas m = true -> instance m i j k -> nth_error (nm_buses m) n = Some b -> bounded m (gc_name i j k, n) (if has_unit m b then Lower 0 else Fixed 0)
| bd_angle i j k n b : instance m i j k -> nth_error (nm_buses m) n = Some b -> bounded m (angle_name i j k, n) (if bs_type b =? 3 then Fixed 0 else Free).

Lemma in_vbnds m p b : In (p, b) (vbnds m) <-> bounded m p b.
Proof.
  unfold vbnds. rewrite in_app_iff, !in_flat_map. split.
  - intros [((i & j) & J & I)|(((i & j) & k) & J & I)].
    + apply in_periods in J. unfold common_bounds in I. apply in_app_or in I as [I|I].
      * apply in_flat_map in I as (k & _ & I). apply in_map_iff in I as ((n & u) & E & I). cbn [fst snd] in E. injection E as <- <-. apply in_enum in I. now constructor.
      * apply in_map_iff in I as ((n & u) & E & I). cbn [fst snd] in E. injection E as <- <-. apply in_enum in I. now constructor.
    + apply in_instances in J. assert (P : instance m i j k) by (unfold instance; tauto). unfold opf_bounds in I. apply in_app_or in I as [I|I]; [|apply in_app_or in I as [I|I]; [|apply in_app_or in I as [I|I]]].
      * apply in_map_iff in I as ((n & u) & E & I). cbn [fst snd] in E. injection E as <- <-. apply in_enum in I. now constructor.
      * destruct (nm_losses m) eqn:N; [|destruct I]. apply in_flat_map in I as ((n & u) & J' & I). cbn [fst snd] in I. destruct (ln_on u k) eqn:O; [destruct I|]. destruct I as [E|[]]. injection E as <- <-. apply in_enum in J'. apply (bd_loss m i j k n u); auto. congruence.
      * destruct (nm_feas m) eqn:N; [|destruct I]. apply in_app_or in I as [I|I]; apply in_map_iff in I as ((n & u) & E & I); cbn [fst snd] in E; injection E as <- <-; apply in_enum in I; now constructor.
      * apply in_map_iff in I as ((n & u) & E & I). cbn [fst snd] in E. injection E as <- <-. apply in_enum in I. now constructor.
  - destruct 1 as [k i j n u P E|i j n u P E|i j k n u P E|i j k n u N P E O|i j k n u N P E|i j k n u N P E|i j k n u P E]; apply in_enum in E.
    + left. exists (i, j). split; [now apply period_in|]. apply in_or_app. left. apply in_flat_map. exists k. split; [apply in_kinds|]. apply in_map_iff. exists (n, u). auto.
    + left. exists (i, j). split; [now apply period_in|]. apply in_or_app. right. apply in_map_iff. exists (n, u). auto.
    + right. exists (i, j, k). split; [now apply instance_in|]. apply in_or_app. left. apply in_map_iff. exists (n, u). auto.
    + right. exists (i, j, k). split; [now apply instance_in|]. apply in_or_app. right. apply in_or_app. left. destruct (nm_losses m); [|congruence]. apply in_flat_map. exists (n, u). split; [exact E|]. cbn [fst snd]. rewrite O. now left.
    + right. exists (i, j, k). split; [now apply instance_in|]. do 2 (apply in_or_app; right). apply in_or_app. left. rewrite N. apply in_or_app. left. apply in_map_iff. exists (n, u). auto.
    + right. exists (i, j, k). split; [now apply instance_in|]. do 2 (apply in_or_app; right). apply in_or_app. left. rewrite N. apply in_or_app. right. apply in_map_iff. exists (n, u). auto.
    + right. exists (i, j, k). split; [now apply instance_in|]. do 3 (apply in_or_app; right). apply in_map_iff. exists (n, u). auto.
Qed.
Lemma bounded_column m p b : bounded m p b -> column m p.
Proof. destruct 1; econstructor; eauto. Qed.
Lemma name_of_place m p b q : In (p, b) (common_bounds m q) -> snd (fst p) = key2 q.
Proof.
  destruct q as [i j]. unfold common_bounds. intros I. apply in_app_or in I as [I|I].
  - apply in_flat_map in I as (k & _ & I). apply in_map_iff in I as (u & E & _). injection E as <- _. reflexivity.
  - apply in_map_iff in I as (u & E & _). injection E as <- _. reflexivity.
Qed.
Lemma in_map_fst {A B} (l : list (A * B)) a : In a (map fst l) -> exists b, In (a, b) l.
Proof. intros I. apply in_map_iff in I as ((x & b) & <- & I). eauto. Qed.
Lemma name_of_place3 m p b q : In (p, b) (opf_bounds m q) -> snd (fst p) = key3 q.
Proof.
  destruct q as [[i j] k]. unfold opf_bounds. intros I. apply in_app_or in I as [I|I]; [|apply in_app_or in I as [I|I]; [|apply in_app_or in I as [I|I]]].
  - apply in_map_iff in I as (u & E & _). injection E as <- _. reflexivity.
  - destruct (nm_losses m); [|destruct I]. apply in_flat_map in I as (u & _ & I). destruct (ln_on (snd u) k); [destruct I|]. destruct I as [E|[]]. injection E as <- _. reflexivity.
  - destruct (nm_feas m); [|destruct I]. apply in_app_or in I as [I|I]; apply in_map_iff in I as (u & E & _); injection E as <- _; reflexivity.
  - apply in_map_iff in I as (u & E & _). injection E as <- _. reflexivity.
Qed.
(** Two lists of places with different names. *)
Lemma NoDup_two {A} (l l' : list (place * A)) (P : name -> Prop) : NoDup (map fst l) -> NoDup (map fst l') -> (forall p a, In (p, a) l -> P (fst p)) -> (forall p a, In (p, a) l' -> ~ P (fst p)) -> NoDup (map fst (l ++ l')).
Proof. intros N N' H H'. rewrite map_app. apply NoDup_app'; auto. intros p I J. apply in_map_fst in I as (a & I), J as (b & J). apply (H' p b J). now apply (H p a). Qed.

Lemma vbnds_nodup m : NoDup (map fst (vbnds m)).
Proof.
  unfold vbnds. rewrite map_app, !map_flat. apply NoDup_app'.
  - apply (NoDup_keyed (fun p : place => snd (fst p)) key2); [apply NoDup_periods|intros; now apply key2_inj| |intros q p _ I; apply in_map_fst in I as (b & I); now apply (name_of_place m p b)].
    intros (i & j) _. unfold common_bounds. apply (NoDup_two _ _ (fun n => fst n <> "Pumps"%string)).
    + rewrite map_flat. apply (NoDup_keyed (fun p : place => fst (fst p)) (fun k => fst (gen_name k i j))); [apply NoDup_kinds|intros [] [] _ _; (reflexivity || discriminate)|intros k _; apply NoDup_places|].
      intros k p _ I. rewrite map_map in I. apply in_map_iff in I as (u & <- & _). reflexivity.
    + apply NoDup_places.
    + intros p b I. apply in_flat_map in I as (k & _ & I). apply in_map_iff in I as (u & E & _). injection E as <- _. destruct k; discriminate.
    + intros p b I X. apply in_map_iff in I as (u & E & _). injection E as <- _. now apply X.
  - apply (NoDup_keyed (fun p : place => snd (fst p)) key3); [apply NoDup_instances|intros; now apply key3_inj| |intros q p _ I; apply in_map_fst in I as (b & I); now apply (name_of_place3 m p b)].
    intros ((i & j) & k) _. unfold opf_bounds. apply (NoDup_two _ _ (fun n => fst n = "ActivePowerFlow"%string)); [apply NoDup_places| |intros p b I; apply in_map_iff in I as (u & E & _); injection E as <- _; reflexivity|].
    + apply (NoDup_two _ _ (fun n => fst n = "ActivePowerLosses"%string)).
      * destruct (nm_losses m); [|constructor]. apply (NoDup_some _ (loss_name i j k)).
        -- intros u q I. destruct (ln_on (snd u) k); [destruct I|]. destruct I as [<-|[]]. reflexivity.
        -- intros u. destruct (ln_on (snd u) k); [constructor|]. apply NoDup_cons; [intros []|constructor].
      * apply (NoDup_two _ _ (fun n => fst n <> "VoltageAngle"%string)); [|apply NoDup_places| |].
        -- destruct (nm_feas m); [|constructor]. apply (NoDup_two _ _ (fun n => fst n = "LoadCurtailmentNode"%string)); try apply NoDup_places; intros p b I; apply in_map_iff in I as (u & E & _); injection E as <- _; [reflexivity|discriminate].
        -- intros p b I. destruct (nm_feas m); [|destruct I]. apply in_app_or in I as [I|I]; apply in_map_iff in I as (u & E & _); injection E as <- _; discriminate.
        -- intros p b I X. apply in_map_iff in I as (u & E & _). injection E as <- _. now apply X.
      * intros p b I. destruct (nm_losses m); [|destruct I]. apply in_flat_map in I as (u & _ & I). destruct (ln_on (snd u) k); [destruct I|]. destruct I as [E|[]]. injection E as <- _. reflexivity.
      * intros p b I. apply in_app_or in I as [I|I].
        -- destruct (nm_feas m); [|destruct I]. apply in_app_or in I as [I|I]; apply in_map_iff in I as (u & E & _); injection E as <- _; discriminate.
        -- apply in_map_iff in I as (u & E & _). injection E as <- _. discriminate.
    + intros p b I. apply in_app_or in I as [I|I]; [|apply in_app_or in I as [I|I]].
      * destruct (nm_losses m); [|destruct I]. apply in_flat_map in I as (u & _ & I). destruct (ln_on (snd u) k); [destruct I|]. destruct I as [E|[]]. injection E as <- _. discriminate.
      * destruct (nm_feas m); [|destruct I]. apply in_app_or in I as [I|I]; apply in_map_iff in I as (u & E & _); injection E as <- _; discriminate.
      * apply in_map_iff in I as (u & E & _). injection E as <- _. discriminate.
  - intros p I J. apply in_flat_map in I as (q & _ & I), J as (q' & _ & J). apply in_map_fst in I as (b & I), J as (b' & J). apply name_of_place in I. apply name_of_place3 in J. rewrite I in J. discriminate J.
Qed.
