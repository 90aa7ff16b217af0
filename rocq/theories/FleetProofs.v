(** The generators after initialise. *)
From Coq Require Import List Bool Arith ZArith QArith Lia Lqa.
From Verif Require Import Base ReaderProofs GraphData GraphDataProofs Cases CasesProofs Network InputOutput InputOutputProofs ConverterOpen HydroSpec HydroTables HydroNet ScreeningProofs Linear LinearProofs Devices Power PowerSpec DevicesProofs.
Import ListNotations.
Open Scope nat_scope.
Open Scope list_scope.
Local Ltac sp := repeat match goal with |- _ /\ _ => split end.

(** A unit with a binary variable, with a minimum down time, with a minimum up time. *)
Definition has_bin (g : gen) : bool := match ge_kind g with Ren => false | _ => positive (ge_max g) && positive (ge_min g) end.
Definition has_mdt (g : gen) : bool := has_bin g && given (ge_mdt g).
Definition has_mut (g : gen) : bool := has_bin g && given (ge_mut g).
Definition tally (p : gen -> bool) (gs : list gen) : nat := List.length (filter p gs).
(** What one generator becomes when the ones before it are [before]. *)
Definition unit_of (numbers : list nat) (base : Q) (pieces : list Q) (before : list gen) (g : gen) (u : unit_) : Prop :=
  un_kind u = ge_kind g /\ find_bus numbers (ge_bus g) = Ok (un_bus u) /\ un_max u = (ge_max g / base)%Q /\ un_min u = (ge_min g / base)%Q
  /\ un_ramp u = ramp_of (ge_ramp g) (ge_max g / base) /\ un_base u = ge_base g
  /\ un_bin u = (if has_bin g then Some (tally has_bin before) else None) /\ un_mdtv u = (if has_mdt g then Some (tally has_mdt before) else None)
  /\ un_mutv u = (if has_mut g then Some (tally has_mut before) else None) /\ un_mut u = or0 (ge_mut g) /\ un_mdt u = or0 (ge_mdt g)
  /\ cost_lines base pieces (List.length before) (ge_max g) (ge_min g) (ge_curve g) = Ok (un_lines u).
Definition fleet_of (numbers : list nat) (base : Q) (pieces : list Q) (all gs : list gen) (F : fleet) : Prop :=
  placed numbers (map ge_bus all) (List.length gs) (fl_at F) /\ List.length (fl_units F) = List.length gs
  /\ (forall i g u, nth_error gs i = Some g -> nth_error (fl_units F) i = Some u -> unit_of numbers base pieces (firstn i gs) g u)
  /\ fl_bin F = tally has_bin gs /\ fl_mdt F = tally has_mdt gs /\ fl_mut F = tally has_mut gs.
Lemma tally_snoc p gs g : tally p (gs ++ [g]) = tally p gs + (if p g then 1 else 0).
Proof. unfold tally. rewrite filter_app, app_length. cbn [filter]. now destruct (p g). Qed.
Lemma next_if_spec b n : next_if b n = (if b then Some n else None, n + (if b then 1 else 0)).
Proof. destruct b; cbn; f_equal; lia. Qed.
Lemma init_gen_ok numbers base pieces all gs g F F' : fleet_of numbers base pieces all gs F -> nth_error all (List.length gs) = Some g -> init_gen numbers base pieces F g = Ok F' -> fleet_of numbers base pieces all (gs ++ [g]) F'.
Proof.
  intros (P & L & U & B & D & M) N E. unfold init_gen in E. apply bind_inv in E as (xb & Eb & E). apply bind_inv in E as (tab & Et & E). apply bind_inv in E as (ls & El & E). injection E as <-.
  rewrite L in *. destruct (placed_push _ _ _ _ (ge_bus g) xb P) as (t' & Et' & P'); [now rewrite nth_error_map, N|exact Eb|]. assert (t' = tab) by congruence. subst t'.
  assert (HB : match ge_kind g with Ren => false | _ => true end && positive (ge_max g) && positive (ge_min g) = has_bin g) by (unfold has_bin; destruct (ge_kind g); reflexivity).
  rewrite !HB in *. fold (has_mdt g) in *. fold (has_mut g) in *. rewrite !next_if_spec. cbn [fst snd]. unfold fleet_of. cbn [fl_at fl_units fl_bin fl_mdt fl_mut]. rewrite !app_length. cbn [List.length]. rewrite !Nat.add_1_r, !tally_snoc, B, D, M, L.
  sp; auto. intros i a u Ni Nu. apply nth_snoc in Ni. apply nth_snoc in Nu. rewrite L in Nu. destruct Ni as [Ni|(-> & ->)].
  - assert (i < List.length gs) by (apply nth_error_Some; congruence). destruct Nu as [Nu|(? & _)]; [|lia]. rewrite firstn_app. replace (i - List.length gs) with 0 by lia. cbn [firstn]. rewrite List.app_nil_r. now apply U.
  - destruct Nu as [Nu|(_ & ->)]. { assert (List.length gs < List.length (fl_units F)) by (apply nth_error_Some; congruence). lia. } rewrite firstn_app, Nat.sub_diag, firstn_all. cbn [firstn]. rewrite List.app_nil_r. unfold unit_of. cbn. sp; auto.
Qed.
Lemma build_fleet_ok numbers base pieces gs F : build_fleet numbers base pieces gs = Ok F -> fleet_of numbers base pieces gs gs F.
Proof.
  unfold build_fleet. assert (X : forall l2 l1 F0 F1, gs = l1 ++ l2 -> fleet_of numbers base pieces gs l1 F0 -> foldM (init_gen numbers base pieces) l2 F0 = Ok F1 -> fleet_of numbers base pieces gs gs F1).
  { induction l2 as [|g l2 IH]; intros l1 F0 F1 E H R; cbn [foldM] in R; [injection R as <-; rewrite List.app_nil_r in E; now subst l1|]. apply bind_inv in R as (F2 & R1 & R). apply (IH (l1 ++ [g]) F2); [now rewrite <- app_assoc| |exact R]. eapply init_gen_ok; eauto. rewrite E, nth_error_app2, Nat.sub_diag by lia. reflexivity. }
  intros E. apply (X gs [] _ _ eq_refl) in E; [exact E|]. unfold fleet_of. cbn. sp; auto; [apply placed_start|]. intros [|i] g u N; discriminate.
Qed.
Lemma init_gen_total numbers base pieces all gs g F : fleet_of numbers base pieces all gs F -> nth_error all (List.length gs) = Some g ->
  (exists F', init_gen numbers base pieces F g = Ok F') <-> In (ge_bus g) numbers /\ exists ls, cost_lines base pieces (List.length gs) (ge_max g) (ge_min g) (ge_curve g) = Ok ls.
Proof.
  intros (P & L & U & B & D & M) N. unfold init_gen. rewrite L. split.
  - intros (F' & E). apply bind_inv in E as (xb & Eb & E). apply bind_inv in E as (tab & Et & E). apply bind_inv in E as (ls & El & E). split; [apply find_bus_total; eauto|eauto].
  - intros (I & ls & El). apply find_bus_total in I as (xb & Eb). destruct (placed_push _ _ _ _ (ge_bus g) xb P) as (t' & Et' & P'); [now rewrite nth_error_map, N|exact Eb|]. rewrite Eb. cbn [rbind]. rewrite Et'. cbn [rbind]. rewrite El. cbn [rbind]. eauto.
Qed.
Lemma build_fleet_total numbers base pieces gs :
  (exists F, build_fleet numbers base pieces gs = Ok F) <-> forall i g, nth_error gs i = Some g -> In (ge_bus g) numbers /\ exists ls, cost_lines base pieces i (ge_max g) (ge_min g) (ge_curve g) = Ok ls.
Proof.
  unfold build_fleet. assert (X : forall l2 l1 F0, gs = l1 ++ l2 -> fleet_of numbers base pieces gs l1 F0 ->
    ((exists F, foldM (init_gen numbers base pieces) l2 F0 = Ok F) <-> forall i g, nth_error l2 i = Some g -> In (ge_bus g) numbers /\ exists ls, cost_lines base pieces (List.length l1 + i) (ge_max g) (ge_min g) (ge_curve g) = Ok ls)).
  { induction l2 as [|g l2 IH]; intros l1 F0 E H; cbn [foldM]; [split; [intros _ [|i] g N; discriminate|eauto]|].
    assert (N : nth_error gs (List.length l1) = Some g) by (rewrite E, nth_error_app2, Nat.sub_diag by lia; reflexivity). pose proof (init_gen_total _ _ _ _ _ _ _ H N) as T.
    assert (E' : gs = (l1 ++ [g]) ++ l2) by (rewrite <- app_assoc; exact E). split.
    - intros (F & R). apply bind_inv in R as (F2 & R1 & R). pose proof (init_gen_ok _ _ _ _ _ _ _ _ H N R1) as H2. intros [|i] a Ni; cbn in Ni.
      + injection Ni as <-. rewrite Nat.add_0_r. apply T. eauto.
      + destruct (proj1 (IH _ _ E' H2) (ex_intro _ _ R) _ _ Ni) as (I & ls & C). rewrite app_length in C. cbn [List.length] in C. replace (List.length l1 + S i) with (List.length l1 + 1 + i) by lia. eauto.
    - intros A. pose proof (A 0 g eq_refl) as A0. rewrite Nat.add_0_r in A0. apply T in A0 as (F2 & R1). rewrite R1. cbn [rbind]. pose proof (init_gen_ok _ _ _ _ _ _ _ _ H N R1) as H2. apply (IH _ _ E' H2). intros i a Ni. rewrite app_length. cbn [List.length].
      replace (List.length l1 + 1 + i) with (List.length l1 + S i) by lia. apply A. exact Ni. }
  apply (X gs [] _ eq_refl). unfold fleet_of. cbn. sp; auto; [apply placed_start|]. intros [|i] g u N; discriminate.
Qed.

(** ** From the settings to the list of generators *)

Lemma mapM_comb {A B} (f : nat * A -> res B) (l : list A) r : mapM f (combine (seq 0 (List.length l)) l) = Ok r <-> List.length r = List.length l /\ forall i a b, nth_error l i = Some a -> nth_error r i = Some b -> f (i, a) = Ok b.
Proof.
  assert (X : forall l k r, mapM f (combine (seq k (List.length l)) l) = Ok r <-> List.length r = List.length l /\ forall i a b, nth_error l i = Some a -> nth_error r i = Some b -> f (k + i, a) = Ok b); [|apply (X l 0 r)].
  clear. induction l as [|x l IH]; intros k r; cbn [List.length seq combine mapM].
  - split; [intros [= <-]; split; [reflexivity|intros [|i] a b N; discriminate]|]. intros (L & _). destruct r; [reflexivity|discriminate].
  - split.
    + intros E. apply bind_inv in E as (b & Eb & E). apply bind_inv in E as (bs & Ebs & E). injection E as <-. apply IH in Ebs as (L & H). split; [cbn; lia|]. intros [|i] a c N N'; cbn in N, N'.
      * injection N as <-. injection N' as <-. now rewrite Nat.add_0_r.
      * rewrite <- Nat.add_succ_comm. eauto.
    + intros (L & H). destruct r as [|b r]; [discriminate|]. pose proof (H 0 x b eq_refl eq_refl) as H0. rewrite Nat.add_0_r in H0. rewrite H0. cbn [rbind]. rewrite (proj2 (IH (S k) r)); [reflexivity|]. split; [cbn in L; lia|]. intros i a c N N'. rewrite Nat.add_succ_comm. apply (H (S i)); auto.
Qed.
Lemma map_eq_nth {A B C} (f : A -> C) (g : B -> C) (l : list A) (m : list B) : List.length l = List.length m -> (forall i a b, nth_error l i = Some a -> nth_error m i = Some b -> f a = g b) -> map f l = map g m.
Proof. revert m. induction l as [|x l IH]; intros [|y m] L H; cbn in *; try discriminate; auto. f_equal; [apply (H 0); auto|]. apply IH; [lia|]. intros i. apply (H (S i)). Qed.
Lemma conv_gen_inv S c i r g : conv_gen S c (i, r) = Ok g ->
  ge_kind g = Conv /\ ge_bus g = ma_bus r /\ ge_max g = ma_max r /\ ge_min g = ma_min r /\ ge_curve g = ma_curve r /\ pick_ramp (cv_ramp S) c i = Ok (ge_ramp g) /\ pick (cv_base S) i = Ok (ge_base g) /\ pick_time (cv_mut S) i = Ok (ge_mut g) /\ pick_time (cv_mdt S) i = Ok (ge_mdt g).
Proof.
  unfold conv_gen. intros E. apply bind_inv in E as (ramp & E1 & E). apply bind_inv in E as (mut & E2 & E). apply bind_inv in E as (mdt & E3 & E). apply bind_inv in E as (x & E4 & E). apply bind_inv in E as (base & E5 & E). apply bind_inv in E as (y & E6 & E). injection E as <-. cbn. sp; auto.
Qed.
Lemma hydro_gen_inv S i r g : hydro_gen S (i, r) = Ok g ->
  ge_kind g = Hyd /\ ge_bus g = pl_bus r /\ ge_max g = pl_max r /\ ge_min g = pl_min r /\ ge_curve g = mkCurve true 2 [0; 0; 1; pl_cost r]%Q /\ pick (hs_ramp S) i = Ok (ge_ramp g) /\ pick (hs_base S) i = Ok (ge_base g) /\ ge_mut g = None /\ ge_mdt g = None.
Proof.
  unfold hydro_gen. intros E. apply bind_inv in E as (x & E4 & E). apply bind_inv in E as (base & E5 & E). apply bind_inv in E as (ramp & E1 & E). apply bind_inv in E as (y & E6 & E). injection E as <-. cbn. sp; auto.
Qed.
Lemma all_gens_ok CS col ms HS ps fs gs : all_gens CS col ms HS ps fs = Ok gs ->
  List.length gs = List.length ms + List.length ps + List.length fs
  /\ map ge_bus gs = map ma_bus ms ++ map pl_bus ps ++ map fa_bus fs /\ map ge_max gs = map ma_max ms ++ map pl_max ps ++ map fa_max fs /\ map ge_min gs = map ma_min ms ++ map pl_min ps ++ map (fun _ => 0%Q) fs
  /\ map ge_kind gs = map (fun _ => Conv) ms ++ map (fun _ => Hyd) ps ++ map (fun _ => Ren) fs
  /\ (forall i r g, nth_error ms i = Some r -> nth_error gs i = Some g -> conv_gen CS col (i, r) = Ok g)
  /\ (forall i r g, nth_error ps i = Some r -> nth_error gs (List.length ms + i) = Some g -> hydro_gen HS (i, r) = Ok g)
  /\ (forall i r g, nth_error fs i = Some r -> nth_error gs (List.length ms + List.length ps + i) = Some g -> g = res_gen r).
Proof.
  unfold all_gens. intros E. apply bind_inv in E as (a & Ea & E). apply bind_inv in E as (b & Eb & E). injection E as <-. apply mapM_comb in Ea as (La & Ha). apply mapM_comb in Eb as (Lb & Hb).
  rewrite !app_length, map_length. split; [lia|]. rewrite !map_app, !map_map.
  assert (Ca : forall i r g, nth_error a i = Some g -> nth_error ms i = Some r -> conv_gen CS col (i, r) = Ok g) by eauto. assert (Cb : forall i r g, nth_error b i = Some g -> nth_error ps i = Some r -> hydro_gen HS (i, r) = Ok g) by eauto.
  sp.
  - f_equal; [|f_equal]; apply map_eq_nth; auto; intros i x y Nx Ny; [apply (Ca i _ _ Nx) in Ny; now apply conv_gen_inv in Ny as (? & ? & ? & ? & ?)|apply (Cb i _ _ Nx) in Ny; now apply hydro_gen_inv in Ny as (? & ? & ? & ? & ?)].
  - f_equal; [|f_equal]; apply map_eq_nth; auto; intros i x y Nx Ny; [apply (Ca i _ _ Nx) in Ny; now apply conv_gen_inv in Ny as (? & ? & ? & ? & ?)|apply (Cb i _ _ Nx) in Ny; now apply hydro_gen_inv in Ny as (? & ? & ? & ? & ?)].
  - f_equal; [|f_equal]; apply map_eq_nth; auto; intros i x y Nx Ny; [apply (Ca i _ _ Nx) in Ny; now apply conv_gen_inv in Ny as (? & ? & ? & ? & ?)|apply (Cb i _ _ Nx) in Ny; now apply hydro_gen_inv in Ny as (? & ? & ? & ? & ?)].
  - f_equal; [|f_equal]; apply map_eq_nth; auto; intros i x y Nx Ny; [apply (Ca i _ _ Nx) in Ny; now apply conv_gen_inv in Ny as (? & ? & ? & ? & ?)|apply (Cb i _ _ Nx) in Ny; now apply hydro_gen_inv in Ny as (? & ? & ? & ? & ?)].
  - intros i r g Nr Ng. assert (i < List.length ms) by (apply nth_error_Some; congruence). rewrite nth_error_app1 in Ng by lia. eauto.
  - intros i r g Nr Ng. assert (i < List.length ps) by (apply nth_error_Some; congruence). rewrite nth_error_app2 in Ng by lia. replace (List.length ms + i - List.length a) with i in Ng by lia. rewrite nth_error_app1 in Ng by lia. eauto.
  - intros i r g Nr Ng. rewrite nth_error_app2 in Ng by lia. rewrite nth_error_app2 in Ng by lia. replace (_ - _ - _) with i in Ng by lia. rewrite nth_error_map, Nr in Ng. cbn in Ng. congruence.
Qed.
