(** What the setters of the joint model change. *)
From Coq Require Import List Bool Arith ZArith QArith Lia Lqa.
From Verif Require Import Base ReaderProofs GraphData GraphDataProofs Cases CasesProofs Network InputOutput InputOutputProofs ConverterOpen HydroSpec HydroTables HydroNet ScreeningProofs Linear LinearProofs Devices EnergyTree Joint JointSpec JointEnergy JointCost Reports ReportsSpec.
From Verif Require Power PowerSpec PowerTables PowerLimits PowerUnits.
Import ListNotations.
Open Scope nat_scope.
Open Scope list_scope.
Local Ltac sp := repeat match goal with |- _ /\ _ => split end.

(** ** The model does not depend on the data *)

Definition ends (b : branch) : nat * nat := (br_from b, br_to b).
Lemma grid_ends numbers flag sec l l' : map ends l = map ends l' -> build_grid numbers l flag sec = build_grid numbers l' flag sec.
Proof.
  intros E. assert (L : List.length l = List.length l') by (rewrite <- (map_length ends l), E; apply map_length). unfold build_grid. rewrite L.
  assert (X : forall n k st, foldM (link_branch numbers) (combine (seq k n) l) st = foldM (link_branch numbers) (combine (seq k n) l') st).
  { clear L. revert l' E. induction l as [|b l IH]; intros [|b' l'] E n k st; try discriminate; [reflexivity|]. injection E as E1 E2 E. destruct n as [|n]; [reflexivity|]. cbn [seq combine foldM]. unfold link_branch at 1 3. destruct st as ((a & c) & d). cbn [snd fst]. rewrite E1, E2.
    match goal with |- rbind ?x _ = rbind ?x _ => destruct x; [|reflexivity] end. rewrite !bind_ok. now apply IH. }
  now rewrite X.
Qed.
Lemma initialise_data cf W l d r : map ends l = map ends (Power.w_branches W) -> Power.initialise cf (with_data W l d r) = Power.initialise cf W.
Proof.
  intros E. assert (L : Power.n_bra (with_data W l d r) = Power.n_bra W) by (unfold Power.n_bra; cbn; rewrite <- (map_length ends l), E; apply map_length).
  unfold Power.initialise. cbn [with_data Power.w_conv Power.w_column Power.w_machines Power.w_hyd Power.w_plants Power.w_farms Power.w_branches Power.w_secflag Power.w_security Power.w_losses Power.w_points Power.w_pumps Power.w_buses Power.w_nodem Power.w_scen Power.w_time Power.w_links Power.w_cool Power.w_base Power.w_pieces Power.w_stores Power.w_weights].
  rewrite L. change (Power.numbers (with_data W l d r)) with (Power.numbers W). rewrite (grid_ends _ _ _ l (Power.w_branches W) E).
  replace (Power.security (with_data W l d r)) with (Power.security W) by (unfold Power.security; rewrite L; reflexivity). reflexivity.
Qed.
Lemma store_ok {A} l i (a : A) : i < List.length l -> store l i a = Ok (set_nth i a l).
Proof. intros L. unfold store. apply Nat.ltb_lt in L. now rewrite L. Qed.
Lemma store_inv {A} l i (a : A) r : store l i a = Ok r -> i < List.length l /\ r = set_nth i a l.
Proof. unfold store. destruct (Nat.ltb_spec i (List.length l)); [|discriminate]. intros E. injection E as <-. auto. Qed.
Lemma lines_ok k q index : forall l l', foldM (fun l b => do r <- at_ l b; store l b (set_branch k q r)) index l = Ok l' ->
  List.length l' = List.length l /\ map ends l' = map ends l /\ Forall (fun b => b < List.length l) index /\
  forall b, nth_error l' b = if existsb (Nat.eqb b) index then option_map (set_branch k q) (nth_error l b) else nth_error l b.
Proof.
  induction index as [|i index IH]; intros l l' E; cbn [foldM] in E; [injection E as <-; sp; auto|]. apply bind_inv in E as (l1 & E1 & E). apply bind_inv in E1 as (r & Er & E1). apply at_nth in Er. apply store_inv in E1 as (Li & ->). destruct (IH _ _ E) as (H1 & H2 & H3 & H4). rewrite set_nth_length in H1, H3. sp; [exact H1| | |].
  - rewrite H2. apply nth_error_ext. intros b. rewrite !nth_error_map, nth_set_nth. destruct (Nat.eqb_spec i b); [subst|reflexivity]. rewrite Er. cbn [option_map]. f_equal. now destruct k.
  - constructor; auto.
  - intros b. rewrite H4, nth_set_nth. cbn [existsb]. rewrite (Nat.eqb_sym i b). destruct (Nat.eqb_spec b i); [subst|reflexivity]. cbn [orb]. rewrite Er. cbn [option_map]. destruct (existsb (Nat.eqb i) index); [|reflexivity]. f_equal. now destruct k.
Qed.
Section Ready.
Variables (cf : list Q -> nat -> res (list Q)) (pow53 root pow23 : Q -> Q) (J : settings).
Notation ready := (ready cf pow53 root pow23 J).
Lemma ready_facts K : ready K -> Power.initialise cf (q_power K) = Ok (q_model K) /\ Power.w_noh (q_power K) = q_number K.
Proof.
  induction 1 as [K I|K K' index value R (P & N) E|rows series K K' index value R (P & N) E|K K' k index value R (P & N) E].
  - destruct (initialise_energy cf pow53 root pow23 J K I) as (_ & _ & _ & P & _). split; [exact P|]. apply (network_counts cf pow53 root pow23 J K I).
  - unfold set_demand in E. cbv zeta in E. destruct (index <=? _); [|injection E as <-; auto]. apply bind_inv in E as (w & _ & E). apply bind_inv in E as (d & _ & E). injection E as <-. cbn [q_power q_model q_number with_power]. split; [|exact N]. rewrite initialise_data; [exact P|reflexivity].
  - unfold set_res in E. cbv zeta in E. apply bind_inv in E as (w & _ & E). destruct (index <=? _); [|injection E as <-; auto]. apply bind_inv in E as (d & _ & E). apply bind_inv in E as (r & _ & E). apply bind_inv in E as (r' & _ & E). injection E as <-. cbn [q_power q_model q_number with_power]. split; [|exact N]. rewrite initialise_data; [exact P|reflexivity].
  - unfold set_lines in E. cbv zeta in E. apply bind_inv in E as (w & _ & E). apply bind_inv in E as (l & El & E). injection E as <-. cbn [q_power q_model q_number with_power]. split; [|exact N]. rewrite initialise_data; [exact P|]. now apply lines_ok in El.
Qed.
(** The profiles of all scenarios are there. *)
Lemma set_same K K' : (exists l d r, K' = with_power K (with_data (q_power K) l d r) (q_model K) /\ List.length d = List.length (Power.w_demand (q_power K)) /\ List.length r = List.length (Power.w_profile (q_power K))) \/ K' = K ->
  Power.w_nodem (q_power K') = Power.w_nodem (q_power K) /\ Power.w_nores (q_power K') = Power.w_nores (q_power K) /\ Power.w_time (q_power K') = Power.w_time (q_power K) /\ Power.n_ren (q_power K') = Power.n_ren (q_power K) /\
  List.length (Power.w_demand (q_power K')) = List.length (Power.w_demand (q_power K)) /\ List.length (Power.w_profile (q_power K')) = List.length (Power.w_profile (q_power K)).
Proof. intros [(l & d & r & -> & D & R)| ->]; [|now sp]. cbn. now sp. Qed.
Lemma error_skipn {A} n : forall (l : list A) j, nth_error (skipn n l) j = nth_error l (n + j).
Proof. induction n as [|n IH]; intros [|a l] j; cbn; auto. now destruct j. Qed.
Lemma error_firstn {A} n : forall (l : list A) j, j < n -> nth_error (firstn n l) j = nth_error l j.
Proof. induction n as [|n IH]; intros [|a l] [|j] L; cbn; auto; try lia. apply IH. lia. Qed.
Lemma slice_inv a value l l' : assign_slice a value l = Ok l' -> List.length l' = List.length l /\ forall j, nth_error l' j = if (a <=? j) && (j <? a + List.length value) && (a + List.length value <=? List.length l) then nth_error value (j - a) else nth_error l j.
Proof.
  unfold assign_slice. destruct (Nat.leb_spec (a + List.length value) (List.length l)) as [L|L].
  - intros E. injection E as <-. split; [rewrite !app_length, firstn_length, skipn_length; lia|]. intros j. rewrite Bool.andb_true_r. assert (LF : List.length (firstn a l) = a) by (rewrite firstn_length; lia). destruct (Nat.leb_spec a j) as [B|B]; cbn [andb].
    + rewrite nth_error_app2 by lia. rewrite LF. destruct (Nat.ltb_spec j (a + List.length value)) as [B'|B']; [apply nth_error_app1; lia|]. rewrite nth_error_app2 by lia. rewrite error_skipn. f_equal. lia.
    + rewrite nth_error_app1 by lia. now apply error_firstn.
  - intros E. assert (l' = l) as -> by (destruct value as [|? [|? ?]]; congruence). split; [reflexivity|]. intros j. now rewrite Bool.andb_false_r.
Qed.
Lemma profile_inv index value l l' : assign_profile index value l = Ok l' -> List.length l' = List.length l.
Proof. destruct index as [|i]; cbn [assign_profile]; [destruct value as [|? [|? ?]]; congruence|]. intros E. now apply slice_inv in E. Qed.
Lemma profile_ok i value l : (i + 1) * List.length value <= List.length l -> exists l', assign_profile (S i) value l = Ok l' /\ List.length l' = List.length l /\
  forall j, nth_error l' j = if (i * List.length value <=? j) && (j <? (i + 1) * List.length value) then nth_error value (j - i * List.length value) else nth_error l j.
Proof.
  intros L. cbn [assign_profile]. assert (E : exists l', assign_slice (i * List.length value) value l = Ok l'). { unfold assign_slice. destruct (Nat.leb_spec (i * List.length value + List.length value) (List.length l)); [eauto|nia]. } destruct E as (l' & E). exists l'. split; [exact E|]. apply slice_inv in E as (H & N). split; [exact H|]. intros j. rewrite N. replace (i * List.length value + List.length value) with ((i + 1) * List.length value) by nia. apply Nat.leb_le in L. rewrite L, Bool.andb_true_r. reflexivity.
Qed.
Lemma res_fold (g : list Q -> nat -> res nat) base l : forall r r', foldM (fun r (iq : nat * Q) => do i <- g r (fst iq); store r i (snd iq / base)%Q) l r = Ok r' -> List.length r' = List.length r.
Proof. induction l as [|x l IH]; intros r r' E; cbn [foldM] in E; [now injection E as <-|]. apply bind_inv in E as (r1 & E1 & E). apply bind_inv in E1 as (i & _ & E1). apply store_inv in E1 as (_ & ->). apply IH in E. now rewrite set_nth_length in E. Qed.
Lemma ready_profiles K : ready K -> (0 < Power.w_nodem (q_power K) -> List.length (Power.w_demand (q_power K)) = Power.w_nodem (q_power K) * Power.w_time (q_power K)) /\
  (0 < Power.n_ren (q_power K) -> List.length (Power.w_profile (q_power K)) = Power.w_nores (q_power K) * Power.w_time (q_power K)).
Proof.
  induction 1 as [K I|K K' index value R IH E|rows series K K' index value R IH E|K K' k index value R IH E].
  - destruct (initialise_energy cf pow53 root pow23 J K I) as (_ & _ & N & _). unfold network_of in N. apply bind_inv in N as (d & Ed & N). injection N as N. rewrite <- N. cbn. split.
    + intros P. apply Nat.ltb_lt in P. rewrite P in Ed. unfold fill_demand in Ed. destruct (Nat.ltb_spec (Power.w_time (j_power J) * sz_scenarios (en_sizes (q_energy K))) (List.length (Power.w_demand (j_power J)))); [discriminate|]. injection Ed as <-. rewrite app_length, repeat_length. lia.
    + intros P. change (0 < Power.n_ren (j_power J)) in P. destruct (Nat.ltb_spec 0 (Power.n_ren (j_power J))); [|lia]. destruct (Power.n_ren (j_power J)); [lia|]. cbn. rewrite repeat_length. lia.
  - destruct (set_same K K') as (A1 & A2 & A3 & A4 & A5 & A6); [|now rewrite A1, A2, A3, A4, A5, A6]. unfold set_demand in E. cbv zeta in E. destruct (index <=? _); [|injection E as <-; auto]. apply bind_inv in E as (w & _ & E). apply bind_inv in E as (d & Ed & E). injection E as <-. left. do 3 eexists. split; [reflexivity|]. split; [now apply profile_inv in Ed|reflexivity].
  - destruct (set_same K K') as (A1 & A2 & A3 & A4 & A5 & A6); [|now rewrite A1, A2, A3, A4, A5, A6]. unfold set_res in E. cbv zeta in E. apply bind_inv in E as (w & _ & E). destruct (index <=? _); [|injection E as <-; auto]. apply bind_inv in E as (d & _ & E). apply bind_inv in E as (r & Er & E). apply bind_inv in E as (r' & Er' & E). injection E as <-. left. do 3 eexists. split; [reflexivity|]. split; [reflexivity|]. apply profile_inv in Er. rewrite <- Er. refine (res_fold (fun r i => match index with O => slot (List.length r) 0 | S k => Ok (k * Power.w_time (q_power K) + i) end) _ _ _ _ Er').
  - destruct (set_same K K') as (A1 & A2 & A3 & A4 & A5 & A6); [|now rewrite A1, A2, A3, A4, A5, A6]. unfold set_lines in E. cbv zeta in E. apply bind_inv in E as (w & _ & E). apply bind_inv in E as (l & El & E). injection E as <-. left. do 3 eexists. now sp.
Qed.

(** ** Profiles *)

Lemma check_length time value p : check_profile time value = Ok p -> List.length p = time.
Proof.
  unfold check_profile. destruct (Nat.eqb_spec (List.length value) time); [intros E; now injection E as <-|]. destruct (Nat.eqb_spec time 1); [intros E; injection E as <-; now subst|]. destruct (Nat.eqb_spec time 2); [intros E; injection E as <-; now subst|discriminate].
Qed.
Lemma demand_set K i value p : ready K -> S i <= Power.w_nodem (q_power K) -> check_profile (Power.w_time (q_power K)) value = Ok p ->
  exists K' d, set_demand K (S i) value = Ok K' /\ K' = with_power K (with_data (q_power K) (Power.w_branches (q_power K)) d (Power.w_profile (q_power K))) (q_model K) /\
    List.length d = List.length (Power.w_demand (q_power K)) /\
    forall j t, t < Power.w_time (q_power K) -> nth_error d (j * Power.w_time (q_power K) + t) = if j =? i then nth_error p t else nth_error (Power.w_demand (q_power K)) (j * Power.w_time (q_power K) + t).
Proof.
  intros R Li C. pose proof (check_length _ _ _ C) as Lp. destruct (ready_profiles K R) as (D & _). specialize (D ltac:(lia)). destruct (profile_ok i p (Power.w_demand (q_power K))) as (d & Ed & Ld & N); [rewrite Lp, D; nia|]. eexists _, d. split; [|split; [reflexivity|split; [exact Ld|]]].
  - unfold set_demand. cbv zeta. apply Nat.leb_le in Li. rewrite Li, C, bind_ok, Ed, bind_ok. reflexivity.
  - intros j t Lt. rewrite N, Lp. set (T := Power.w_time (q_power K)) in *. destruct (Nat.eqb_spec j i) as [->|Ne].
    + destruct (Nat.leb_spec (i * T) (i * T + t)); [|lia]. destruct (Nat.ltb_spec (i * T + t) ((i + 1) * T)); [|lia]. cbn [andb]. f_equal. lia.
    + destruct (Nat.leb_spec (i * T) (j * T + t)), (Nat.ltb_spec (j * T + t) ((i + 1) * T)); cbn [andb]; try reflexivity. exfalso. apply Ne. nia.
Qed.
Lemma res_values k base v : forall a r, a + k + List.length v <= List.length r -> exists r', foldM (fun r (iq : nat * Q) => do i <- Ok (k + fst iq); store r i (snd iq / base)%Q) (combine (seq a (List.length v)) v) r = Ok r' /\
  List.length r' = List.length r /\ forall j, nth_error r' j = if (a + k <=? j) && (j <? a + k + List.length v) then option_map (fun q => q / base)%Q (nth_error v (j - (a + k))) else nth_error r j.
Proof.
  induction v as [|q v IH]; intros a r L.
  - exists r. sp; [reflexivity|reflexivity|]. intros j. cbn [List.length]. destruct (Nat.leb_spec (a + k) j), (Nat.ltb_spec j (a + k + 0)); try reflexivity. lia.
  - cbn [List.length] in L |- *. cbn [seq combine foldM fst snd]. rewrite bind_ok, store_ok, bind_ok by lia. destruct (IH (S a) (set_nth (k + a) (q / base)%Q r)) as (r' & E & Lr & N); [rewrite set_nth_length; lia|]. exists r'. sp; [exact E|now rewrite set_nth_length in Lr|]. intros j. rewrite N, nth_set_nth.
    destruct (Nat.leb_spec (S a + k) j), (Nat.ltb_spec j (S a + k + List.length v)), (Nat.leb_spec (a + k) j), (Nat.ltb_spec j (a + k + S (List.length v))), (Nat.eqb_spec (k + a) j); cbn [andb]; try lia; try reflexivity.
    + replace (j - (a + k)) with (S (j - (S a + k))) by lia. reflexivity.
    + subst j. replace (k + a - (a + k)) with 0 by lia. cbn [nth_error option_map]. destruct (nth_error r (k + a)) eqn:X; [reflexivity|]. apply nth_error_None in X. lia.
Qed.
Lemma res_set rows series K i value p : ready K -> 0 < Power.n_ren (q_power K) -> S i <= Power.w_nores (q_power K) -> (do x <- overwritten rows series (S i) value; check_profile (Power.w_time (q_power K)) x) = Ok p ->
  exists K' d, set_res rows series K (S i) value = Ok K' /\ K' = with_power K (with_data (q_power K) (Power.w_branches (q_power K)) (Power.w_demand (q_power K)) d) (q_model K) /\
    List.length d = List.length (Power.w_profile (q_power K)) /\
    forall j t, t < Power.w_time (q_power K) -> nth_error d (j * Power.w_time (q_power K) + t) = if j =? i then option_map (fun q => q / base K)%Q (nth_error p t) else nth_error (Power.w_profile (q_power K)) (j * Power.w_time (q_power K) + t).
Proof.
  intros R NR Li C. apply bind_inv in C as (x & Ex & C). pose proof (check_length _ _ _ C) as Lp. destruct (ready_profiles K R) as (_ & D). specialize (D NR). destruct (profile_ok i p (Power.w_profile (q_power K))) as (r & Er & Lr & N); [rewrite Lp, D; nia|]. rewrite Lp in N. set (T := Power.w_time (q_power K)) in *.
  destruct (res_values (i * T) (base K) p 0 r) as (d & Ed & Ld & N'); [rewrite Lr, D, Lp; nia|]. eexists _, d. split; [|split; [reflexivity|split; [congruence|]]].
  - unfold set_res. cbv zeta. apply Nat.leb_le in Li. fold T. rewrite Ex, bind_ok, Li, C, bind_ok, Er, bind_ok. rewrite Ed, bind_ok. reflexivity.
  - intros j t Lt. rewrite N', Lp, N. cbn [Nat.add]. destruct (Nat.eqb_spec j i) as [->|Ne].
    + destruct (Nat.leb_spec (i * T) (i * T + t)); [|lia]. destruct (Nat.ltb_spec (i * T + t) (i * T + T)); [|lia]. cbn [andb]. do 2 f_equal. lia.
    + destruct (Nat.leb_spec (i * T) (j * T + t)), (Nat.ltb_spec (j * T + t) (i * T + T)), (Nat.ltb_spec (j * T + t) ((i + 1) * T)); cbn [andb]; try reflexivity; exfalso; apply Ne; nia.
Qed.
Lemma line_limit K K' index q inputs v s : ready K -> set_lines K LRate index q = Ok K' -> answer J K' inputs v s -> Power.w_flag (q_power K) = true ->
  forall b xs h t, In b index -> xs <= List.length (Power.w_security (q_power K)) -> h < q_number K -> t < Power.w_time (q_power K) -> PowerSpec.flow_index (Power.n_bra (q_power K)) (Power.w_security (q_power K)) xs b <> None ->
    (- (q / base K) <= PowerSpec.flow (q_power K) (fun x => s (JNet x)) h t xs b <= q / base K)%Q.
Proof.
  intros R E A FL b xs h t Ib Lx Lh Lt FI. pose proof (ready_lines _ _ _ _ _ _ _ _ _ _ R E) as R'. destruct (ready_facts K' R') as (P & N). destruct (ready_facts K R) as (_ & N0). unfold set_lines in E. cbv zeta in E. apply bind_inv in E as (w & _ & E). apply bind_inv in E as (l & El & E). apply lines_ok in El as (L & EN & FB & NB). injection E as <-. cbn [q_power q_model with_power] in P.
  destruct A as (_ & _ & A & _). cbn [q_power q_model with_power] in A. assert (NBR : Power.n_bra (with_data (q_power K) l (Power.w_demand (q_power K)) (Power.w_profile (q_power K))) = Power.n_bra (q_power K)) by (unfold Power.n_bra; exact L).
  rewrite Forall_forall in FB. specialize (FB b Ib). destruct (nth_error (Power.w_branches (q_power K)) b) as [br|] eqn:Nb; [|apply nth_error_None in Nb; lia]. specialize (NB b). rewrite Nb in NB. assert (X : existsb (Nat.eqb b) index = true) by (apply existsb_exists; exists b; split; [exact Ib|apply Nat.eqb_refl]). rewrite X in NB. cbn [option_map set_branch] in NB.
  assert (NF : Power.w_secflag (q_power K) = false) by (apply (PowerLimits.security_flag_fails cf _ _ _ P A FL); [rewrite NBR; unfold Power.n_bra; lia|cbn; rewrite N0; lia]).
  pose proof (PowerLimits.flow_limit cf _ _ _ P A NF FL t b xs h _ Lt NB Lx ltac:(cbn; rewrite N0; exact Lh)) as B. rewrite NBR in B. specialize (B FI). cbn [br_rate with_data Power.w_base] in B. unfold PowerSpec.flow in *. rewrite NBR in B. exact B.
Qed.

(** ** Capacities *)

Lemma capacity_max K K' g c : ready K -> g < Power.n_gen (q_power K) -> set_capacity K (S g) c = Ok K' -> q_power K' = q_power K /\ q_number K' = q_number K /\ Power.m_derate (q_model K') = Power.m_derate (q_model K) /\
  exists u, Power.unit_at (q_model K) g = Ok u /\ Power.unit_at (q_model K') g = Ok (with_max u (match c with CFlag true => un_max u / base K | CFlag false => 0 | CNumber q => q / base K end)%Q) /\
  forall i, i <> g -> Power.unit_at (q_model K') i = Power.unit_at (q_model K) i.
Proof.
  intros R Lg E. unfold set_capacity in E. cbv zeta in E. apply bind_inv in E as (i & Ei & E). cbn [slot] in Ei. destruct (g <? _) eqn:B; [|discriminate]. injection Ei as <-. apply bind_inv in E as (u & Eu & E). apply bind_inv in E as (q & Eq & E). injection E as <-. cbn [q_power q_model q_number with_power with_fleet Power.m_derate]. sp; auto. exists u. unfold Power.unit_at. cbn [Power.m_fleet fl_units with_power with_fleet q_model]. sp; [exact Eu| |].
  - apply at_nth. rewrite nth_set_nth, Nat.eqb_refl. apply at_nth in Eu. rewrite Eu. do 2 f_equal. destruct c as [[|]|x].
    + destruct (Qeq_bool (base K) 0); [discriminate|]. now injection Eq as <-.
    + now injection Eq as <-.
    + destruct (Qeq_bool (base K) 0); [discriminate|]. now injection Eq as <-.
  - intros i Ni. unfold at_. rewrite nth_set_nth. destruct (Nat.eqb_spec g i); [congruence|reflexivity].
Qed.
Lemma capacity_limit K K' g c inputs v s : ready K -> set_capacity K (S g) c = Ok K' -> answer J K' inputs v s -> g < Power.n_conv (q_power K) + Power.n_hyd (q_power K) -> Power.w_cool (q_power K) = None ->
  exists u, Power.unit_at (q_model K') g = Ok u /\ ((Power.w_uc (q_power K) = true -> 0 <= un_max u)%Q -> forall h t, h < q_number K -> t < Power.w_time (q_power K) -> (0 <= PowerSpec.output (q_power K) (fun x => s (JNet x)) h t g <= un_max u)%Q).
Proof.
  intros R E A Lg NC. assert (Lg' : g < Power.n_gen (q_power K)) by (unfold Power.n_gen; lia). destruct (capacity_max K K' g c R Lg' E) as (EP & EN & ED & u & Eu & Eu' & _). destruct (ready_facts K R) as (P & N).
  destruct (PowerUnits.unit_facts cf _ _ P g Lg') as (gs & ge & u0 & _ & _ & Eu0 & (Kd & _) & _ & _ & TK & _). assert (u0 = u) by congruence. subst u0. pose proof (PowerUnits.kind_ren (q_power K) g Lg) as NR. rewrite <- TK, <- Kd in NR. pose proof (PowerUnits.derate_none cf _ _ P) as DN.
  assert (DR : Power.m_derate (q_model K) = None). { destruct (PowerTables.initialise_inv _ _ _ P) as (gs' & _ & _ & _ & _ & _ & _ & _ & _ & _ & _ & _ & D & _). rewrite NC in D. now injection D as D. }
  destruct A as (_ & _ & A & _). rewrite EP in A. set (u' := with_max u _) in *. exists u'. split; [exact Eu'|]. intros PS h t Lh Lt. destruct (PowerTables.answer_rules _ _ _ A) as ((_ & _ & U & _) & DOM).
  assert (KU : un_kind u' <> Ren) by exact NR. assert (DV : forall t, Power.derate_of (q_model K') u' g t = Ok 1%Q) by (intros x; unfold Power.derate_of; rewrite ED, DR; now destruct (un_kind u')).
  split.
  - apply (DOM (Power.NGen (h * Power.n_gen (q_power K) + g) t)). cbn [Power.declared]. apply andb_true_intro. split; apply Nat.ltb_lt; [rewrite N; nia|exact Lt].
  - unfold PowerTables.unit_rules in U. destruct (Power.w_uc (q_power K)) eqn:UC.
    + destruct U as (U & _). destruct (U g t h Lg' Lt ltac:(rewrite N; exact Lh)) as (o & Eo & S). unfold Power.max_uc_rule in Eo. rewrite Eu', bind_ok in Eo.
      assert (Eo' : (do v0 <- Power.get (q_power K) (q_model K') (Power.NGen (Power.con_gen (q_power K) h + g) t); match un_bin u' with None => Power.keep (CLe v0 (EK (un_max u'))) | Some b => do x <- Power.get (q_power K) (q_model K') (Power.NBin (Power.con_gen (q_power K) h + b) t); Power.keep (CLe v0 (EMul (un_max u' * 1)%Q x)) end) = Ok o) by (destruct (un_kind u'); [| |congruence]; rewrite DV, bind_ok in Eo; exact Eo).
      apply bind_inv in Eo' as (w & Ew & Eo'). apply PowerTables.get_inv in Ew as (-> & _). destruct (un_bin u') as [b|].
      * apply bind_inv in Eo' as (x & Ex & Eo'). injection Eo' as <-. apply PowerTables.get_inv in Ex as (-> & D). specialize (S _ eq_refl). cbn [sat eval] in S. pose proof (DOM _ D) as B. cbn [Power.domain] in B. specialize (PS eq_refl). unfold PowerSpec.output. unfold Power.con_gen in S. cbv beta in *. destruct B as [B|B]; rewrite B in S; [rewrite Qmult_0_r in S; lra|rewrite !Qmult_1_r in S; exact S].
      * injection Eo' as <-. specialize (S _ eq_refl). exact S.
    + destruct U as (U & _). destruct (U g t h Lg' Lt ltac:(rewrite N; exact Lh)) as (o & Eo & S). unfold Power.max_rule in Eo. rewrite Eu', bind_ok in Eo.
      assert (Eo' : (do v0 <- Power.get (q_power K) (q_model K') (Power.NGen (Power.con_gen (q_power K) h + g) t); Power.keep (CLe v0 (EK (un_max u' * 1)%Q))) = Ok o) by (destruct (un_kind u'); [| |congruence]; rewrite DV, bind_ok in Eo; exact Eo).
      apply bind_inv in Eo' as (w & Ew & Eo'). injection Eo' as <-. apply PowerTables.get_inv in Ew as (-> & _). specialize (S _ eq_refl). cbn [sat eval] in S. unfold PowerSpec.output. unfold Power.con_gen in S. rewrite Qmult_1_r in S. exact S.
Qed.
End Ready.
