(** The case that the screening model receives from the converter. *)
From Coq Require Import List String Ascii Bool Arith ZArith QArith Lia.
From Verif Require Import Base Container GraphDataProofs NumeralSpec Converter ConverterSpec ConverterProofs ConverterFile Screening ScreeningSpec.
Import ListNotations.
Open Scope string_scope.
Open Scope nat_scope.
Open Scope list_scope.

Local Ltac sp := repeat match goal with |- _ /\ _ => split end.

Fixpoint all_of {A B} (f : A -> option B) (l : list A) : option (list B) :=
  match l with
  | [] => Some []
  | a :: r => match f a, all_of f r with Some b, Some bs => Some (b :: bs) | _, _ => None end
  end.
Definition to_z (v : value) : option Z := match v with VI z => Some z | _ => None end.
Definition to_q (v : value) : option Q := match v with VF (Fin q) => Some q | VI z => Some (inject_Z z) | _ => None end.
Definition column {B} (f : value -> option B) (c : string) (t : table) : option (list B) :=
  match d_get c t with Some l => all_of f l | None => None end.

(** The entries of the dictionary of CJ:37-120 that screening_model_CLI.py:82-158 reads. *)
Definition as_mpc (c : case) : option Screening.mpc :=
  match k_base c,
    column to_z "BUS_I" (k_bus c), column to_z "BUS_TYPE" (k_bus c), column to_q "PD" (k_bus c), column to_q "QD" (k_bus c),
    column to_z "F_BUS" (k_branch c), column to_z "T_BUS" (k_branch c), column to_q "BR_X" (k_branch c), column to_q "RATE_A" (k_branch c), column to_z "BR_STATUS" (k_branch c),
    column to_z "GEN_BUS" (k_gen c), column to_q "PMAX" (k_gen c), column to_q "PMIN" (k_gen c), column to_z "GEN" (k_gen c), all_of (all_of to_q) (c_cost (k_costs c))
  with
  | Some (Fin b), Some bi, Some bt, Some pd, Some qd, Some fb, Some tb, Some x, Some ra, Some st, Some gb, Some hi, Some lo, Some on, Some co =>
    Some (mkMPC b bi bt pd qd fb tb x ra st gb hi lo on (c_model (k_costs c)) (map Z.to_nat (c_ncost (k_costs c))) co)
  | _, _, _, _, _, _, _, _, _, _, _, _, _, _, _ => None
  end.

(** ** The networks that a file may describe *)

Definition number_at (r : list entry) (j : nat) (q : Q) : Prop := exists n, nth_error r j = Some (Num n) /\ (numeral_value n == q)%Q.
Definition whole_at (r : list entry) (j : nat) (z : Z) : Prop := exists n, nth_error r j = Some (Num n) /\ whole_part z (numeral_value n).
Definition finite (e : entry) : Prop := match e with Num _ => True | Infinite _ => False end.
Definition finite_at (r : list entry) (j : nat) : Prop := exists q, number_at r j q.

Record network (ss : list section) : Prop := {
  nw_base : exists n, base_of ss = Some (Num n) /\ ~ (numeral_value n == 0)%Q;
  nw_bus : rows_of "bus" ss <> []; nw_branch : rows_of "branch" ss <> []; nw_gen : rows_of "gen" ss <> [];
  nw_demand : Forall (fun r => finite_at r 2 /\ finite_at r 3) (rows_of "bus" ss);
  nw_line : Forall (fun r => (exists q, number_at r 3 q /\ ~ (q == 0)%Q) /\ finite_at r 5) (rows_of "branch" ss);
  nw_limits : Forall (fun r => finite_at r 8 /\ finite_at r 9) (rows_of "gen" ss);
  nw_from : Forall (fun r => exists z b, whole_at r 0 z /\ In b (rows_of "bus" ss) /\ whole_at b 0 z) (rows_of "branch" ss);
  nw_to : Forall (fun r => exists z b, whole_at r 1 z /\ In b (rows_of "bus" ss) /\ whole_at b 0 z) (rows_of "branch" ss);
  nw_at : Forall (fun r => exists z b, whole_at r 0 z /\ In b (rows_of "bus" ss) /\ whole_at b 0 z) (rows_of "gen" ss);
  nw_reference : exists b, In b (rows_of "bus" ss) /\ whole_at b 1 3;
  nw_costs : List.length (costs_of ss) = List.length (rows_of "gen" ss);
  nw_poly : Forall (fun r => (numeral_value (co_model r) == 2)%Q /\ Forall finite (co_first r)) (costs_of ss) }.

(** The other arguments of the screening model fit the file. *)
Record fits (ss : list section) (A : setup) : Prop := {
  ft_cont : Forall (fun row => List.length row = List.length (rows_of "branch" ss)) (cont A);
  ft_prev : List.length (prev A) = List.length (rows_of "branch" ss);
  ft_mult : List.length (mult A) = List.length (rows_of "bus" ss);
  ft_additions : List.length (additions A) = List.length (rows_of "bus" ss);
  ft_peak_p : peak_p A = [] \/ List.length (peak_p A) = List.length (rows_of "bus" ss);
  ft_peak_q : peak_q A = [] \/ List.length (peak_q A) = List.length (rows_of "bus" ss) }.

(** ** Proofs *)

Lemma whole_column rows vs j : Forall2 (fun (r : list entry) v => exists e, nth_error r j = Some e /\ stored Whole e v) rows vs ->
  exists zs, all_of to_z vs = Some zs /\ Forall2 (fun r z => whole_at r j z) rows zs.
Proof.
  induction 1 as [|r v rows vs (e & E & S0) F (zs & IH & F')]; [exists []; split; [reflexivity|constructor]|].
  destruct v as [z| |]; try contradiction. destruct S0 as (n & -> & W). exists (z :: zs). cbn [all_of to_z]. rewrite IH. split; [reflexivity|]. constructor; auto. exists n. auto.
Qed.
Lemma real_column k rows vs j : k <> Whole -> Forall (fun r => finite_at r j) rows -> Forall2 (fun (r : list entry) v => exists e, nth_error r j = Some e /\ stored k e v) rows vs ->
  exists qs, all_of to_q vs = Some qs /\ Forall2 (fun r q => number_at r j q) rows qs.
Proof.
  intros NK FF F. induction F as [|r v rows vs (e & E & S0) F IH]; [exists []; split; [reflexivity|constructor]|]. inversion FF as [|? ? (q & n & En & Q0) FF']; subst. destruct (IH FF') as (qs & A & B).
  rewrite E in En. injection En as ->. destruct v as [z|f|t]; try (destruct k; contradiction). destruct f as [p| |]; try (destruct k; contradiction).
  exists (p :: qs). cbn [all_of to_q]. rewrite A. split; [reflexivity|]. constructor; auto. exists n. split; auto. destruct k; [congruence| |]; cbn in S0; now symmetry.
Qed.
Lemma cost_columns V rs ls : v_keeps_text V = false -> Forall (fun r => Forall finite (co_first r)) rs ->
  Forall2 (fun r l => exists fs v, l = fs ++ [v] /\ Forall2 (stored Real) (co_first r) fs /\ (if v_keeps_text V then v = VT (entry_text (co_last r)) else stored Whole (co_last r) v)) rs ls ->
  exists qs, all_of (all_of to_q) ls = Some qs /\ Forall2 (fun r l => List.length l = S (List.length (co_first r))) rs qs.
Proof.
  intros KT FF F. rewrite KT in F. induction F as [|r l rs ls (fs & v & -> & S1 & S2) F IH]; [exists []; split; [reflexivity|constructor]|]. inversion FF as [|? ? F1 FF']; subst. destruct (IH FF') as (qs & A & B).
  assert (X : forall es gs, Forall2 (stored Real) es gs -> Forall finite es -> exists x, all_of to_q (gs ++ [v]) = Some x /\ List.length x = S (List.length es)).
  { intros es gs G. induction G as [|e g es gs Se G IHG]; intros Fe; inversion Fe; subst.
    - destruct v as [z| |]; try contradiction. eexists. split; reflexivity.
    - destruct (IHG ltac:(assumption)) as (x & Ex & Lx). destruct g as [| [p| |] |]; try contradiction; destruct e; try contradiction. eexists. cbn [app all_of to_q]. rewrite Ex. split; [reflexivity|]. cbn. congruence. }
  destruct (X _ _ S1 F1) as (x & Ex & Lx). exists (x :: qs). cbn [all_of]. rewrite Ex, A. split; [reflexivity|]. constructor; auto.
Qed.

Lemma whole_at_unique r j z z' : whole_at r j z -> whole_at r j z' -> z = z'.
Proof. intros (n & E & W) (n' & E' & W'). rewrite E in E'. injection E' as <-. exact (whole_unique _ _ _ W W'). Qed.
Lemma in_whole rows zs j : Forall2 (fun r z => whole_at r j z) rows zs -> forall r z, In r rows -> whole_at r j z -> In z zs.
Proof. induction 1 as [|r z rows zs W F IH]; intros r' z' I W'; [destruct I|]. destruct I as [<-|I]; [left; eapply whole_at_unique; eauto|right; eauto]. Qed.
Lemma in_zs rows zs j : Forall2 (fun r z => whole_at r j z) rows zs -> forall z, In z zs -> exists r, In r rows /\ whole_at r j z.
Proof. induction 1 as [|r z rows zs W F IH]; intros z' I; [destruct I|]. destruct I as [<-|I]; [exists r; split; auto; now left|]. destruct (IH z' I) as (r' & A & B). exists r'. split; auto. now right. Qed.
Lemma F2_nth {A B} (P : A -> B -> Prop) l m d e : Forall2 P l m -> forall i, i < List.length m -> P (nth i l d) (nth i m e).
Proof. induction 1 as [|a b l m H F IH]; intros [|i] L; cbn in *; auto; try lia. apply IH. lia. Qed.

Lemma file_is_network V ss c : v_keeps_text V = false -> holds_file V ss c -> network ss -> exists M, as_mpc c = Some M /\
  Forall2 (fun r q => number_at r 8 q) (rows_of "gen" ss) (pmax M) /\ forall A, fits ss A -> well_formed M A.
Proof.
  intros KT (HB & HS & HT & HC & _ & _) [(nb & Eb & Zb) N1 N2 N3 N4 N5 N6 N7 N8 N9 N10 N11 N12].
  destruct HC as (C1 & _ & _ & C4 & C5).
  destruct (HT "bus" _ eq_refl) as (_ & TB). destruct (HT "gen" _ eq_refl) as (_ & TG). destruct (HT "branch" _ eq_refl) as (_ & TR).
  change (the_table "bus" c) with (k_bus c) in TB. change (the_table "gen" c) with (k_gen c) in TG. change (the_table "branch" c) with (k_branch c) in TR.
  rewrite Eb in HB. destruct (k_base c) as [[b| |]|] eqn:Ekb; try contradiction. cbn [float_is] in HB.
  assert (WH : forall t rows cols j nm, (forall j c k, nth_error cols j = Some (c, k) -> exists vs, d_get c t = Some vs /\ Forall2 (fun r v => exists e, nth_error r j = Some e /\ stored k e v) rows vs) ->
    nth_error cols j = Some (nm, Whole) -> exists zs, column to_z nm t = Some zs /\ Forall2 (fun r z => whole_at r j z) rows zs).
  { intros t rows cols j nm T E. destruct (T j nm Whole E) as (vs & G & F). destruct (whole_column rows vs j F) as (zs & A & B). exists zs. unfold column. now rewrite G. }
  assert (RE : forall t rows cols j nm, (forall j c k, nth_error cols j = Some (c, k) -> exists vs, d_get c t = Some vs /\ Forall2 (fun r v => exists e, nth_error r j = Some e /\ stored k e v) rows vs) ->
    nth_error cols j = Some (nm, Real) -> Forall (fun r => finite_at r j) rows -> exists qs, column to_q nm t = Some qs /\ Forall2 (fun r q => number_at r j q) rows qs).
  { intros t rows cols j nm T E Fi. destruct (T j nm Real E) as (vs & G & F). destruct (real_column Real rows vs j ltac:(discriminate) Fi F) as (qs & A & B). exists qs. unfold column. now rewrite G. }
  destruct (WH _ _ _ 0 "BUS_I" TB eq_refl) as (bi & Ebi & Fbi). destruct (WH _ _ _ 1 "BUS_TYPE" TB eq_refl) as (bt & Ebt & Fbt).
  destruct (RE _ _ _ 2 "PD" TB eq_refl) as (pd & Epd & Fpd); [eapply Forall_impl; [|exact N4]; cbn; tauto|].
  destruct (RE _ _ _ 3 "QD" TB eq_refl) as (qd & Eqd & Fqd); [eapply Forall_impl; [|exact N4]; cbn; tauto|].
  destruct (WH _ _ _ 0 "F_BUS" TR eq_refl) as (fb & Efb & Ffb). destruct (WH _ _ _ 1 "T_BUS" TR eq_refl) as (tb & Etb & Ftb). destruct (WH _ _ _ 10 "BR_STATUS" TR eq_refl) as (st & Est & Fst).
  destruct (RE _ _ _ 3 "BR_X" TR eq_refl) as (x & Ex & Fx); [eapply Forall_impl; [|exact N5]; cbn; intros a ((q & A & _) & _); exists q; auto|].
  destruct (RE _ _ _ 5 "RATE_A" TR eq_refl) as (ra & Era & Fra); [eapply Forall_impl; [|exact N5]; cbn; tauto|].
  destruct (WH _ _ _ 0 "GEN_BUS" TG eq_refl) as (gb & Egb & Fgb). destruct (WH _ _ _ 7 "GEN" TG eq_refl) as (on & Eon & Fon).
  destruct (RE _ _ _ 8 "PMAX" TG eq_refl) as (hi & Ehi & Fhi); [eapply Forall_impl; [|exact N6]; cbn; tauto|].
  destruct (RE _ _ _ 9 "PMIN" TG eq_refl) as (lo & Elo & Flo); [eapply Forall_impl; [|exact N6]; cbn; tauto|].
  destruct (cost_columns V _ _ KT ltac:(eapply Forall_impl; [|exact N12]; cbn; tauto) C5) as (co & Eco & Fco).
  exists (mkMPC b bi bt pd qd fb tb x ra st gb hi lo on (c_model (k_costs c)) (map Z.to_nat (c_ncost (k_costs c))) co).
  unfold as_mpc. rewrite Ekb, Ebi, Ebt, Epd, Eqd, Efb, Etb, Ex, Era, Est, Egb, Ehi, Elo, Eon, Eco. sp; [reflexivity|exact Fhi|].
  intros A [T1 T2 T3 T4 T5 T6].
  pose proof (GraphDataProofs.Forall2_length _ _ _ Fbi) as Lbi. pose proof (GraphDataProofs.Forall2_length _ _ _ Fbt) as Lbt. pose proof (GraphDataProofs.Forall2_length _ _ _ Fpd) as Lpd. pose proof (GraphDataProofs.Forall2_length _ _ _ Fqd) as Lqd.
  pose proof (GraphDataProofs.Forall2_length _ _ _ Ffb) as Lfb. pose proof (GraphDataProofs.Forall2_length _ _ _ Ftb) as Ltb. pose proof (GraphDataProofs.Forall2_length _ _ _ Fx) as Lx. pose proof (GraphDataProofs.Forall2_length _ _ _ Fra) as Lra. pose proof (GraphDataProofs.Forall2_length _ _ _ Fst) as Lst.
  pose proof (GraphDataProofs.Forall2_length _ _ _ Fgb) as Lgb. pose proof (GraphDataProofs.Forall2_length _ _ _ Fhi) as Lhi. pose proof (GraphDataProofs.Forall2_length _ _ _ Flo) as Llo. pose proof (GraphDataProofs.Forall2_length _ _ _ Fon) as Lon.
  pose proof (GraphDataProofs.Forall2_length _ _ _ C1) as LC1. pose proof (GraphDataProofs.Forall2_length _ _ _ C4) as LC4. pose proof (GraphDataProofs.Forall2_length _ _ _ Fco) as Lco.
  assert (POS : forall (l : list (list entry)), l <> [] -> 0 < List.length l) by (intros [|? ?] H; [congruence|cbn; lia]).
  apply POS in N1, N2, N3.
  assert (ENDS : forall rows j zs, Forall2 (fun r z => whole_at r j z) rows zs -> Forall (fun r => exists z b, whole_at r j z /\ In b (rows_of "bus" ss) /\ whole_at b 0 z) rows -> forall z, In z zs -> In z bi).
  { intros rows j zs F FA z I. destruct (in_zs _ _ _ F z I) as (r & Ir & W). rewrite Forall_forall in FA. destruct (FA r Ir) as (z' & b' & W' & Ib & Wb). rewrite (whole_at_unique _ _ _ _ W W'). exact (in_whole _ _ _ Fbi b' z' Ib Wb). }
  constructor; unfold no_bus, no_branch, no_gen; cbn [Screening.m_base bus_i bus_type bus_pd bus_qd Screening.f_bus t_bus br_x rate_a br_status gen_bus pmax pmin gen_on gc_model gc_ncost gc_cost]; try congruence; try lia.
  - rewrite <- Lgb, <- N11. clear - C1 N12. induction C1 as [|r z rs zs E F IH]; [reflexivity|]. inversion N12 as [|? ? (X & _) N]; subst. cbn [List.length repeat]. rewrite (IH N). f_equal. rewrite X in E. unfold Qeq in E. cbn in E. lia.
  - rewrite map_length. congruence.
  - intros g Lg. assert (L2 : g < List.length (map Z.to_nat (c_ncost (k_costs c)))) by (rewrite map_length; lia).
    change (nth g (map Z.to_nat (c_ncost (k_costs c))) 0) with (nth g (map Z.to_nat (c_ncost (k_costs c))) (Z.to_nat 0)). rewrite map_nth. destruct (costs_of ss) as [|r0 rs] eqn:Ecs; [cbn in N11; lia|]. rewrite <- Ecs in *.
    pose proof (F2_nth _ _ _ r0 0%Z C4 g ltac:(lia)) as X. pose proof (F2_nth _ _ _ r0 [] Fco g ltac:(lia)) as Y. cbv beta in X, Y. rewrite X, Nat2Z.id. split; [lia|exact Y].
  - now rewrite HB.
  - intros i Li E. pose proof (F2_nth _ _ _ [] 0%Q Fx i ltac:(lia)) as (n & En & EQ). rewrite Forall_forall in N5. destruct (N5 (nth i (rows_of "branch" ss) [])) as ((q & (n' & En' & EQ') & NZ) & _); [apply nth_In; lia|].
    rewrite En in En'. injection En' as <-. apply NZ. now rewrite <- EQ', EQ.
  - exact (ENDS _ _ _ Ffb N7).
  - exact (ENDS _ _ _ Ftb N8).
  - exact (ENDS _ _ _ Fgb N9).
  - destruct N10 as (b' & Ib & W). exact (in_whole _ _ _ Fbt b' 3%Z Ib W).
  - eapply Forall_impl; [|exact T1]. cbn. intros; congruence.
Qed.
