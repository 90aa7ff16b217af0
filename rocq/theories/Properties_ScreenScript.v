(** Properties C333-C336: the older screening program. *)
From Coq Require Import List Bool Arith ZArith QArith Qabs Lia Lqa Permutation Sorted.
From Verif Require Import Base GraphData GraphDataProofs Reader ReaderProofs Cases CasesSpec CasesProofs CasesClusters CasesOutputs Screening ScreeningSpec ScreeningProofs ScreeningPlans Properties_Screening ScreenScript.
Import ListNotations.
Open Scope nat_scope.
Open Scope list_scope.

Local Ltac sp := repeat match goal with |- _ /\ _ => split end.
Local Ltac step H := repeat (match type of H with
  | rbind ?m _ = Ok _ => let E := fresh "E" in destruct m eqn:E; cbn [rbind] in H; [|discriminate]
  end).

(** ** Two lists of rules with the same answers *)

Definition alike (s : var -> Q) (a b : res constr) : Prop :=
  match a, b with Ok c, Ok c' => sat s c <-> sat s c' | Err e, Err e' => e = e' | _, _ => False end.
Lemma mapM_alike {X} s (f g : X -> res constr) : forall l, (forall x, In x l -> alike s (f x) (g x)) ->
  match mapM f l, mapM g l with Ok c, Ok c' => Forall (sat s) c <-> Forall (sat s) c' | Err e, Err e' => e = e' | _, _ => False end.
Proof.
  induction l as [|x l IH]; intros H; [cbn; tauto|]. cbn [mapM]. pose proof (H x (or_introl eq_refl)) as Hx. unfold alike in Hx.
  destruct (f x) as [c|e], (g x) as [c'|e']; cbn [rbind]; try tauto. specialize (IH (fun y I => H y (or_intror I))).
  destruct (mapM f l), (mapM g l); cbn [rbind]; try tauto. rewrite !Forall_cons_iff. tauto.
Qed.
Lemma over3_alike s n k t f g : (forall i j l, i < n -> j < k -> l < t -> alike s (f i j l) (g i j l)) ->
  match over3 n k t f, over3 n k t g with Ok c, Ok c' => Forall (sat s) c <-> Forall (sat s) c' | Err e, Err e' => e = e' | _, _ => False end.
Proof.
  intros H. apply mapM_alike. intros [[i j] l] I. apply in_prod_iff in I as [I L]. apply in_prod_iff in I as [I J]. apply in_seq in I, J, L. cbn [fst snd]. apply H; lia.
Qed.

(** The balances agree where reactive and additional demand cancel. *)
Lemma balances_alike M A pd qd s n k t q a : at_ qd n = Ok q -> at_ (additions A) n = Ok a -> (nth n (mult A) 0 * q + a == 0)%Q ->
  alike s (balance M A pd qd n k t) (script_balance M A pd n k t).
Proof.
  intros Hq Ha H. unfold balance, script_balance, alike. destruct (at_ (bus_i M) n) as [z|]; cbn [rbind]; [|reflexivity].
  destruct (existsb _ _); cbn [rbind]; [reflexivity|]. destruct (at_ (mult A) n) as [mu|] eqn:Em; cbn [rbind]; [|reflexivity]. destruct (at_ pd n) as [p|]; cbn [rbind]; [|reflexivity].
  rewrite Hq, Ha. cbn [rbind sat eval]. apply (at_val _ _ _ 0%Q) in Em. rewrite Em in H. split; intros G; lra.
Qed.

Definition answered (D : Prop) (s : var -> Q) (r : res (list constr)) : Prop := D /\ exists cs, r = Ok cs /\ Forall (sat s) cs.
Lemma bind_alike {X} D s (m : res X) k k' : (forall x, answered D s (k x) <-> answered D s (k' x)) -> (answered D s (rbind m k) <-> answered D s (rbind m k')).
Proof. intros H. destruct m; cbn [rbind]; [apply H|tauto]. Qed.

Lemma programs_alike M A tp s qd : demand M (peak_q A) (bus_qd M) = Ok qd ->
  (forall n, n < no_bus M -> exists q a, at_ qd n = Ok q /\ at_ (additions A) n = Ok a /\ (nth n (mult A) 0 * q + a == 0)%Q) ->
  (script_feasible M A tp s <-> feasible M A tp s).
Proof.
  intros Hq H. unfold script_feasible, feasible. fold (answered (in_domain M A tp s) s (script_constraints M A)). fold (answered (in_domain M A tp s) s (constraints M A)).
  unfold script_constraints, constraints. apply bind_alike. intros _. apply bind_alike. intros pieces. apply bind_alike. intros pd. rewrite Hq. cbn [rbind]. cbv zeta.
  pose proof (over3_alike s (no_bus M) (List.length (cont A)) (no_time A) (balance M A pd qd) (script_balance M A pd)) as Al.
  assert (Hal : forall i j l, i < no_bus M -> j < List.length (cont A) -> l < no_time A -> alike s (balance M A pd qd i j l) (script_balance M A pd i j l)).
  { intros n k t Ln _ _. destruct (H n Ln) as (q & a & E1 & E2 & E3). now apply (balances_alike M A pd qd s n k t q a). }
  specialize (Al Hal). clear Hal. do 7 (apply bind_alike; intros ?).
  destruct (over3 _ _ _ (balance M A pd qd)) as [c8|], (over3 _ _ _ (script_balance M A pd)) as [c8'|]; cbn [rbind]; try tauto; [|split; intros (D & cs & E & F); discriminate].
  destruct (over3 _ _ _ (curtail A pd)) as [c9|]; cbn [rbind]; [|split; intros (D & cs & E & F); discriminate].
  split; intros (D & cs & E & F); (split; [exact D|]); inversion E; subst cs; eexists; (split; [reflexivity|]); rewrite !Forall_app in *; tauto.
Qed.

(* ------------------------------------------------------------------ *)
(** ** C333 *)

(** The two programs accept the same answers at the same cost where the reactive demand, scaled, and
    the additional demand of every bus cancel, for instance where both are zero. *)
Theorem C333_same_answers : forall M A tp s, well_formed M A ->
  (forall n, n < no_bus M -> (nth n (mult A) 0 * qd_of M A n + nth n (additions A) 0 == 0)%Q) ->
  (script_feasible M A tp s <-> feasible M A tp s).
Proof.
  intros M A tp s W H. assert (T : exists l, mapM (fun b => at_ (bus_qd M) b) (seq 0 (no_bus M)) = Ok l).
  { apply mapM_total. intros b I. apply in_seq in I. destruct (at_total (bus_qd M) b) as (a & E & _); [rewrite (wf_qd _ _ W); lia|eauto]. }
  destruct T as (l & El). assert (Ed : exists qd, demand M (peak_q A) (bus_qd M) = Ok qd /\ List.length qd = no_bus M).
  { unfold demand. rewrite El. cbn [rbind]. eexists. split; [reflexivity|]. apply mapM_Forall2 in El. apply Forall2_length in El. rewrite seq_length in El.
    destruct (wf_peak_q _ _ W) as [-> |Lq]; [lia|]. destruct (peak_q A); [lia|exact Lq]. }
  destruct Ed as (qd & Ed & Lq). apply (programs_alike M A tp s qd Ed). intros n Ln. destruct (at_total qd n) as (q & Eq & _); [lia|]. destruct (at_total (additions A) n) as (a & Ea & _); [rewrite (wf_additions _ _ W); lia|].
  exists q, a. sp; auto. specialize (H n Ln). pose proof (demand_ok _ _ _ _ _ _ Ed Eq Ln) as V. apply (at_val _ _ _ 0%Q) in Ea. unfold qd_of in H. rewrite <- V, Ea in H. exact H.
Qed.
Print Assumptions C333_same_answers.

Example C333_witness : well_formed (net 1 2 2 10 [0; 0; 0]%Q 5 0) (args 1 0) /\
  (forall n, n < no_bus (net 1 2 2 10 [0; 0; 0]%Q 5 0) -> (nth n (mult (args 1 0)) 0 * qd_of (net 1 2 2 10 [0; 0; 0]%Q 5 0) (args 1 0) n + nth n (additions (args 1 0)) 0 == 0)%Q) /\
  script_feasible (net 1 2 2 10 [0; 0; 0]%Q 5 0) (args 1 0) two_pi (answer 5 (-5) 3 0).
Proof.
  assert (W : well_formed (net 1 2 2 10 [0; 0; 0]%Q 5 0) (args 1 0)) by (apply net_wf; cbn; auto).
  assert (H : forall n, n < no_bus (net 1 2 2 10 [0; 0; 0]%Q 5 0) -> (nth n (mult (args 1 0)) 0 * qd_of (net 1 2 2 10 [0; 0; 0]%Q 5 0) (args 1 0) n + nth n (additions (args 1 0)) 0 == 0)%Q).
  { intros n L. cbn in L. destruct n as [|[|n]]; [reflexivity|reflexivity|lia]. }
  sp; auto. apply C333_same_answers; auto. apply feasibleb_ok. vm_compute. reflexivity.
Qed.

(* ------------------------------------------------------------------ *)
(** ** C334 *)

(** Reactive demand in the case is ignored by the older program: what it accepts, with nothing built
    and nothing shed, has no answer at all in the newer one. *)
Theorem C334_reactive_refuted : exists M A s, well_formed M A /\ script_feasible M A two_pi s /\ (forall b t, (s (ICbra b t) == 0)%Q) /\ (forall n k t, (s (Plc n k t) == 0)%Q) /\
  forall s', ~ feasible M A two_pi s'.
Proof.
  exists (net 1 2 2 1 [0; 0; 0]%Q 0 5), (args 1 0), (fun _ => 0%Q). assert (W : well_formed (net 1 2 2 1 [0; 0; 0]%Q 0 5) (args 1 0)) by (apply net_wf; cbn; auto). sp; auto; try reflexivity.
  - (* the older program cannot tell this case from the one without reactive demand *)
    assert (F : script_feasible (net 1 2 2 1 [0; 0; 0]%Q 0 0) (args 1 0) two_pi (fun _ => 0%Q)).
    { apply C333_same_answers; [apply net_wf; cbn; auto| |apply feasibleb_ok; vm_compute; reflexivity]. intros n L. cbn in L. destruct n as [|[|n]]; [reflexivity|reflexivity|lia]. }
    exact F.
  - intros s F. pose proof F as F'. apply feasible_plan in F'; auto; [|reflexivity]. destruct F' as [_ O]. specialize (O 0 0 ltac:(cbn; lia) ltac:(cbn; lia)).
    assert (Nd : NoDup (bus_i (net 1 2 2 1 [0; 0; 0]%Q 0 5))) by (repeat constructor; cbn; intuition lia).
    pose proof (C109_power_is_balanced _ _ _ _ 0 0 Nd (wf_costs _ _ W) F ltac:(cbn; lia) ltac:(cbn; lia)) as B.
    pose proof (op_shed _ _ _ _ _ _ O 0 ltac:(cbn; lia)) as [_ S0]. pose proof (op_shed _ _ _ _ _ _ O 1 ltac:(cbn; lia)) as [_ S1].
    destruct (op_on _ _ _ _ _ _ O 0 ltac:(cbn; lia) ltac:(discriminate)) as (_ & n & [Fn _] & U). unfold total, demand_of, pd_of, qd_of, qsum in *. cbn in *.
    assert (n = 0 \/ n = 1) as [-> | ->] by (destruct n as [|[|[|n]]]; cbn in Fn; try discriminate; auto); cbn in U; lra.
Qed.
Print Assumptions C334_reactive_refuted.

(** The arguments of the newer program without reactive and additional demand. *)
Definition active_only (M : mpc) (A : setup) : setup :=
  mkSetup (gen_status A) (line_status A) (cicost A) (penalty A) (cont A) (prev A) (peak_p A) (repeat 0%Q (no_bus M)) (mult A) (repeat 0%Q (no_bus M)) (no_time A).

(** The answers of the older program are exactly the operations in which every bus has only its
    active demand, whatever the reactive demand of the case and the other arguments. *)
Theorem C334_active_partial : forall M A tp s, well_formed M A -> (0 < nth 0 (pmax M) 0)%Q -> (script_feasible M A tp s <-> plan M (active_only M A) s tp) /\
  forall n, n < no_bus M -> (demand_of M (active_only M A) n == nth n (mult A) 0 * pd_of M A n)%Q.
Proof.
  intros M A tp s W P. assert (R : forall n, nth n (repeat 0%Q (no_bus M)) 0%Q = 0%Q) by (intros; apply nth_repeat).
  assert (B0 := wf_bus _ _ W). assert (W' : well_formed M (active_only M A)).
  { destruct W. constructor; auto; cbn; rewrite ?repeat_length; auto. }
  assert (Q0 : forall n, qd_of M (active_only M A) n = 0%Q).
  { intros n. unfold qd_of. cbn. destruct (no_bus M) as [|m] eqn:Em; [lia|]. change (repeat 0%Q (S m)) with (0%Q :: repeat 0%Q m). cbv iota. change (0%Q :: repeat 0%Q m) with (repeat 0%Q (S m)). apply nth_repeat. }
  assert (Ea : forall n, nth n (additions (active_only M A)) 0%Q = 0%Q) by exact R. split.
  - rewrite <- (feasible_plan M (active_only M A) tp s W' P). rewrite <- (C333_same_answers M (active_only M A) tp s W'); [reflexivity|]. intros n Ln. rewrite Q0, Ea. ring.
  - intros n Ln. unfold demand_of. rewrite Q0, Ea. change (pd_of M (active_only M A) n) with (pd_of M A n). change (mult (active_only M A)) with (mult A). ring.
Qed.
Print Assumptions C334_active_partial.

Example C334_witness : well_formed (net 1 2 2 10 [0; 0; 0]%Q 5 4) (args 1 0) /\ (0 < nth 0 (pmax (net 1 2 2 10 [0; 0; 0]%Q 5 4)) 0)%Q /\
  script_feasible (net 1 2 2 10 [0; 0; 0]%Q 5 4) (args 1 0) two_pi (answer 5 (-5) 3 0).
Proof.
  sp; [apply net_wf; cbn; auto|reflexivity|]. assert (F : script_feasible (net 1 2 2 10 [0; 0; 0]%Q 5 0) (args 1 0) two_pi (answer 5 (-5) 3 0)) by apply C333_witness. exact F.
Qed.

(* ------------------------------------------------------------------ *)
(** ** C335 *)

Lemma fop_perm {X} (R : X -> X -> Prop) : (forall a b, R a b -> R b a) -> forall l l', Permutation l l' -> ForallOrdPairs R l -> ForallOrdPairs R l'.
Proof.
  intros Sy l l' P. induction P as [|x l l' P IH|x y l|l m n P IH P' IH']; intros F; auto.
  - inversion F; subst. constructor; auto. now rewrite <- P.
  - inversion F as [|? ? F1 F2]; subst. inversion F2 as [|? ? F3 F4]; subst. apply Forall_cons_iff in F1 as [Fa Fb]. constructor; [constructor; auto|constructor; auto].
Qed.
Lemma strictly l : StronglySorted Qle l -> ForallOrdPairs (fun a b => ~ (a == b)%Q) l -> StronglySorted Qlt l.
Proof.
  induction 1 as [|a l Hs IH Hf]; intros F; constructor; inversion F; subst; auto. rewrite Forall_forall in *. intros x I. specialize (Hf x I). specialize (H1 x I). destruct (Qlt_le_dec a x); auto. exfalso. apply H1. lra.
Qed.
Lemma sum_positive l : Forall (Qle 0) l -> (0 <= qsum l)%Q /\ ((0 < qsum l)%Q <-> Exists (Qlt 0) l).
Proof.
  induction 1 as [|x l Hx F [IH0 IH]]; [cbn; split; [lra|split; [intros; lra|intros X; inversion X]]|]. unfold qsum in *. cbn [fold_right]. split; [lra|]. rewrite Exists_cons, <- IH. split; [|intros [?|?]; lra].
  intros. destruct (Qlt_le_dec 0 x); auto. right. lra.
Qed.

Lemma forall2_at {X Y} (R : X -> Y -> Prop) l l' : Forall2 R l l' -> forall b x, nth_error l b = Some x -> exists y, nth_error l' b = Some y /\ R x y.
Proof. induction 1 as [|x y l l' H F IH]; intros [|b] z N; cbn in *; try discriminate; [inversion N; subst; eauto|now apply IH]. Qed.

(** The sizes listed for a branch. *)
Lemma reduced cat tap l r : Forall (Qle 0) l -> reduce_branch cat tap l = Ok r ->
  let c := if Qeq_bool tap 0 then fst cat else snd cat in
  (~ Exists (Qlt 0) l -> r = []) /\
  (Exists (Qlt 0) l -> StronglySorted Qlt r /\ (forall v, In v l -> exists x, In x r /\ least_sufficient c v x) /\ forall x, In x r -> exists v, In v l /\ least_sufficient c v x).
Proof.
  intros F E c. unfold reduce_branch in E. destruct (sum_positive l F) as [S0 S1]. destruct (qgt (qsum l) 0) eqn:G.
  - assert (P : (0 < qsum l)%Q) by (unfold qgt in G; apply negb_true_iff in G; destruct (Qlt_le_dec 0 (qsum l)) as [|X]; auto; apply Qle_bool_iff in X; congruence). split; [tauto|]. intros _.
    step E. rename a into rs. inversion E; subst r. clear E. apply mapM_Forall2 in E0. assert (U := qunique_gen rs [] (FOP_nil _)). cbv zeta in U. fold (qunique rs) in U. destruct U as (U1 & U2 & U3).
    assert (In_ : forall x, In x (qsort (qunique rs)) <-> In x (qunique rs)).
    { intros x. split; intros I; [apply (Permutation_in x (qsort_perm (qunique rs)) I)|apply (Permutation_in x (Permutation_sym (qsort_perm (qunique rs))) I)]. }
    assert (Fr : forall v, In v l -> exists x, In x rs /\ least_sufficient c v x).
    { clear - E0. subst c. induction E0 as [|v x l rs H0 F IH]; intros w I; [destruct I|]. destruct I as [<-|I]; [exists x; split; [now left|now apply least_size_ok]|]. destruct (IH w I) as (y & Iy & Ly). exists y. split; [now right|auto]. }
    assert (Bk : forall x, In x rs -> exists v, In v l /\ least_sufficient c v x).
    { clear - E0. subst c. induction E0 as [|v x l rs H0 F IH]; intros w I; [destruct I|]. destruct I as [<-|I]; [exists v; split; [now left|now apply least_size_ok]|]. destruct (IH w I) as (y & Iy & Ly). exists y. split; [now right|auto]. }
    sp.
    + apply strictly; [apply qsort_sorted|]. apply (fop_perm _ (fun a b N X => N (Qeq_sym _ _ X)) (qunique rs)); [apply Permutation_sym, qsort_perm|exact U1].
    + intros v I. destruct (Fr v I) as (x & Ix & (Lx1 & Lx2 & Lx3)). destruct (U3 x (or_intror Ix)) as (x' & Ix' & Ex). exists x'. split; [now apply In_|].
      destruct (U2 x' Ix') as [[]|Ir]. destruct (Bk x' Ir) as (v' & _ & (Ly1 & _ & _)). unfold least_sufficient; sp; [exact Ly1|lra|]. intros y Iy Ly. specialize (Lx3 y Iy Ly). lra.
    + intros x I. apply In_ in I. destruct (U2 x I) as [[]|Ir]. auto.
  - inversion E; subst r. split; [auto|]. intros X. apply S1 in X. exfalso. unfold qgt in G. apply negb_false_iff, Qle_bool_iff in G. lra.
Qed.

(** The file lists for every branch, in increasing order, the least sufficient sizes of what the runs
    propose for it, nothing proposed included, and no size if no run proposes anything; the plans
    are the different ones of the runs. *)
Theorem C335_file : forall X (screen : nat -> nat -> list Q -> X -> res (list Q * list Q)) cat taps mults sizes plans,
  (forall xy xsc prev m r, screen xy xsc prev m = Ok r -> List.length (fst r) = List.length taps /\ List.length (snd r) = List.length taps) ->
  (forall xy xsc prev m r, screen xy xsc prev m = Ok r -> Forall (Qle 0) (fst r)) -> Forall (fun l => l <> []) mults -> script_program screen cat taps mults = Ok (sizes, plans) ->
  exists dict clusters, main_screening screen cat taps mults = Ok (dict, clusters) /\ List.length sizes = List.length taps /\
    (forall b, b < List.length taps -> let c := if Qeq_bool (nth b taps 0%Q) 0 then fst cat else snd cat in
       (~ Exists (Qlt 0) (nth b dict []) -> nth b sizes [] = []) /\
       (Exists (Qlt 0) (nth b dict []) -> StronglySorted Qlt (nth b sizes []) /\
          (forall v, In v (nth b dict []) -> exists x, In x (nth b sizes []) /\ least_sufficient c v x) /\ (forall x, In x (nth b sizes []) -> exists v, In v (nth b dict []) /\ least_sufficient c v x))) /\
    ForallOrdPairs (fun p q => ~ same_cluster p q) plans /\ (forall p, In p plans -> In p clusters) /\ forall p, In p clusters -> exists q, In q plans /\ same_cluster p q.
Proof.
  intros X screen cat taps mults sizes plans Z0 N0 NE E. unfold script_program in E. step E. rename a0 into sz. inversion E; subst. clear E. destruct a as [dict clusters]. cbn [fst snd] in *. exists dict, clusters.
  destruct (screening_trace screen cat taps Z0 mults dict clusters NE E0) as (recs & L & Hy & [D1 D2] & F).
  assert (Pos : forall b v, b < List.length taps -> In v (nth b dict []) -> (0 <= v)%Q).
  { intros b v Lb I. destruct (D2 b Lb) as [P _]. apply (Permutation_in v P) in I. apply in_map_iff in I as (r & Er & Ir). apply in_concat in Ir as (rs & Irs & Ir). apply In_nth_error in Irs as (y & Ey).
    assert (Ly : y < List.length mults) by (rewrite <- L; apply nth_error_Some; congruence). destruct (nth_error mults y) as [l|] eqn:El; [|apply nth_error_None in El; lia]. destruct (Hy y l El) as (rs' & E' & Lr & Hs). rewrite Ey in E'. inversion E'; subst rs'.
    apply In_nth_error in Ir as (k & Ek). assert (Lk : k < List.length l) by (rewrite <- Lr; apply nth_error_Some; congruence). destruct (nth_error l k) as [m|] eqn:Em; [|apply nth_error_None in Em; lia].
    specialize (Hs k m r Em Ek). specialize (N0 _ _ _ _ _ Hs). rewrite Forall_forall in N0. subst v. apply N0. apply nth_In. destruct (Z0 _ _ _ _ _ Hs) as [-> _]. exact Lb. }
  apply mapM_Forall2 in E1. pose proof (Forall2_length _ _ _ E1) as Ls. rewrite combine_length, D1 in Ls. destruct (dedupe_spec clusters) as (G1 & G2 & G3). split; [reflexivity|]. split; [lia|]. split; [|split; [exact G1|split; [exact G2|exact G3]]].
  intros b Lb. assert (R : reduce_branch cat (nth b taps 0%Q) (nth b dict []) = Ok (nth b sizes [])).
  { assert (N : nth_error (combine taps dict) b = Some (nth b taps 0%Q, nth b dict [])).
    { rewrite <- combine_nth by auto. apply nth_error_nth'. rewrite combine_length. lia. }
    destruct (forall2_at _ _ _ E1 _ _ N) as (y & Ny & Ry). cbn [fst snd] in Ry. now rewrite (nth_error_nth _ _ [] Ny). }
  apply (reduced cat (nth b taps 0%Q) (nth b dict [])); auto. apply Forall_forall. intros v I. now apply (Pos b).
Qed.
Print Assumptions C335_file.

Definition ex_runs (xy xsc : nat) (_ : list Q) (m : Q) : res (list Q * list Q) :=
  Ok ([m; 0; 1 + m]%Q, [m; 0; 1 + m]%Q).
Example C335_witness : script_program ex_runs ([5; 10; 20]%Q, [8; 16]%Q) [0; 0; 1]%Q [[0]; [3; 9]; [9]]%Q = Ok ([[5; 10]; []; [8; 16]]%Q, [[0; 0; 8]; [5; 0; 8]; [10; 0; 16]]%Q).
Proof. vm_compute. reflexivity. Qed.

(* ------------------------------------------------------------------ *)
(** ** C336 *)

(** The program plans for the network as it is: every answer is one operation without outages, in
    which the branches are those in service in the case and all generators run whatever their status,
    and its cost is 20 per unit of capacity, the generation, and 1000 per unit of load not served. *)
Theorem C336_inputs : forall M prev mu tp s e, well_formed M (script_setup M prev mu) -> (0 < nth 0 (pmax M) 0)%Q ->
  script_feasible M (script_setup M prev mu) tp s -> objective M (script_setup M prev mu) = Ok e ->
  operation M (script_setup M prev mu) s tp 0 0 /\
  (forall b, b < no_branch M -> (in_service M (script_setup M prev mu) b 0 <-> nth b (br_status M) 0%Z <> 0%Z)) /\ (forall g, runs M (script_setup M prev mu) g) /\
  (forall n, n < no_bus M -> (demand_of M (script_setup M prev mu) n == nth n mu 0 * nth n (bus_pd M) 0)%Q) /\
  (eval s e == 20 * total (no_branch M) (fun b => s (ICbra b 0%nat)) + total (no_gen M) (fun g => s (Cgen g 0%nat 0%nat)) + 1000 * total (no_bus M) (fun n => s (Plc n 0%nat 0%nat)))%Q.
Proof.
  intros M prev mu tp s e W P F E. destruct (C334_active_partial M (script_setup M prev mu) tp s W P) as [[G _] Hd]. apply G in F. clear G. destruct F as [_ O]. specialize (O 0 0 (le_n 1) (le_n 1)).
  sp.
  - exact O.
  - intros b Lb. unfold in_service. cbn [script_setup line_status cont nth].
    assert (N : nth b (repeat 1%Z (no_branch M)) 0%Z = 1%Z) by (rewrite (nth_indep _ 0%Z 1%Z) by (now rewrite repeat_length); apply nth_repeat). rewrite N. split; [intros [H _]; now apply H|intros H; split; [auto|discriminate]].
  - intros g H. discriminate.
  - intros n Ln. exact (Hd n Ln).
  - rewrite (objective_is_cost _ _ _ _ E). unfold plan_cost, total. cbn [script_setup cicost penalty cont no_time List.length seq map]. unfold qsum. cbn [fold_right].
    assert (Z : forall (X : Type) (f g : X -> Q) l, (forall x, (f x == g x)%Q) -> (fold_right Qplus 0 (map f l) == fold_right Qplus 0 (map g l))%Q).
    { intros X f g l H. induction l as [|x l IH]; cbn [map fold_right]; [reflexivity|]. now rewrite H, IH. }
    rewrite (Z _ _ (fun b => s (ICbra b 0)) (seq 0 (no_branch M))), (Z _ _ (fun g => s (Cgen g 0 0)) (seq 0 (no_gen M))), (Z _ _ (fun n => s (Plc n 0 0)) (seq 0 (no_bus M))); [reflexivity|intros; ring|intros; ring|intros; ring].
Qed.
Print Assumptions C336_inputs.

Example C336_witness : let M := net 1 2 2 10 [0; 0; 0]%Q 5 4 in let A := script_setup M [0%Q] [1; 1]%Q in
  well_formed M A /\ (0 < nth 0 (pmax M) 0)%Q /\ script_feasible M A two_pi (answer 5 (-5) 3 0) /\ exists e, objective M A = Ok e /\ (eval (answer 5 (-5) 3 0) e == 60)%Q.
Proof.
  cbv zeta. assert (W : well_formed (net 1 2 2 10 [0; 0; 0]%Q 5 4) (script_setup (net 1 2 2 10 [0; 0; 0]%Q 5 4) [0%Q] [1; 1]%Q)).
  { destruct (net_wf 1 2 2 10 0 0 0 5 4 1 0 (or_introl eq_refl) (or_intror (or_introl eq_refl))). constructor; auto. }
  sp; [exact W|reflexivity| |eexists; split; [reflexivity|vm_compute; reflexivity]].
  apply C333_same_answers; [exact W| |apply feasibleb_ok; vm_compute; reflexivity]. intros n L. cbn in L. destruct n as [|[|n]]; [reflexivity|reflexivity|lia].
Qed.
