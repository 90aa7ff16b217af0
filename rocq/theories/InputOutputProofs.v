(** Lemmas about the input and output functions. *)
From Coq Require Import List String Bool Arith ZArith QArith Qabs Lia Permutation Sorted.
From Verif Require Import Base Container ContainerProofs Graph GraphData GraphDataProofs Cases CasesProofs CasesClusters Network Verification VerificationSpec VerificationProofs InputOutput InputOutputSpec.
Import ListNotations.
Open Scope string_scope.
Open Scope nat_scope.
Open Scope list_scope.

Local Ltac sp := repeat match goal with |- _ /\ _ => split end.

(** ** Costs of sizes *)

Lemma qpositions_first a l : forall k, match qpositions_from k a l with
  | [] => Forall (fun x => ~ x == a)%Q l
  | i :: _ => exists j, i = k + j /\ first_such (fun x => x == a)%Q l j
  end.
Proof.
  induction l as [|x l IH]; intros k; cbn [qpositions_from]; [constructor|]. destruct (Qeq_bool x a) eqn:E.
  - apply Qeq_bool_iff in E. exists 0. split; [lia|]. split; [exists x; auto|]. intros j b L. lia.
  - assert (N : ~ (x == a)%Q) by (intros H; apply Qeq_bool_iff in H; congruence). specialize (IH (S k)). destruct (qpositions_from (S k) a l) as [|i r].
    + constructor; auto.
    + destruct IH as (j & -> & (b & Nb & Eb) & Lt). exists (S j). split; [lia|]. split; [exists b; auto|].
      intros [|m] c L; cbn [nth_error]; [intros H; injection H as <-; auto|]. apply Lt. lia.
Qed.

Lemma price_ok cat a c : price cat a = Ok c <-> costs_as cat a c.
Proof.
  unfold price, costs_as. pose proof (qpositions_first a (ct_sizes cat) 0) as H. destruct (qpositions_from 0 a (ct_sizes cat)) as [|i r].
  - cbn. split; [discriminate|]. intros (i & ((x & N & E) & _) & _). rewrite Forall_forall in H. now apply nth_error_In, H in N.
  - destruct H as (j & -> & F). cbn [Nat.add]. unfold at_ at 1. cbn [nth_error rbind]. split.
    + intros E. apply at_nth in E. exists j. auto.
    + intros (i & F' & E). apply at_nth. replace j with i; auto. destruct F as ((x & N & X) & L), F' as ((x' & N' & X') & L'). destruct (Nat.lt_trichotomy i j) as [H|[H|H]]; auto.
      * now apply L in N'.
      * now apply L' in N.
Qed.

Lemma price_known cat a : List.length (ct_costs cat) = List.length (ct_sizes cat) -> (exists x, In x (ct_sizes cat) /\ (x == a)%Q) -> exists c, price cat a = Ok c.
Proof.
  intros L (x & I & E). unfold price. pose proof (qpositions_first a (ct_sizes cat) 0) as H. destruct (qpositions_from 0 a (ct_sizes cat)) as [|i r].
  - rewrite Forall_forall in H. now apply H in I.
  - destruct H as (j & -> & (y & N & _) & _). unfold at_ at 1. cbn [nth_error rbind Nat.add]. destruct (at_total (ct_costs cat) j) as (c & A & _); eauto. rewrite L. apply nth_error_Some. congruence.
Qed.

Lemma price_unknown cat a : (forall x, In x (ct_sizes cat) -> ~ (x == a)%Q) -> price cat a = Err IndexError.
Proof.
  intros N. unfold price. pose proof (qpositions_first a (ct_sizes cat) 0) as H. destruct (qpositions_from 0 a (ct_sizes cat)) as [|i r]; auto.
  destruct H as (j & -> & (y & E & Y) & _). apply nth_error_In, N in E. contradiction.
Qed.

(** ** Tables per year and scenario *)

Lemma at2_entry {A} (t : table2 A) y s : at2 t y s = match entry t y s with Some a => Ok a | None => Err IndexError end.
Proof. unfold at2, entry, at_. destruct (nth_error t y); auto. Qed.

Lemma nth_set_nth {A} (l : list A) i a j : nth_error (set_nth i a l) j = if i =? j then (match nth_error l j with Some _ => Some a | None => None end) else nth_error l j.
Proof.
  revert i j. induction l as [|x l IH]; intros [|i] [|j]; cbn [set_nth nth_error Nat.eqb]; auto.
  now destruct (i =? j).
Qed.

Lemma entry_set2 {A} (t : table2 A) y s a y' s' : entry (set2 t y s a) y' s' =
  if (y =? y') && (s =? s') then (match entry t y s with Some _ => Some a | None => None end) else entry t y' s'.
Proof.
  unfold set2, entry. destruct (nth_error t y) as [r|] eqn:E.
  - rewrite nth_set_nth. destruct (Nat.eqb_spec y y') as [<-|N]; cbn [andb]; auto. rewrite E, nth_set_nth. destruct (Nat.eqb_spec s s') as [<-|]; auto.
  - destruct (Nat.eqb_spec y y') as [<-|N]; cbn [andb]; auto. rewrite E. now destruct (s =? s').
Qed.

Lemma cleaned_tidied l : tidied l (cleaned l).
Proof.
  unfold tidied, cleaned. induction l as [|x l IH]; cbn [map]; constructor; auto. destruct (Qle_bool (Qabs x) (1 # 10000)) eqn:E.
  - apply Qle_bool_iff in E. split; auto. contradiction.
  - split; auto. intros H. apply Qle_bool_iff in H. congruence.
Qed.

Lemma cleaned_twice l : cleaned (cleaned l) = cleaned l.
Proof. unfold cleaned. rewrite map_map. apply map_ext. intros x. destruct (Qle_bool (Qabs x) (1 # 10000)) eqn:E; auto. now rewrite E. Qed.

(** [pf] is [pf0] with some of the lists cleaned. *)
Definition partly (pf0 pf : table2 (list Q)) : Prop := forall y s,
  match entry pf0 y s with Some l => entry pf y s = Some l \/ entry pf y s = Some (cleaned l) | None => entry pf y s = None end.

Lemma partly_refl pf : partly pf pf.
Proof. intros y s. destruct (entry pf y s); auto. Qed.

Section Report.
Variables (years : nat) (path_sce : table2 nat) (sum_co : Q) (yearly_co : table2 Q) (ci : table2 (list Q)) (sum_ci : Q) (cflex : table2 Q) (pf0 : table2 (list Q)).

(** The report without the changes to the table of flexibility. *)
Definition pure_year (p y : nat) : res year_entry :=
  do path <- at_ path_sce p; do s <- at_ path y;
  do l <- at2 pf0 y s;
  do label <- at_ [2020; 2030; 2040; 2050] y;
  do op <- (if Qeq_bool sum_co 0 then Ok 0%Q else at2 yearly_co y s);
  do br <- at2 ci y s;
  Ok (mkYE label op br (cleaned l)).
Definition pure_path (p : nat) : res scenario_entry :=
  do cs <- mapM (fun y => do path <- at_ path_sce p; do s <- at_ path y; at2 cflex y s) (seq 0 years);
  do ys <- mapM (pure_year p) (seq 0 years);
  Ok (mkSE (sum_ci + qsum cs)%Q sum_ci (qsum cs) (if Qeq_bool sum_co 0 then 0%Q else sum_co) ys).

Lemma year_pure p y pf : partly pf0 pf -> match pure_year p y with
  | Ok e => exists pf', report_year path_sce sum_co yearly_co ci p y pf = Ok (e, pf') /\ partly pf0 pf'
  | Err x => report_year path_sce sum_co yearly_co ci p y pf = Err x end.
Proof.
  intros H. unfold pure_year, report_year. destruct (at_ path_sce p) as [path|]; [cbn [rbind]|reflexivity]. destruct (at_ path y) as [s|]; [cbn [rbind]|reflexivity].
  rewrite !at2_entry. pose proof (H y s) as E. destruct (entry pf0 y s) as [l|] eqn:E0.
  2:{ rewrite E. reflexivity. }
  assert (X : exists l', entry pf y s = Some l' /\ cleaned l' = cleaned l) by (destruct E as [E|E]; rewrite E; eexists; split; [reflexivity|auto|reflexivity|apply cleaned_twice]).
  destruct X as (l' & E' & C). rewrite E'. cbn [rbind]. destruct (at_ [2020; 2030; 2040; 2050] y); [cbn [rbind]|reflexivity].
  destruct (if Qeq_bool sum_co 0 then _ else _); [cbn [rbind]|reflexivity]. destruct (match entry ci y s with Some a => Ok a | None => Err IndexError end); [cbn [rbind]|reflexivity].
  rewrite at2_entry, entry_set2, !Nat.eqb_refl, E'. cbn [andb rbind]. rewrite C. eexists. split; [reflexivity|].
  intros y' s'. rewrite entry_set2. destruct (Nat.eqb_spec y y') as [<-|]; cbn [andb]; [|apply H]. destruct (Nat.eqb_spec s s') as [<-|]; [|apply H].
  rewrite E0, E'. auto.
Qed.

Lemma years_pure p : forall l acc pf, partly pf0 pf -> match mapM (pure_year p) l with
  | Ok es => exists pf', foldM (fun st y => do e <- report_year path_sce sum_co yearly_co ci p y (snd st); Ok (fst st ++ [fst e], snd e)) l (acc, pf) = Ok (acc ++ es, pf') /\ partly pf0 pf'
  | Err x => foldM (fun st y => do e <- report_year path_sce sum_co yearly_co ci p y (snd st); Ok (fst st ++ [fst e], snd e)) l (acc, pf) = Err x end.
Proof.
  induction l as [|y l IH]; intros acc pf H; cbn [mapM foldM].
  - exists pf. now rewrite List.app_nil_r.
  - cbn [snd fst]. pose proof (year_pure p y pf H) as Y. destruct (pure_year p y) as [e|x]; cbn [rbind].
    + destruct Y as (pf' & -> & H'). cbn [rbind fst snd]. specialize (IH (acc ++ [e]) pf' H'). destruct (mapM (pure_year p) l) as [es|x]; cbn [rbind]; auto.
      destruct IH as (pf'' & -> & P). exists pf''. rewrite <- app_assoc. auto.
    + now rewrite Y.
Qed.

Lemma path_pure p pf : partly pf0 pf -> match pure_path p with
  | Ok e => exists pf', report_path years path_sce sum_co yearly_co ci sum_ci cflex p pf = Ok (e, pf') /\ partly pf0 pf'
  | Err x => report_path years path_sce sum_co yearly_co ci sum_ci cflex p pf = Err x end.
Proof.
  intros H. unfold pure_path, report_path. destruct (mapM _ (seq 0 years)) as [cs|]; [cbn [rbind]|reflexivity].
  pose proof (years_pure p (seq 0 years) [] pf H) as Y. destruct (mapM (pure_year p) (seq 0 years)) as [es|x]; cbn [rbind].
  - destruct Y as (pf' & -> & P). cbn [rbind fst snd app]. eauto.
  - now rewrite Y.
Qed.

Definition scenario_name (i : nat) : string := ("Scenario " ++ str_nat (S i))%string.

Lemma app_inj_l a : forall b c, (a ++ b)%string = (a ++ c)%string -> b = c.
Proof. induction a as [|x a IH]; cbn [String.append]; intros b c E; auto. injection E as E. auto. Qed.

Lemma scenario_name_inj i j : scenario_name i = scenario_name j -> i = j.
Proof. unfold scenario_name. intros E. apply app_inj_l, str_nat_inj in E. lia. Qed.

Lemma d_set_new {V} k (v : V) l : ~ In k (map fst l) -> d_set k v l = l ++ [(k, v)].
Proof. induction l as [|(k', v') l IH]; intros N; cbn [d_set app]; auto. destruct (String.eqb_spec k' k); [subst; exfalso; apply N; now left|]. rewrite IH; auto. intros I; apply N; now right. Qed.

(** The scenarios [names] from number [i] on. *)
Definition numbered (i : nat) (es : list scenario_entry) : @items scenario_entry := combine (map scenario_name (seq i (List.length es))) es.

Lemma numbered_snoc i es e : numbered i (es ++ [e]) = numbered i es ++ [(scenario_name (i + List.length es), e)].
Proof.
  unfold numbered. rewrite app_length. cbn [List.length]. replace (List.length es + 1) with (S (List.length es)) by lia. rewrite seq_S, map_app.
  assert (G : forall (a : list string) (b : list scenario_entry) c d, List.length a = List.length b -> combine (a ++ c) (b ++ d) = combine a b ++ combine c d).
  { induction a as [|x a IH]; intros [|y b] c d L; cbn in L |- *; try discriminate; auto. f_equal. apply IH. lia. }
  rewrite G by (now rewrite map_length, seq_length). reflexivity.
Qed.

Lemma report_loop : forall ps es pf, partly pf0 pf -> match mapM pure_path ps with
  | Ok es' => exists pf', foldM (fun st p => let '(i, out, pf) := st in do e <- report_path years path_sce sum_co yearly_co ci sum_ci cflex p pf;
        Ok (S i, d_set ("Scenario " ++ str_nat (S i))%string (fst e) out, snd e)) ps (List.length es, numbered 0 es, pf)
      = Ok (List.length (es ++ es'), numbered 0 (es ++ es'), pf') /\ partly pf0 pf'
  | Err x => foldM (fun st p => let '(i, out, pf) := st in do e <- report_path years path_sce sum_co yearly_co ci sum_ci cflex p pf;
        Ok (S i, d_set ("Scenario " ++ str_nat (S i))%string (fst e) out, snd e)) ps (List.length es, numbered 0 es, pf) = Err x end.
Proof.
  induction ps as [|p ps IH]; intros es pf H; cbn [mapM foldM].
  - rewrite List.app_nil_r. eauto.
  - pose proof (path_pure p pf H) as P. destruct (pure_path p) as [e|x]; cbn [rbind].
    + destruct P as (pf' & -> & H'). cbn [rbind fst snd].
      assert (D : d_set ("Scenario " ++ str_nat (S (List.length es)))%string e (numbered 0 es) = numbered 0 (es ++ [e])).
      { rewrite numbered_snoc. apply d_set_new. unfold numbered. intros I. apply in_map_iff in I as ((k, v) & E & I). cbn [fst] in E. apply in_combine_l, in_map_iff in I as (j & Ej & Ij).
        apply in_seq in Ij. subst k. apply scenario_name_inj in Ej. lia. }
      rewrite D. specialize (IH (es ++ [e]) pf' H'). rewrite app_length in IH. cbn [List.length] in IH. replace (List.length es + 1) with (S (List.length es)) in IH by lia.
      destruct (mapM pure_path ps) as [es'|x]; cbn [rbind].
      * destruct IH as (pf'' & -> & P'). exists pf''. rewrite <- app_assoc. auto.
      * exact IH.
    + now rewrite P.
Qed.

Definition paths_of (n : nat) (all : bool) : res (list nat) :=
  if all then Ok (seq 0 n) else match years with O => Ok [0; 0] | _ => do l <- last_path path_sce n; Ok [0; l] end.

Lemma report_pure n all : match (do ps <- paths_of n all; mapM pure_path ps) with
  | Ok es => exists pf', report years path_sce sum_co yearly_co ci sum_ci cflex n all pf0 = Ok (numbered 0 es, pf') /\ partly pf0 pf'
  | Err x => report years path_sce sum_co yearly_co ci sum_ci cflex n all pf0 = Err x end.
Proof.
  unfold report. fold (paths_of n all). destruct (paths_of n all) as [ps|]; [cbn [rbind]|reflexivity].
  pose proof (report_loop ps [] pf0 (partly_refl pf0)) as L. cbn [List.length] in L. change (numbered 0 []) with (@nil (string * scenario_entry)) in L. destruct (mapM pure_path ps) as [es|x]; cbn [rbind].
  - destruct L as (pf' & L & P). exists pf'. split; auto. exact (f_equal (fun x => rbind x (fun r => Ok (snd (fst r), snd r))) L).
  - exact (f_equal (fun x => rbind x (fun r => Ok (snd (fst r), snd r))) L).
Qed.

Lemma mapM_nth {A B} (f : A -> res B) l r : mapM f l = Ok r -> List.length r = List.length l /\ forall i a, nth_error l i = Some a -> exists b, nth_error r i = Some b /\ f a = Ok b.
Proof.
  intros H. apply mapM_Ok in H. induction H as [|a b l r F H IH]; [split; auto; intros [|i] a; discriminate|]. destruct IH as (L & N). split; [cbn; auto|].
  intros [|i] c; cbn [nth_error]; auto. intros E. injection E as <-. eauto.
Qed.

Lemma nth_seq0 n i : i < n -> nth_error (seq 0 n) i = Some i.
Proof. intros H. rewrite (nth_error_nth' _ 0) by (now rewrite seq_length). now rewrite seq_nth. Qed.

Lemma years_labels y l : at_ [2020; 2030; 2040; 2050] y = Ok l -> l = 2020 + 10 * y /\ y < 4.
Proof. rewrite at_nth. destruct y as [|[|[|[|y]]]]; cbn [nth_error]; intros E; try discriminate; try (injection E as <-; lia). destruct y; discriminate. Qed.

Lemma pure_path_describes p e : pure_path p = Ok e -> (0 < years -> exists path, nth_error path_sce p = Some path) /\
  forall path, nth_error path_sce p = Some path -> years <= List.length path /\ describes_path years sum_co yearly_co ci sum_ci cflex pf0 path e.
Proof.
  unfold pure_path. intros E. destruct (mapM _ (seq 0 years)) as [cs|] eqn:E1; [cbn [rbind] in E|discriminate]. destruct (mapM (pure_year p) (seq 0 years)) as [ys|] eqn:E2; [cbn [rbind] in E|discriminate].
  injection E as <-. apply mapM_nth in E1 as (L1 & N1). apply mapM_nth in E2 as (L2 & N2). rewrite seq_length in L1, L2. split.
  - intros Y. destruct (N2 0 0) as (b & _ & B); [now apply nth_seq0|]. unfold pure_year in B. destruct (at_ path_sce p) as [path|] eqn:A; [|discriminate]. apply at_nth in A. eauto.
  - intros path P. apply at_nth in P. split.
    + destruct (Nat.le_gt_cases years (List.length path)) as [|G]; auto. exfalso. destruct (N2 (List.length path) (List.length path)) as (b & _ & B); [now apply nth_seq0|].
      unfold pure_year in B. rewrite P in B. cbn [rbind] in B. unfold at_ at 1 in B. replace (nth_error path (List.length path)) with (@None nat) in B; [discriminate|]. symmetry. apply nth_error_None. lia.
    + unfold describes_path. cbn [sn_branch sn_operation sn_total sn_flex sn_years]. sp; auto.
      * destruct (Qeq_bool sum_co 0) eqn:Z; [apply Qeq_bool_iff in Z; now symmetry|reflexivity].
      * reflexivity.
      * exists cs. sp; auto. intros y s Y N. destruct (N1 y y) as (c & C & D); [now apply nth_seq0|]. rewrite P in D. cbn [rbind] in D. apply at_nth in N. rewrite N in D. cbn [rbind] in D.
        rewrite at2_entry in D. rewrite C. destruct (entry cflex y s); [congruence|discriminate].
      * intros y s Y N. destruct (N2 y y) as (ye & C & D); [now apply nth_seq0|]. exists ye. split; auto. unfold pure_year in D. rewrite P in D. cbn [rbind] in D. apply at_nth in N. rewrite N in D. cbn [rbind] in D.
        rewrite !at2_entry in D. destruct (entry pf0 y s) as [l|]; [cbn [rbind] in D|discriminate]. destruct (at_ _ y) as [lab|] eqn:La in D; [cbn [rbind] in D|discriminate]. apply years_labels in La as [La _].
        destruct (Qeq_bool sum_co 0) eqn:Z; cbn [rbind] in D.
        -- destruct (entry ci y s); [cbn [rbind] in D|discriminate]. injection D as <-. cbn. apply Qeq_bool_iff in Z. sp; auto; [exists l; split; auto; apply cleaned_tidied|contradiction].
        -- assert (NZ : ~ (sum_co == 0)%Q) by (intros H; apply Qeq_bool_iff in H; congruence). destruct (entry yearly_co y s); [cbn [rbind] in D|discriminate]. destruct (entry ci y s); [cbn [rbind] in D|discriminate]. injection D as <-. cbn.
           sp; auto; [exists l; split; auto; apply cleaned_tidied|contradiction].
Qed.

Lemma pure_path_known p path : years <= 4 -> nth_error path_sce p = Some path -> known_path years sum_co yearly_co ci cflex pf0 path -> exists e, pure_path p = Ok e.
Proof.
  intros Y P K. apply at_nth in P. unfold pure_path. destruct (mapM_total (fun y => do path <- at_ path_sce p; do s <- at_ path y; at2 cflex y s) (seq 0 years)) as (cs & ->).
  - intros y I. apply in_seq in I. destruct (K y) as (s & c & i & f & N & C & _); [lia|]. rewrite P. cbn [rbind]. apply at_nth in N. rewrite N. cbn [rbind]. rewrite at2_entry, C. eauto.
  - cbn [rbind]. destruct (mapM_total (pure_year p) (seq 0 years)) as (ys & ->); [|cbn [rbind]; eauto].
    intros y I. apply in_seq in I. destruct (K y) as (s & c & i & f & N & _ & C & F & O); [lia|]. unfold pure_year. rewrite P. cbn [rbind]. apply at_nth in N. rewrite N. cbn [rbind]. rewrite !at2_entry, C, F. cbn [rbind].
    destruct (at_total [2020; 2030; 2040; 2050] y) as (lab & -> & _); [cbn; lia|]. cbn [rbind]. destruct (Qeq_bool sum_co 0) eqn:Z; cbn [rbind]; eauto.
    destruct O as (o & ->); [intros H; apply Qeq_bool_iff in H; congruence|]. cbn [rbind]. eauto.
Qed.

Lemma pure_path_late p : 4 < years -> exists x, pure_path p = Err x.
Proof.
  intros Y. unfold pure_path. destruct (mapM _ (seq 0 years)) as [cs|x]; [cbn [rbind]|exists x; reflexivity]. destruct (mapM (pure_year p) (seq 0 years)) as [ys|x] eqn:E; [|exists x; reflexivity]. exfalso.
  apply mapM_nth in E as (_ & N). destruct (N 4 4) as (b & _ & B); [apply nth_seq0; lia|]. unfold pure_year in B. destruct (at_ path_sce p) as [l|]; [cbn [rbind] in B|discriminate]. destruct (at_ l 4) as [k|]; [cbn [rbind] in B|discriminate].
  destruct (at2 pf0 4 k); discriminate B.
Qed.
End Report.

Lemma numbered_nth i es k e : nth_error es k = Some e -> nth_error (numbered i es) k = Some (scenario_name (i + k), e).
Proof.
  unfold numbered. revert i k. induction es as [|a es IH]; intros i [|k]; cbn [List.length seq map combine nth_error]; try discriminate.
  - intros E. injection E as <-. now rewrite Nat.add_0_r.
  - intros E. rewrite (IH (S i) k E). now replace (S i + k) with (i + S k) by lia.
Qed.
Lemma numbered_names i es : map fst (numbered i es) = map scenario_name (seq i (List.length es)).
Proof. unfold numbered. revert i. induction es as [|a es IH]; intros i; cbn [List.length seq map combine fst]; auto. now rewrite IH. Qed.
Lemma numbered_length i es : List.length (numbered i es) = List.length es.
Proof. rewrite <- (map_length fst), numbered_names, map_length. apply seq_length. Qed.

(** ** Time series *)

Lemma zpositions_first (z : Z) (t : sheet) : forall k, match zpositions_from k z (map fst t) with
  | [] => forall r, In r t -> fst r <> z
  | i :: _ => exists j, i = k + j /\ first_such (fun r => fst r = z) t j
  end.
Proof.
  induction t as [|r t IH]; intros k; cbn [map zpositions_from]; [intros r []|]. destruct (Z.eqb_spec (fst r) z) as [E|N].
  - exists 0. split; [lia|]. split; [exists r; auto|]. intros j b L. lia.
  - specialize (IH (S k)). destruct (zpositions_from (S k) z (map fst t)) as [|i l].
    + intros r' [<-|I]; auto.
    + destruct IH as (j & -> & (b & Nb & Eb) & Lt). exists (S j). split; [lia|]. split; [exists b; auto|].
      intros [|m] c L; cbn [nth_error]; [intros H; injection H as <-; auto|]. apply Lt. lia.
Qed.

Lemma first_such_unique {A} (P : A -> Prop) l i j : first_such P l i -> first_such P l j -> i = j.
Proof.
  intros ((x & N & X) & L) ((x' & N' & X') & L'). destruct (Nat.lt_trichotomy i j) as [H|[H|H]]; auto.
  - now apply L' in N.
  - now apply L in N'.
Qed.

Lemma zpositions_found (z : Z) (t : sheet) i : first_such (fun r => fst r = z) t i -> exists r, zpositions_from 0 z (map fst t) = i :: r.
Proof.
  intros F. pose proof (zpositions_first z t 0) as H. destruct (zpositions_from 0 z (map fst t)) as [|j l].
  - destruct F as ((r & N & E) & _). apply nth_error_In, H in N. contradiction.
  - destruct H as (k & -> & F'). rewrite (first_such_unique _ _ _ _ F F'). eauto.
Qed.

Lemma zpositions_none (z : Z) (t : sheet) : (forall r, In r t -> fst r <> z) -> zpositions_from 0 z (map fst t) = [].
Proof.
  intros N. pose proof (zpositions_first z t 0) as H. destruct (zpositions_from 0 z (map fst t)) as [|j l]; auto.
  destruct H as (k & -> & (r & E & Er) & _). apply nth_error_In, N in E. contradiction.
Qed.

(** The data of one bus. *)
Record one_bus := mkOB { o_pd : list Q; o_qd : list Q; o_up : list Q; o_dn : list Q; o_pp : Q; o_pq : Q; o_pu : Q; o_pdn : Q }.
Definition bus_data (bus_i : list Z) (pd qd up dn : sheet) (hour ib : nat) : res one_bus :=
  do b <- at_ bus_i ib;
  match zpositions_from 0 b (map fst pd) with
  | i :: _ => do p <- row_of pd i; do q <- row_of qd i; do pp <- at_ p hour; do pq <- at_ p hour;
              do u <- row_of up i; do d <- row_of dn i; do pu <- at_ u hour; do pdn <- at_ d hour; Ok (mkOB p q u d pp pq pu pdn)
  | [] => Ok (mkOB day day day day 0 0 0 0)
  end.
Definition h_of (l : list one_bus) : hourly :=
  mkHourly (map o_pd l) (map o_qd l) (map o_up l) (map o_dn l) (map o_pp l) (map o_pq l) (map o_pu l) (map o_pdn l).

Lemma at2_snoc {A B} (f : B -> list A) l x hour : at2 (map f l ++ [x]) (List.length l) hour = at_ x hour.
Proof. unfold at2, at_ at 1. rewrite nth_error_app2 by (now rewrite map_length). rewrite map_length, Nat.sub_diag. reflexivity. Qed.

Lemma hourly_step bus_i pd qd up dn hour l : hourly_bus bus_i pd qd up dn hour (h_of l) (List.length l) =
  do o <- bus_data bus_i pd qd up dn hour (List.length l); Ok (h_of (l ++ [o])).
Proof.
  unfold hourly_bus, bus_data. destruct (at_ bus_i (List.length l)) as [b|]; [cbn [rbind]|reflexivity]. destruct (zpositions_from 0 b (map fst pd)) as [|i r].
  - cbn [rbind]. unfold h_of. now rewrite !map_app.
  - destruct (row_of pd i) as [p|]; [cbn [rbind]|reflexivity]. destruct (row_of qd i) as [q|]; [cbn [rbind]|reflexivity]. cbn [h_of h_pd h_qd h_up h_dn h_peak_pd h_peak_qd h_peak_up h_peak_dn]. rewrite !at2_snoc.
    destruct (at_ p hour) as [pp|]; [cbn [rbind]|reflexivity]. destruct (row_of up i) as [u|]; [cbn [rbind]|reflexivity]. destruct (row_of dn i) as [d|]; [cbn [rbind]|reflexivity]. rewrite !at2_snoc.
    destruct (at_ u hour) as [pu|]; [cbn [rbind]|reflexivity]. destruct (at_ d hour) as [pdn|]; [cbn [rbind]|reflexivity]. unfold h_of. now rewrite !map_app.
Qed.

Lemma time_series_buses n bus_i pd qd up dn hour : time_series n bus_i pd qd up dn hour = do l <- mapM (bus_data bus_i pd qd up dn hour) (seq 0 n); Ok (h_of l).
Proof.
  unfold time_series. change (mkHourly [] [] [] [] [] [] [] []) with (h_of []).
  assert (G : forall m l, foldM (hourly_bus bus_i pd qd up dn hour) (seq (List.length l) m) (h_of l) = do l' <- mapM (bus_data bus_i pd qd up dn hour) (seq (List.length l) m); Ok (h_of (l ++ l'))).
  { induction m as [|m IH]; intros l; cbn [seq foldM mapM]; [cbn [rbind]; now rewrite List.app_nil_r|]. rewrite hourly_step. destruct (bus_data _ _ _ _ _ _ _) as [o|]; [cbn [rbind]|reflexivity].
    specialize (IH (l ++ [o])). rewrite app_length in IH. cbn [List.length] in IH. replace (List.length l + 1) with (S (List.length l)) in IH by lia. rewrite IH.
    destruct (mapM _ _) as [l'|]; cbn [rbind]; auto. now rewrite <- app_assoc. }
  apply (G n []).
Qed.

Definition peak_of (bus_i : list Z) (pd : sheet) (hour ib : nat) : res (list Q * Q) :=
  do b <- at_ bus_i ib;
  match zpositions_from 0 b (map fst pd) with i :: _ => do p <- row_of pd i; do pp <- at_ p hour; Ok (p, pp) | [] => Ok (day, 0%Q) end.

Lemma peak_data_buses n bus_i pd hour : peak_data n bus_i pd hour = do l <- mapM (peak_of bus_i pd hour) (seq 0 n); Ok (map snd l).
Proof.
  unfold peak_data.
  assert (G : forall m (l : list (list Q * Q)), foldM (fun st ib =>
      do b <- at_ bus_i ib;
      match zpositions_from 0 b (map fst pd) with
      | i :: _ => do p <- row_of pd i; let ps := fst st ++ [p] in do pp <- at2 ps ib hour; Ok (ps, snd st ++ [pp])
      | [] => Ok (fst st ++ [day], snd st ++ [0%Q])
      end) (seq (List.length l) m) (map fst l, map snd l) = do l' <- mapM (peak_of bus_i pd hour) (seq (List.length l) m); Ok (map fst (l ++ l'), map snd (l ++ l'))).
  { induction m as [|m IH]; intros l; cbn [seq foldM mapM]; [cbn [rbind]; now rewrite List.app_nil_r|].
    match goal with |- rbind ?x _ = _ => replace x with (do o <- peak_of bus_i pd hour (List.length l); Ok (map fst (l ++ [o]), map snd (l ++ [o]))) end.
    - destruct (peak_of bus_i pd hour (List.length l)) as [o|]; [cbn [rbind]|reflexivity]. specialize (IH (l ++ [o])). rewrite app_length in IH. cbn [List.length] in IH. replace (List.length l + 1) with (S (List.length l)) in IH by lia.
      rewrite IH. destruct (mapM _ _) as [l'|]; cbn [rbind]; auto. now rewrite <- app_assoc.
    - unfold peak_of. destruct (at_ bus_i (List.length l)) as [b|]; [cbn [rbind]|reflexivity]. destruct (zpositions_from 0 b (map fst pd)) as [|i r].
      + cbn [rbind fst snd]. now rewrite !map_app.
      + destruct (row_of pd i) as [p|]; [cbn [rbind fst snd]|reflexivity]. rewrite at2_snoc. destruct (at_ p hour); [cbn [rbind]|reflexivity]. now rewrite !map_app. }
  etransitivity; [exact (f_equal (fun x => rbind x (fun r => Ok (snd r))) (G n []))|]. cbn [List.length]. destruct (mapM _ _); reflexivity.
Qed.

Lemma bus_peak bus_i pd qd up dn hour ib o : bus_data bus_i pd qd up dn hour ib = Ok o -> peak_of bus_i pd hour ib = Ok (o_pd o, o_pp o).
Proof.
  unfold bus_data, peak_of. destruct (at_ bus_i ib) as [b|]; [cbn [rbind]|discriminate]. destruct (zpositions_from 0 b (map fst pd)) as [|i r]; [intros E; injection E as <-; reflexivity|].
  destruct (row_of pd i) as [p|]; [cbn [rbind]|discriminate]. destruct (row_of qd i) as [q|]; [cbn [rbind]|discriminate]. destruct (at_ p hour) as [pp|]; [cbn [rbind]|discriminate].
  destruct (row_of up i) as [u|]; [cbn [rbind]|discriminate]. destruct (row_of dn i) as [d|]; [cbn [rbind]|discriminate]. destruct (at_ u hour) as [pu|]; [cbn [rbind]|discriminate]. destruct (at_ d hour) as [pdn|]; [cbn [rbind]|discriminate].
  intros E. injection E as <-. reflexivity.
Qed.

(** ** The script *)

Lemma kiloamp_is c : (kiloamp c == c / 11)%Q.
Proof. unfold kiloamp. change (10 ^ 6)%Q with (1000000 # 1)%Q. change (11 * 10 ^ 3)%Q with (11000 # 1)%Q. change (10 ^ 3)%Q with (1000 # 1)%Q. field. Qed.

Lemma with_cluster_eq a b c : Forall2 Qeq a b -> Forall2 Qeq (with_cluster a c) (with_cluster b c).
Proof. intros F. revert c. induction F as [|x y a b E F IH]; intros [|z c]; cbn [with_cluster]; constructor; auto. now rewrite E. Qed.

Lemma Forall2_Qeq_refl l : Forall2 Qeq l l.
Proof. induction l; constructor; auto. reflexivity. Qed.
Lemma Forall2_Qeq_trans a b c : Forall2 Qeq a b -> Forall2 Qeq b c -> Forall2 Qeq a c.
Proof. intros F. revert c. induction F as [|x y a b E F IH]; intros c G; inversion G; subst; constructor; auto. etransitivity; eauto. Qed.

Lemma upgrade_script_is c : forall caps, List.length c <= List.length caps -> exists l, upgrade_script caps c = (l, true) /\ Forall2 Qeq l (with_cluster caps c).
Proof.
  induction c as [|x c IH]; intros caps L.
  - exists caps. split; [now destruct caps|]. destruct caps; cbn [with_cluster]; apply Forall2_Qeq_refl.
  - destruct caps as [|a caps]; cbn [List.length] in L; [lia|]. destruct (IH caps) as (l & E & F); [lia|]. cbn [upgrade_script with_cluster]. rewrite E. eexists. split; [reflexivity|].
    constructor; auto. now rewrite kiloamp_is.
Qed.

Lemma with_cluster_length a c : List.length (with_cluster a c) = List.length a.
Proof. revert c. induction a as [|x a IH]; intros [|y c]; cbn; auto. Qed.

Lemma fold_with_eq cs : forall a b, Forall2 Qeq a b -> Forall2 Qeq (fold_left with_cluster cs a) (fold_left with_cluster cs b).
Proof. induction cs as [|c cs IH]; intros a b F; cbn [fold_left]; auto. apply IH. now apply with_cluster_eq. Qed.

Lemma search_at_eq opf a b cs found : respects_values opf -> Forall2 Qeq a b -> search_at opf a cs found -> search_at opf b cs found.
Proof.
  intros R F. assert (E : forall j, opf (fold_left with_cluster (firstn (S j) cs) b) = opf (fold_left with_cluster (firstn (S j) cs) a)) by (intros j; symmetry; apply R; now apply fold_with_eq).
  unfold search_at. destruct found as [k|].
  - intros (K & O & N). rewrite E. sp; auto. intros j J. rewrite E. auto.
  - intros N j J. rewrite E. auto.
Qed.

Lemma try_search opf y s cs : forall caps, respects_values (opf y s) -> Forall (fun c => List.length (fst c) <= List.length caps) cs ->
  exists found, search_at (opf y s) caps (map fst cs) found /\ try_clusters opf y s caps cs = match found with Some k => nth_error cs k | None => None end.
Proof.
  induction cs as [|c cs IH]; intros caps R L; cbn [try_clusters map].
  - exists None. split; auto. intros j J. cbn in J. lia.
  - inversion L as [|? ? L1 L2]; subst. destruct (upgrade_script_is (fst c) caps L1) as (caps' & E & F). rewrite E. cbn [andb].
    assert (O : opf y s (with_cluster caps (fst c)) = opf y s caps') by (symmetry; now apply R). destruct (opf y s caps') eqn:V.
    + exists (Some 0). split; auto. cbn [search_at List.length firstn fold_left]. sp; auto; lia.
    + destruct (IH caps' R) as (found & S & T).
      { rewrite Forall_forall in *. intros d I. apply L2 in I. rewrite (Forall2_length _ _ _ F), with_cluster_length. auto. }
      apply (search_at_eq _ _ (with_cluster caps (fst c))) in S; auto. exists (option_map Datatypes.S found). split.
      * destruct found as [k|]; cbn [option_map search_at List.length] in *.
        -- destruct S as (K & A & B). sp; [lia|cbn [firstn fold_left]; exact A|]. intros [|j] J; cbn [firstn fold_left]; [rewrite O; auto|]. apply B. lia.
        -- intros [|j] J; cbn [firstn fold_left]; [rewrite O; auto|]. apply S. lia.
      * rewrite T. destruct found; reflexivity.
Qed.

(** Storing the results of a list of places. *)
Definition store_all {A B} (l : list (nat * option (A * B))) (st : list A * list (option B)) : res (list A * list (option B)) :=
  foldM (fun st ic => match snd ic with
    | Some c => do l <- store (fst st) (fst ic) (fst c); do i <- store (snd st) (fst ic) (Some (snd c)); Ok (l, i)
    | None => Ok st end) l st.

Lemma set_nth_length {A} (l : list A) i a : List.length (set_nth i a l) = List.length l.
Proof. revert i. induction l as [|x l IH]; intros [|i]; cbn; auto. Qed.

Lemma store_all_ok {A B} (l : list (nat * option (A * B))) : forall a b, NoDup (map fst l) -> List.length a = List.length b -> (forall i c, In (i, Some c) l -> i < List.length a) ->
  exists a' b', store_all l (a, b) = Ok (a', b') /\ List.length a' = List.length a /\ List.length b' = List.length b /\
    (forall i c, In (i, Some c) l -> nth_error a' i = Some (fst c) /\ nth_error b' i = Some (Some (snd c))) /\
    (forall i, (forall c, ~ In (i, Some c) l) -> nth_error a' i = nth_error a i /\ nth_error b' i = nth_error b i).
Proof.
  induction l as [|(i, oc) l IH]; intros a b N L B0; unfold store_all; cbn [foldM].
  - exists a, b. sp; auto. intros i c [].
  - cbn [map fst] in N. inversion N as [|? ? NI N']; subst. cbn [fst snd]. destruct oc as [c|]; cbn [rbind].
    + assert (I : i < List.length a) by (apply (B0 i c); now left). unfold store. rewrite <- L. apply Nat.ltb_lt in I. rewrite I. cbn [rbind]. apply Nat.ltb_lt in I.
      destruct (IH (set_nth i (fst c) a) (set_nth i (Some (snd c)) b)) as (a' & b' & E & La & Lb & K & U); auto.
      { now rewrite !set_nth_length. }
      { intros j d J. rewrite set_nth_length. apply (B0 j d). now right. }
      rewrite !set_nth_length in *. exists a', b'. sp; [exact E|lia|lia| |].
      * intros j d [J|J]; [|auto]. injection J as <- <-. destruct (U i) as (-> & ->). { intros d J. apply NI. apply (in_map fst) in J. exact J. }
        rewrite !nth_set_nth, Nat.eqb_refl. destruct (nth_error a i) eqn:X; [|apply nth_error_None in X; lia]. destruct (nth_error b i) eqn:Z; [|apply nth_error_None in Z; lia]. auto.
      * intros j J. destruct (U j) as (-> & ->). { intros d D. apply (J d). now right. }
        rewrite !nth_set_nth. destruct (Nat.eqb_spec i j) as [<-|]; auto. exfalso. apply (J c). now left.
    + destruct (IH a b) as (a' & b' & E & La & Lb & K & U); auto.
      { intros j d J. apply (B0 j d). now right. }
      exists a', b'. sp; [exact E|auto|auto| |]. { intros j d [J|J]; [discriminate|auto]. } intros j J. apply U. intros c D. apply (J c). now right.
Qed.

Lemma store_all_out {A B} (l : list (nat * option (A * B))) : forall a b, List.length a = List.length b -> (exists i c, In (i, Some c) l /\ List.length a <= i) -> store_all l (a, b) = Err IndexError.
Proof.
  induction l as [|(i, oc) l IH]; intros a b L (j & c & I & G); [destruct I|]. unfold store_all. cbn [foldM fst snd]. destruct oc as [d|]; cbn [rbind].
  - unfold store at 1. destruct (Nat.ltb_spec i (List.length a)) as [H|H]; [cbn [rbind]|reflexivity]. unfold store at 1. rewrite <- L. apply Nat.ltb_lt in H. rewrite H. cbn [rbind]. apply Nat.ltb_lt in H.
    apply IH; [now rewrite !set_nth_length|]. exists j, c. rewrite set_nth_length. split; auto. destruct I as [I|I]; auto. injection I as <- <-. lia.
  - apply IH; auto. exists j, c. split; auto. destruct I as [I|I]; auto. discriminate.
Qed.

Lemma pow2_pos n : 0 < 2 ^ n.
Proof. induction n; cbn; lia. Qed.

Lemma place_inj y s y' s' : s < 2 ^ y -> s' < 2 ^ y' -> 2 ^ y + s = 2 ^ y' + s' -> y = y' /\ s = s'.
Proof.
  intros A B E. assert (Y : y = y').
  { destruct (Nat.lt_trichotomy y y') as [H|[H|H]]; auto; exfalso.
    - assert (2 ^ S y <= 2 ^ y') by (apply Nat.pow_le_mono_r; lia). cbn [Nat.pow] in *. lia.
    - assert (2 ^ S y' <= 2 ^ y) by (apply Nat.pow_le_mono_r; lia). cbn [Nat.pow] in *. lia. }
  subst. split; auto. lia.
Qed.

Lemma nodes_total n : fold_left (fun n y => n + 2 ^ y) (seq 0 n) 0 = 2 ^ n - 1.
Proof.
  induction n as [|n IH]; auto. rewrite seq_S, fold_left_app, IH. cbn [fold_left Nat.add Nat.pow]. pose proof (pow2_pos n). lia.
Qed.

Definition tree_list (sizes : list nat) : list (nat * nat) := flat_map (fun yn => map (pair (fst yn)) (seq 0 (snd yn))) (combine (seq 0 (List.length sizes)) sizes).

Lemma in_combine_seq {A} (l : list A) i a : forall k, In (i, a) (combine (seq k (List.length l)) l) <-> k <= i /\ nth_error l (i - k) = Some a.
Proof.
  induction l as [|x l IH]; intros k; cbn [List.length seq combine].
  - split; [intros []|]. intros (_ & E). now destruct (i - k).
  - cbn [In]. rewrite IH. split.
    + intros [E|(L & E)]; [injection E as <- <-; rewrite Nat.sub_diag; auto|]. split; [lia|]. replace (i - k) with (S (i - S k)) by lia. exact E.
    + intros (L & E). destruct (Nat.eq_dec i k) as [->|N]; [rewrite Nat.sub_diag in E; cbn in E; injection E as <-; now left|]. right. split; [lia|]. replace (i - k) with (S (i - S k)) in E by lia. exact E.
Qed.

Lemma in_tree_list sizes y s : In (y, s) (tree_list sizes) <-> exists n, nth_error sizes y = Some n /\ s < n.
Proof.
  unfold tree_list. rewrite in_flat_map. split.
  - intros ((y', n) & I & J). apply in_combine_seq in I as (_ & E). rewrite Nat.sub_0_r in E. cbn [fst snd] in J. apply in_map_iff in J as (s' & F & J). injection F as -> ->. apply in_seq in J. exists n. split; auto. lia.
  - intros (n & E & L). exists (y, n). split; [apply in_combine_seq; rewrite Nat.sub_0_r; split; auto; lia|]. cbn [fst snd]. apply in_map, in_seq. lia.
Qed.

Lemma flat_map_nodup (l : list (nat * nat)) : NoDup (map fst l) -> NoDup (flat_map (fun yn => map (pair (fst yn)) (seq 0 (snd yn))) l).
Proof.
  induction l as [|(y, n) l IH]; cbn [map flat_map fst snd]; intros N; [constructor|]. inversion N as [|? ? NI N']; subst.
  assert (G : forall k m rest, NoDup rest -> (forall s, ~ In (y, s) rest) -> NoDup (map (pair y) (seq k m) ++ rest)).
  { intros k m. revert k. induction m as [|m IHm]; intros k rest R F; cbn [seq map app]; auto. constructor; [|apply IHm; auto].
    intros I. apply in_app_or in I as [I|I]; [|now apply F in I]. apply in_map_iff in I as (j & E & I). injection E as ->. apply in_seq in I. lia. }
  apply G; auto. intros s I. apply NI. apply in_flat_map in I as ((y', n') & I & J). cbn [fst snd] in J. apply in_map_iff in J as (s' & E & _). injection E as -> _. apply (in_map fst) in I. exact I.
Qed.

Lemma combine_fst {A B} (a : list A) (b : list B) : List.length a = List.length b -> map fst (combine a b) = a.
Proof. revert b. induction a as [|x a IH]; intros [|y b] L; cbn in L |- *; try discriminate; auto. f_equal. apply IH. lia. Qed.
Lemma combine_snd {A B} (a : list A) (b : list B) : List.length a = List.length b -> map snd (combine a b) = b.
Proof. revert b. induction a as [|x a IH]; intros [|y b] L; cbn in L |- *; try discriminate; auto. f_equal. apply IH. lia. Qed.

Lemma NoDup_map_in {A B} (f : A -> B) l : (forall a b, In a l -> In b l -> f a = f b -> a = b) -> NoDup l -> NoDup (map f l).
Proof.
  intros I N. induction N as [|x l NI N IH]; cbn [map]; constructor.
  - intros J. apply in_map_iff in J as (y & E & J). apply I in E; [subst; auto|now right|now left].
  - apply IH. intros a b Ia Ib. apply I; now right.
Qed.

Lemma script_spec opf argsort base sizes clusters w :
  sorts argsort -> clusters <> [] -> Forall (fun c => List.length c = w) clusters -> w <= List.length base -> (forall y s, respects_values (opf y s)) ->
  sizes <> [] -> (forall y n, nth_error sizes y = Some n -> n = 2 ^ y) ->
  exists sorted found, Permutation sorted (clusters ++ [repeat 0%Q w]) /\ StronglySorted (fun a b => qsum a <= qsum b)%Q sorted /\
    (forall y s, search_at (opf y s) base sorted (found y s)) /\
    (found (List.length sizes - 1) (2 ^ (List.length sizes - 1) - 1) <> None -> script opf argsort base sizes clusters = Err IndexError) /\
    (found (List.length sizes - 1) (2 ^ (List.length sizes - 1) - 1) = None -> exists lines invest, script opf argsort base sizes clusters = Ok (lines, invest) /\
       List.length lines = 2 ^ List.length sizes - 1 /\ List.length invest = 2 ^ List.length sizes - 1 /\
       nth_error lines 0 = Some (repeat 0%Q w) /\ nth_error invest 0 = Some None /\
       forall y s, y < List.length sizes -> s < 2 ^ y -> match found y s with
         | Some k => exists c, nth_error sorted k = Some c /\ nth_error lines (2 ^ y + s) = Some c /\ nth_error invest (2 ^ y + s) = Some (Some (qsum c * 60000)%Q)
         | None => 2 ^ y + s < 2 ^ List.length sizes - 1 -> nth_error lines (2 ^ y + s) = Some (repeat 0%Q w) /\ nth_error invest (2 ^ y + s) = Some None end).
Proof.
  intros So NE W Wb R NS F. destruct clusters as [|c0 clusters']; [congruence|]. set (clusters := c0 :: clusters') in *. assert (L0 : List.length c0 = w) by (inversion W; auto).
  destruct (sorted_clusters argsort (clusters ++ [repeat 0%Q w]) So) as (sorted & scosts & Es & Ec & P & Hs & St).
  assert (Lp : List.length sorted = List.length scosts) by (subst scosts; now rewrite map_length).
  assert (Fits : Forall (fun c => List.length (fst c) <= List.length base) (combine sorted scosts)).
  { apply Forall_forall. intros (c, q) I. apply in_combine_l in I. apply (Permutation_in _ P) in I. cbn [fst]. apply in_app_or in I as [I|[<-|[]]]; [|now rewrite repeat_length].
    rewrite Forall_forall in W. rewrite (W c I). exact Wb. }
  assert (X : forall y s, {found | search_at (opf y s) base sorted found /\ try_clusters opf y s base (combine sorted scosts) = match found with Some k => nth_error (combine sorted scosts) k | None => None end}).
  { intros y s. (* the search is decidable *)
    set (dec := fun o : option nat => match o with Some k => try_clusters opf y s base (combine sorted scosts) = nth_error (combine sorted scosts) k | None => try_clusters opf y s base (combine sorted scosts) = None end).
    destruct (find (fun j => opf y s (fold_left with_cluster (firstn (S j) sorted) base)) (seq 0 (List.length sorted))) as [k|] eqn:Fk.
    - exists (Some k). destruct (try_search opf y s (combine sorted scosts) base (R y s) Fits) as (found & S & T). rewrite combine_fst in S by auto.
      assert (U : search_at (opf y s) base sorted (Some k)).
      { assert (G : forall n a, find (fun j => opf y s (fold_left with_cluster (firstn (Datatypes.S j) sorted) base)) (seq a n) = Some k ->
           a <= k < a + n /\ opf y s (fold_left with_cluster (firstn (Datatypes.S k) sorted) base) = true /\ forall j, a <= j < k -> opf y s (fold_left with_cluster (firstn (Datatypes.S j) sorted) base) = false).
        { induction n as [|n IHn]; intros a; cbn [seq find]; [discriminate|]. destruct (opf y s (fold_left with_cluster (firstn (Datatypes.S a) sorted) base)) eqn:O.
          - intros E. injection E as <-. sp; auto; lia.
          - intros E. apply IHn in E as (A & B & C). sp; auto; [lia|lia|]. intros j J. destruct (Nat.eq_dec j a) as [->|]; auto. apply C. lia. }
        apply G in Fk as (A & B & C). cbn [search_at]. sp; auto; [lia|]. intros j J. apply C. lia. }
      split; auto. rewrite T. destruct found as [k'|]; cbn [search_at] in S, U.
      + destruct S as (A & B & C), U as (A' & B' & C'). destruct (Nat.lt_trichotomy k k') as [H|[->|H]]; auto; exfalso; [apply C in H|apply C' in H]; congruence.
      + destruct U as (A' & B' & _). rewrite S in B' by auto. discriminate.
    - exists None. destruct (try_search opf y s (combine sorted scosts) base (R y s) Fits) as (found & S & T). rewrite combine_fst in S by auto.
      assert (U : search_at (opf y s) base sorted None).
      { intros j J. apply (find_none _ _ Fk). apply in_seq. lia. }
      split; auto. rewrite T. destruct found as [k'|]; auto. destruct S as (A & B & _). cbn [search_at] in U. rewrite U in B by auto. discriminate. }
  set (found := fun y s => proj1_sig (X y s)).
  assert (Sc : script opf argsort base sizes clusters = store_all (map (fun ys => (2 ^ fst ys + snd ys, match found (fst ys) (snd ys) with Some k => nth_error (combine sorted scosts) k | None => None end)) (tree_list sizes))
        (repeat (repeat 0%Q w) (2 ^ List.length sizes - 1), repeat None (2 ^ List.length sizes - 1))).
    { unfold script. change (at_ clusters 0) with (Ok c0). cbn [rbind]. rewrite L0, Es, Ec. cbn [rbind]. rewrite nodes_total. unfold store_all. fold (tree_list sizes).
      generalize (repeat (repeat 0%Q w) (2 ^ List.length sizes - 1), repeat (@None Q) (2 ^ List.length sizes - 1)). induction (tree_list sizes) as [|(y, s) l IH]; intros st; cbn [map foldM]; auto. cbn [fst snd].
      unfold found at 1. destruct (X y s) as (f & S & T). cbn [proj1_sig]. rewrite T. destruct (match f with Some k => nth_error (combine sorted scosts) k | None => None end) as [c|]; cbn [rbind]; auto.
      destruct (store (fst st) (2 ^ y + s) (fst c)); [cbn [rbind]|reflexivity]. destruct (store (snd st) (2 ^ y + s) (Some (snd c))); [cbn [rbind]|reflexivity]. apply IH. }
  set (L := map _ (tree_list sizes)) in Sc.
  assert (S0 : forall y s, search_at (opf y s) base sorted (found y s)) by (intros y s; unfold found; destruct (X y s) as (f & S & T); exact S).
  assert (Known : forall y s k, found y s = Some k -> exists c, nth_error sorted k = Some c /\ nth_error (combine sorted scosts) k = Some (c, (qsum c * 60000)%Q)).
  { intros y s k E. specialize (S0 y s). rewrite E in S0. destruct S0 as (K & _). destruct (nth_error sorted k) as [c|] eqn:Ek; [|apply nth_error_None in Ek; lia]. exists c. split; auto.
    subst scosts. clear - Ek. revert k Ek. induction sorted as [|x sorted IH]; intros [|k] E; cbn [nth_error map combine] in *; try discriminate; auto. now injection E as ->. }
  assert (InL : forall i oc, In (i, oc) L <-> exists y s, y < List.length sizes /\ s < 2 ^ y /\ i = 2 ^ y + s /\ oc = match found y s with Some k => nth_error (combine sorted scosts) k | None => None end).
  { intros i oc. unfold L. rewrite in_map_iff. split.
    - intros ((y, s) & E & I). cbn [fst snd] in E. injection E as <- <-. apply in_tree_list in I as (n & En & Ln). assert (y < List.length sizes) by (apply nth_error_Some; congruence). apply F in En. subst n. eauto 10.
    - intros (y & s & A & B & -> & ->). exists (y, s). split; auto. apply in_tree_list. destruct (nth_error sizes y) as [n|] eqn:En; [|apply nth_error_None in En; lia]. exists n. split; auto. apply F in En. now subst n. }
  assert (Pos : 0 < List.length sizes) by (destruct sizes; [congruence|cbn; lia]).
  assert (Pw : 2 ^ List.length sizes = 2 * 2 ^ (List.length sizes - 1)) by (replace (List.length sizes) with (S (List.length sizes - 1)) at 1 by lia; reflexivity).
  pose proof (pow2_pos (List.length sizes - 1)) as Pp.
  assert (Range : forall y s, y < List.length sizes -> s < 2 ^ y -> 2 ^ y + s < 2 ^ List.length sizes - 1 \/ (y = List.length sizes - 1 /\ s = 2 ^ (List.length sizes - 1) - 1)).
  { intros y s A B. destruct (Nat.eq_dec y (List.length sizes - 1)) as [->|N]; [lia|]. left. assert (2 ^ S y <= 2 ^ (List.length sizes - 1)) by (apply Nat.pow_le_mono_r; lia). cbn [Nat.pow] in *. lia. }
  assert (Nd : NoDup (map fst L)).
  { unfold L. rewrite map_map. cbn [fst]. apply NoDup_map_in.
    - intros (y, s) (y', s') I I' E. cbn [fst snd] in E. apply in_tree_list in I as (n & En & Ln), I' as (n' & En' & Ln'). apply F in En, En'. subst. apply place_inj in E as (-> & ->); auto.
    - unfold tree_list. apply flat_map_nodup. rewrite combine_fst; [apply seq_NoDup|apply seq_length]. }
  exists sorted, found. sp; auto.
  - intros E. rewrite Sc. apply store_all_out; [now rewrite !repeat_length|]. destruct (found (List.length sizes - 1) (2 ^ (List.length sizes - 1) - 1)) as [k|] eqn:Ek; [|congruence].
    destruct (Known _ _ _ Ek) as (c & _ & Kc). exists (2 ^ (List.length sizes - 1) + (2 ^ (List.length sizes - 1) - 1)), (c, (qsum c * 60000)%Q). rewrite repeat_length. split; [|lia].
    apply InL. exists (List.length sizes - 1), (2 ^ (List.length sizes - 1) - 1). sp; [lia|lia|auto|]. now rewrite Ek, Kc.
  - intros E. destruct (store_all_ok L (repeat (repeat 0%Q w) (2 ^ List.length sizes - 1)) (repeat None (2 ^ List.length sizes - 1))) as (lines & invest & Eo & Ll & Li & K & U); auto.
    + now rewrite !repeat_length.
    + intros i c I. rewrite repeat_length. apply InL in I as (y & s & A & B & -> & D). destruct (Range y s A B) as [|(-> & ->)]; auto. rewrite E in D. discriminate.
    + rewrite !repeat_length in *. exists lines, invest. rewrite Sc.
      assert (Rp : forall {T} (t : T) i, i < 2 ^ List.length sizes - 1 -> nth_error (repeat t (2 ^ List.length sizes - 1)) i = Some t).
      { intros T t i H. rewrite (nth_error_nth' _ t) by (now rewrite repeat_length). now rewrite nth_repeat. }
      assert (Z : 0 < 2 ^ List.length sizes - 1 -> forall c, ~ In (0, Some c) L).
      { intros _ c I. apply InL in I as (y & s & A & B & D & _). pose proof (pow2_pos y). lia. }
      destruct (U 0 (Z ltac:(lia))) as (U1 & U2). sp; auto; try (rewrite ?U1, ?U2; apply Rp; lia).
      intros y s A B. destruct (found y s) as [k|] eqn:Ek.
      * destruct (Known _ _ _ Ek) as (c & Kc & Kd). exists c. destruct (K (2 ^ y + s) (c, (qsum c * 60000)%Q)) as (K1 & K2); auto. apply InL. exists y, s. sp; auto. now rewrite Ek, Kd.
      * intros H. destruct (U (2 ^ y + s)) as (-> & ->); [|split; apply Rp; auto]. intros c I. apply InL in I as (y' & s' & A' & B' & D & D'). apply place_inj in D as (-> & ->); auto. rewrite Ek in D'. discriminate.
Qed.
