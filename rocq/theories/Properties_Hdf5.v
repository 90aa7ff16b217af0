(** Properties C340-C342: the HDF5 writer of the older engine (Hdf5.v). *)
From Coq Require Import List Bool Arith ZArith QArith String Lia Lqa.
From Verif Require Reports ReportsCost JointExamples.
From Verif Require Import Base GraphData Cases CasesProofs Hdf5.
Import ListNotations.
Open Scope nat_scope.
Open Scope list_scope.

(* ------------------------------------------------------------------ *)
(** ** C340 *)
(** The number of a run, its components, curtailment and spill. *)
Definition pyomo_run (r : nat * (list Q * (Q * Q))) : nat * solved := (fst r, ByPyomo (fst (snd r)) (fst (snd (snd r))) (snd (snd (snd r)))).
Definition total_of {X} (f : X -> Q) (l : list X) : Q := qsum (map f l).

Lemma total_snoc {X} (f : X -> Q) l x : (total_of f (l ++ [x]) == total_of f l + f x)%Q.
Proof. unfold total_of. rewrite map_app. unfold qsum. induction (map f l) as [|y m IH]; cbn [app map fold_right]; [ring|]. rewrite IH. ring. Qed.
Lemma foldM_snoc {X Y} (f : Y -> X -> res Y) l x a : foldM f (l ++ [x]) a = do b <- foldM f l a; f b x.
Proof. revert a. induction l as [|y l IH]; intros a; cbn [app foldM rbind]; [destruct (f a x); reflexivity|]. destruct (f a y); cbn [rbind]; auto. Qed.

Definition added (d : sums) (runs : list (nat * (list Q * (Q * Q)))) : Prop :=
  List.length (su_cost d) = 5 /\ (forall x : nat, x < 5 -> (nth x (su_cost d) 0 == total_of (fun r => nth x (fst (snd r)) 0%Q) runs)%Q) /\
  (su_curtailment d == total_of (fun r => fst (snd (snd r))) runs)%Q /\ (su_spill d == total_of (fun r => snd (snd (snd r))) runs)%Q /\
  (su_of d == total_of (fun x => nth x (su_cost d) 0) (seq 0 5))%Q.

Lemma added_step a b d parts c s runs n : added d runs -> List.length parts = 5 -> added (accumulate (mkFolders a (Some b)) d parts c s) (runs ++ [(n, (parts, (c, s)))]).
Proof.
  intros (L & C & U & P & O) Lp. destruct d as [cost cu sp o]. cbn [su_cost su_curtailment su_spill su_of] in *.
  destruct cost as [|c0 [|c1 [|c2 [|c3 [|c4 [|c5 cost]]]]]]; try discriminate L. destruct parts as [|p0 [|p1 [|p2 [|p3 [|p4 [|p5 parts]]]]]]; try discriminate Lp.
  unfold accumulate, added. cbn [fo_summary su_cost su_curtailment su_spill su_of]. cbn -[Qplus Qeq total_of]. split; [reflexivity|]. unfold asked. cbn -[Qplus Qeq total_of].
  split; [|split; [|split]].
  - intros x Lx. rewrite total_snoc. cbn [fst snd]. specialize (C x Lx). destruct x as [|[|[|[|[|x]]]]]; try lia; cbn [nth] in *; rewrite <- C; unfold qsum; cbn [fold_right map]; ring.
  - rewrite total_snoc, U. reflexivity.
  - rewrite total_snoc, P. reflexivity.
  - unfold total_of in *. cbn [map seq nth] in *. unfold qsum in *. cbn [fold_right] in *. rewrite O. ring.
Qed.

(** With both folders and runs by pyomo with different numbers, the summary has the sums over all runs of each of the five
    components, of curtailment and of spill; its objective is the sum of its components. *)
Theorem C340_summary_partial : forall a b runs, NoDup (map fst runs) -> (forall r, In r runs -> List.length (fst (snd r)) = 5) ->
  exists d, study (mkFolders (Some a) (Some b)) (map pyomo_run runs) = Ok (Some d, map fst runs) /\ added d runs.
Proof.
  intros a b runs N L. assert (G : exists d, foldM (save_run (mkFolders (Some a) (Some b))) (map pyomo_run runs) (no_sums, []) = Ok (d, map fst runs) /\ added d runs).
  { induction runs as [|[n [parts [c s]]] runs IH] using rev_ind.
    - exists no_sums. split; [reflexivity|]. split; [reflexivity|]. split; [|repeat split]. intros x Lx. destruct x as [|[|[|[|[|x]]]]]; try lia; reflexivity.
    - rewrite map_app in N. cbn [map fst] in N. apply NoDup_remove in N as [N NI]. rewrite app_nil_r in N, NI. destruct (IH N) as (d & E & A); [intros r I; apply L, in_app_iff; auto|].
      rewrite !map_app. cbn [map]. rewrite foldM_snoc, E. cbn [rbind pyomo_run fst snd save_run new_group fo_runs].
      destruct (existsb (Nat.eqb n) (map fst runs)) eqn:X; [apply existsb_exists in X as (m & Im & Em); apply Nat.eqb_eq in Em; subst m; contradiction|]. cbn [rbind].
      eexists. split; [reflexivity|]. apply added_step; [exact A|]. apply (L (n, (parts, (c, s)))), in_app_iff. right. now left. }
  destruct G as (d & E & A). exists d. split; [|exact A]. unfold study. rewrite E. reflexivity.
Qed.
Print Assumptions C340_summary_partial.

(** Refuted for runs by GLPK: whatever they are, the summary has only zeros. *)
Theorem C340_glpk_refuted : forall a b ns, NoDup ns -> study (mkFolders (Some a) (Some b)) (map (fun n => (n, ByGlpk)) ns) = Ok (Some no_sums, ns).
Proof.
  intros a b ns N. unfold study. assert (G : foldM (save_run (mkFolders (Some a) (Some b))) (map (fun n => (n, ByGlpk)) ns) (no_sums, []) = Ok (no_sums, ns)).
  { induction ns as [|n ns IH] using rev_ind; [reflexivity|]. apply NoDup_remove in N as [N NI]. rewrite app_nil_r in N, NI. rewrite map_app. cbn [map]. rewrite foldM_snoc, IH by exact N. cbn [rbind save_run new_group fo_runs fst snd].
    destruct (existsb (Nat.eqb n) ns) eqn:X; [apply existsb_exists in X as (m & Im & Em); apply Nat.eqb_eq in Em; subst m; contradiction|reflexivity]. }
  rewrite G. reflexivity.
Qed.
Print Assumptions C340_glpk_refuted.
(** Refuted for one folder: with only that of the summary nothing is written, with only that of the runs the summary ends with
    TypeError. *)
Theorem C340_folder_refuted : forall a runs, (exists g, study (mkFolders None (Some a)) runs = Ok (None, g)) /\
  (forall st, foldM (save_run (mkFolders (Some a) None)) runs (no_sums, []) = Ok st -> fst st = no_sums /\ study (mkFolders (Some a) None) runs = Err TypeError).
Proof.
  intros a runs. split.
  - unfold study. assert (G : forall st, exists st', foldM (save_run (mkFolders None (Some a))) runs st = Ok st').
    { induction runs as [|[n r] runs IH]; intros st; cbn [foldM]; [eauto|]. destruct r; cbn [save_run snd fst new_group fo_runs rbind]; apply IH. }
    destruct (G (no_sums, [])) as (st & ->). cbn [rbind save_summary fo_runs]. eauto.
  - intros st E. assert (K : forall runs s st, foldM (save_run (mkFolders (Some a) None)) runs s = Ok st -> fst st = fst s).
    { clear. induction runs as [|[n r] runs IH]; intros s st E; cbn [foldM] in E; [inversion E; reflexivity|]. destruct r; cbn [save_run snd fst accumulate fo_summary] in E; try (destruct (new_group _ _ _); cbn [rbind] in E; [|discriminate]); cbn [rbind] in E; apply IH in E; exact E. }
    split; [now apply K in E|]. unfold study. rewrite E. reflexivity.
Qed.
Print Assumptions C340_folder_refuted.
(** A run whose number was used before ends the study where its results are saved. *)
Theorem C340_again_refuted : forall a b n q r s runs rest, In (n, q) runs -> q <> ByOther -> r <> ByOther -> exists e, foldM (save_run (mkFolders (Some a) b)) (runs ++ (n, r) :: rest) s = Err e.
Proof.
  intros a b n q0 r s runs rest I Q0 R. assert (K : forall runs s st, foldM (save_run (mkFolders (Some a) b)) runs s = Ok st -> (In (n, q0) runs \/ In n (snd s)) -> In n (snd st)).
  { clear - Q0. induction runs as [|[k q] runs IH]; intros s st E H; cbn [foldM] in E; [inversion E; subst; destruct H as [[]|H]; exact H|].
    destruct (save_run _ s (k, q)) as [s'|] eqn:X; cbn [rbind] in E; [|discriminate]. apply (IH s' st E). destruct H as [[H|H]|H]; auto; right.
    - inversion H; subst. destruct q0; [| |congruence]; cbn in X; (destruct (existsb _ _); cbn in X; [discriminate|]); inversion X; subst; cbn; apply in_app_iff; right; now left.
    - destruct q; cbn in X; try (destruct (existsb _ _); cbn in X; [discriminate|]); inversion X; subst; cbn; try apply in_app_iff; auto. }
  destruct (foldM (save_run (mkFolders (Some a) b)) (runs ++ (n, r) :: rest) s) as [st|e] eqn:E; [exfalso|eauto].
  assert (Sp : forall l m s, foldM (save_run (mkFolders (Some a) b)) (l ++ m) s = do t <- foldM (save_run (mkFolders (Some a) b)) l s; foldM (save_run (mkFolders (Some a) b)) m t).
  { clear. induction l as [|x l IH]; intros m s; cbn [app foldM rbind]; [reflexivity|]. destruct (save_run _ s x); cbn [rbind]; auto. }
  rewrite Sp in E. destruct (foldM (save_run (mkFolders (Some a) b)) runs s) as [t|] eqn:T; cbn [rbind foldM] in E; [|discriminate]. pose proof (K _ _ _ T (or_introl I)) as J.
  assert (X : existsb (Nat.eqb n) (snd t) = true) by (apply existsb_exists; exists n; split; [exact J|apply Nat.eqb_refl]).
  destruct r; [| |congruence]; cbn [save_run snd fst new_group fo_runs] in E; rewrite X in E; discriminate.
Qed.
Print Assumptions C340_again_refuted.

(** Models of other classes leave no trace: any study is that of its runs by pyomo and GLPK. *)
Theorem C340_others : forall F runs, study F runs = study F (filter (fun r => match snd r with ByOther => false | _ => true end) runs).
Proof.
  intros F runs. unfold study. f_equal. generalize (no_sums, @nil nat). induction runs as [|[n r] runs IH]; intros s; [reflexivity|].
  destruct r; cbn [filter snd foldM]; [destruct (save_run F s _); cbn [rbind]; auto..|]. cbn [save_run snd rbind]. apply IH.
Qed.
Print Assumptions C340_others.

Example C340_witness : match study (mkFolders (Some "out"%string) (Some "sum"%string)) (map pyomo_run [(0, ([1; 2; 3; -1; 5]%Q, (6, 7)%Q)); (1, ([10; 0; 0; 0; 1]%Q, (1, 2)%Q))]) with
  | Ok (Some d, g) => map Qred (su_cost d) = [11; 2; 3; -1; 6]%Q /\ Qred (su_of d) = 21%Q /\ Qred (su_curtailment d) = 7%Q /\ g = [0; 1]
  | _ => False
  end.
Proof. vm_compute. repeat split. Qed.

Example C340_others_witness : study (mkFolders (Some "out"%string) (Some "sum"%string)) [(3, ByOther); (3, ByGlpk); (3, ByOther)] = Ok (Some no_sums, [3]).
Proof. reflexivity. Qed.

(* ------------------------------------------------------------------ *)
(** ** C341 *)
Lemma row_gen scale flat : forall nt k acc xp, xp + nt <= List.length flat ->
  foldM (fun st (_ : nat) => do v <- at_ flat (snd st); Ok (fst st ++ [(v * scale)%Q], S (snd st))) (seq k nt) (acc, xp) = Ok (acc ++ map (fun t => (nth (xp + t) flat 0 * scale)%Q) (seq 0 nt), xp + nt).
Proof.
  induction nt as [|nt IH]; intros k acc xp L; cbn [seq foldM map]; [now rewrite app_nil_r, Nat.add_0_r|]. destruct (at_total flat xp) as (v & E & N); [lia|]. cbn [snd fst]. rewrite E. cbn [rbind]. rewrite IH by lia.
  rewrite <- app_assoc. cbn [app]. rewrite Nat.add_0_r, (nth_error_nth _ _ _ N). do 2 f_equal; [|lia]. do 2 f_equal. rewrite <- (seq_shift nt 0), map_map. apply map_ext. intros t. do 2 f_equal. lia.
Qed.
Lemma row_short scale flat : forall nt k acc xp, xp <= List.length flat -> List.length flat < xp + nt ->
  foldM (fun st (_ : nat) => do v <- at_ flat (snd st); Ok (fst st ++ [(v * scale)%Q], S (snd st))) (seq k nt) (acc, xp) = Err IndexError.
Proof.
  induction nt as [|nt IH]; intros k acc xp L L'; [lia|]. cbn [seq foldM snd fst]. destruct (Nat.eq_dec xp (List.length flat)) as [->|N].
  - unfold at_. destruct (nth_error flat (List.length flat)) eqn:X; [|reflexivity]. assert (List.length flat < List.length flat) by (apply nth_error_Some; congruence). lia.
  - destruct (at_total flat xp) as (v & E & _); [lia|]. rewrite E. cbn [rbind]. apply IH; lia.
Qed.
(** The saved table has a row per scenario and a column per time step; the entry of scenario [s] at time [t] is the entry
    [s * nt + t] of the profile, scaled.  Profiles that are too short are IndexError; what is too long is ignored. *)
Theorem C341_profiles : forall scale flat ns nt,
  (ns * nt <= List.length flat -> exists tab, profile_table scale flat ns nt = Ok tab /\ List.length tab = ns /\
     forall s, s < ns -> List.length (nth s tab []) = nt /\ forall t, t < nt -> nth t (nth s tab []) 0%Q = (nth (s * nt + t) flat 0 * scale)%Q) /\
  (List.length flat < ns * nt -> profile_table scale flat ns nt = Err IndexError).
Proof.
  intros scale flat ns nt. set (row := fun s => map (fun t => (nth (s * nt + t) flat 0 * scale)%Q) (seq 0 nt)). set (f := fun (st : list (list Q) * nat) (_ : nat) => do r <- profile_row scale flat nt (snd st); Ok (fst st ++ [fst r], snd r)).
  assert (G : forall m, m * nt <= List.length flat -> foldM f (seq 0 m) ([], 0) = Ok (map row (seq 0 m), m * nt)).
  { induction m as [|m IH]; intros L; [reflexivity|]. rewrite seq_S, foldM_snoc, IH by (cbn in L; lia). cbn [rbind Nat.add]. unfold f. cbn [snd fst]. unfold profile_row. rewrite row_gen by (cbn in L; lia). cbn [rbind fst snd app].
    rewrite map_app. cbn [map]. do 2 f_equal. cbn. lia. }
  unfold profile_table. fold f. split.
  - intros L. rewrite (G ns L). cbn [rbind fst]. exists (map row (seq 0 ns)). split; [reflexivity|]. split; [now rewrite map_length, seq_length|]. intros s Ls.
    assert (E : nth s (map row (seq 0 ns)) [] = row s). { rewrite (nth_indep _ [] (row 0)) by (now rewrite map_length, seq_length). rewrite map_nth, seq_nth by exact Ls. reflexivity. }
    rewrite E. unfold row. split; [now rewrite map_length, seq_length|]. intros t Lt. set (h := fun t => (nth (s * nt + t) flat 0 * scale)%Q). rewrite (nth_indep _ 0%Q (h 0)) by (now rewrite map_length, seq_length). rewrite map_nth, seq_nth by exact Lt. reflexivity.
  - intros L. assert (K : exists m, m < ns /\ m * nt <= List.length flat /\ List.length flat < S m * nt).
    { clear - L. induction ns as [|ns IH]; [cbn in L; lia|]. destruct (le_lt_dec (ns * nt) (List.length flat)) as [H|H]; [exists ns; lia|]. destruct (IH H) as (m & A & B & C). exists m. lia. }
    destruct K as (m & Lm & A & B). replace ns with (m + (1 + (ns - S m))) by lia. rewrite seq_app.
    assert (Sp : forall l l' s, foldM f (l ++ l') s = do t <- foldM f l s; foldM f l' t).
    { clear. induction l as [|x l IH]; intros l' s; cbn [app foldM rbind]; [reflexivity|]. destruct (f s x); cbn [rbind]; auto. }
    rewrite Sp, (G m A). cbn [rbind Nat.add seq foldM]. unfold f at 1. cbn [snd fst]. unfold profile_row. rewrite row_short by (cbn in B; lia). reflexivity.
Qed.
Print Assumptions C341_profiles.

Example C341_witness : profile_table 1 [1; 2; 3; 4; 5; 6; 7]%Q 2 3 = Ok [[1 * 1; 2 * 1; 3 * 1]; [4 * 1; 5 * 1; 6 * 1]]%Q /\ profile_table 100 [1; 2; 3]%Q 2 2 = Err IndexError.
Proof. split; reflexivity. Qed.

(* ------------------------------------------------------------------ *)
(** ** C342 *)
Definition flags_of (l : nat -> bool) : Reports.flags := Reports.mkFlags (l 0) (l 1) (l 2) (l 3) (l 4).
(** The objective of a solved model (get_OFparts, Reports.v) can be split: all components can be asked for together exactly
    where each can be asked for alone, and then any choice of components answers the sum of the chosen ones.  So the
    components that are accumulated are those of the model, and [asked] is get_OFparts. *)
Theorem C342_components : forall J K f s o,
  ((exists r, Reports.of_parts J K f s (flags_of (fun _ => true)) o = Ok r) <-> (forall x, x < 5 -> exists q, Reports.of_parts J K f s (flags_of (Nat.eqb x)) o = Ok q)) /\
  (forall r, Reports.of_parts J K f s (flags_of (fun _ => true)) o = Ok r ->
     exists parts, List.length parts = 5 /\ (r == qsum parts)%Q /\
       (forall x, x < 5 -> exists q, Reports.of_parts J K f s (flags_of (Nat.eqb x)) o = Ok q /\ (q == nth x parts 0)%Q) /\
       (forall l, exists q, Reports.of_parts J K f s (flags_of l) o = Ok q /\ (q == asked (map l (seq 0 5)) parts)%Q)).
Proof.
  intros J K f s o. unfold Reports.of_parts, flags_of. cbn [Reports.f_0 Reports.f_1 Reports.f_2 Reports.f_3 Reports.f_4].
  match goal with |- context [do a <- ?A; do b <- ?B; do c <- ?C; do d <- ?D; do e <- ?E; Ok (a + b + c - d + e)%Q] => generalize A B C D E end.
  intros A B C D E. split; [split|].
  - intros (r & H). destruct A as [a|]; [|discriminate]. destruct B as [b|]; [|discriminate]. destruct C as [c|]; [|discriminate]. destruct D as [d|]; [|discriminate]. destruct E as [e|]; [|discriminate].
    intros x Lx. destruct x as [|[|[|[|[|x]]]]]; try lia; cbn [Nat.eqb rbind]; eauto.
  - intros H. destruct (H 0) as (? & Ha); [lia|]. destruct (H 1) as (? & Hb); [lia|]. destruct (H 2) as (? & Hc); [lia|]. destruct (H 3) as (? & Hd); [lia|]. destruct (H 4) as (? & He); [lia|]. cbn [Nat.eqb rbind] in *.
    destruct A; [|discriminate]. destruct B; [|discriminate]. destruct C; [|discriminate]. destruct D; [|discriminate]. destruct E; [|discriminate]. cbn [rbind]. eauto.
  - intros r H. destruct A as [a|]; [|discriminate]. destruct B as [b|]; [|discriminate]. destruct C as [c|]; [|discriminate]. destruct D as [d|]; [|discriminate]. destruct E as [e|]; [|discriminate]. cbn [rbind] in H. inversion H; subst r.
    exists [a; b; c; (- d)%Q; e]. split; [reflexivity|]. split; [unfold qsum; cbn [fold_right]; ring|]. split.
    + intros x Lx. destruct x as [|[|[|[|[|x]]]]]; try lia; cbn [Nat.eqb rbind nth]; (eexists; split; [reflexivity|ring]).
    + intros l. unfold asked. cbn [map seq combine]. destruct (l 0), (l 1), (l 2), (l 3), (l 4); cbn [rbind filter fst map snd]; (eexists; split; [reflexivity|unfold qsum; cbn [fold_right]; ring]).
Qed.
Print Assumptions C342_components.

Example C342_witness : match Reports.of_parts JointExamples.seasons (JointExamples.model_of JointExamples.seasons) [1 # 2; 1 # 2; 1; 1]%Q JointExamples.seasons_answer (flags_of (fun _ => true)) ReportsCost.everything with
  | Ok r => Qred r = 3%Q | Err _ => False end.
Proof. vm_compute. reflexivity. Qed.
