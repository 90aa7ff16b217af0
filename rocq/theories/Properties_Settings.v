(** Properties C99-C108: the settings reader. *)
From Coq Require Import List String Ascii Bool Arith ZArith QArith Lia.
From Verif Require Import Base Container ContainerProofs Graph GraphData GraphDataProofs Reader Settings SettingsSpec SettingsProofs.
Import ListNotations.
Open Scope string_scope.
Open Scope nat_scope.
Open Scope list_scope.

Local Ltac sp := repeat match goal with |- _ /\ _ => split end.

(** Sheets and entries for the examples. *)
Definition ex_rows : list srow :=
  [mkSR 3 "P" [JNum 1; JNum 2]; mkSR 3 "Q" [JNum (1 # 2); JNum 0]; mkSR 5 "P" [JNum 4; JNum 8]].
Definition ex_excel (path : string) (name : json) (header : bool) : res jframe := Ok (mkJF [] (map cells ex_rows)).
Definition ex_entry : obj :=
  [("format_data", JStr "attest"); ("data_path", JStr "dir/loads.xlsx"); ("excel_sheet_name", JStr "Sheet1");
   ("element_type", JStr "load"); ("active_columns_names", JList [JStr "pd_2"])].

Lemma ex_attest : attest_entry ex_entry "dir/loads.xlsx" (JStr "Sheet1") /\ NoDup (map fst ex_entry).
Proof. split; [unfold attest_entry; sp; try reflexivity; discriminate|]. repeat constructor; cbn; intuition discriminate. Qed.

Lemma truthy_spec v : truthy v = false <-> is_empty v.
Proof.
  unfold is_empty. split.
  - destruct v as [|[|]|z|q|s|l|d]; cbn [truthy]; intros H; try discriminate; auto.
    + apply negb_false_iff, Z.eqb_eq in H. subst. auto 10.
    + apply negb_false_iff, Qeq_bool_iff in H. right. right. right. left. exists q. auto.
    + apply negb_false_iff, String.eqb_eq in H. subst. auto 10.
    + destruct l; [auto 10|discriminate].
    + destruct d; [auto 10|discriminate].
  - intros [->|[->|[->|[(q & -> & H)|[->|[->| ->]]]]]]; try reflexivity. cbn [truthy]. now apply Qeq_bool_iff in H as ->.
Qed.

Lemma kinds_prefix ty : (exists k, In (ty, k) kinds) <-> prefix_of ty <> None.
Proof.
  unfold prefix_of, kinds. split.
  - intros (k & [E|[E|[]]]); injection E as E _; subst ty; discriminate.
  - destruct (String.eqb_spec ty "P") as [E|]; [intros _; eexists; left; now rewrite E|].
    destruct (String.eqb_spec ty "Q") as [E|]; [intros _; eexists; right; left; now rewrite E|]. intros N. now destruct N.
Qed.

(* ------------------------------------------------------------------ *)
(** ** C99 *)

(** A sheet with active and reactive powers gives one profile per type that occurs, the type of
    the first row first; a profile holds exactly the rows of its type. *)
Theorem C99_attest_profiles : forall excel d path name cols rows W, attest_entry d path name -> NoDup (map fst d) ->
  excel path name false = Ok (mkJF cols (map cells rows)) -> rows <> [] -> Forall (fun r => List.length (sr_vals r) = W) rows ->
  (forall r, In r rows -> exists k, In (sr_type r, k) kinds) ->
  exists tys ps, load_profile excel d = Ok (Some ps) /\ NoDup tys /\ (forall ty, In ty tys <-> exists r, In r rows /\ sr_type r = ty) /\
    hd_error tys = option_map sr_type (hd_error rows) /\
    Forall2 (profile_of (jget "element_type" JNull d) W rows) tys ps.
Proof.
  intros excel d path name cols rows W A ND X N F K.
  destruct (load_attest excel d path name cols rows W A ND X N F) as (tys & ps & E & T1 & T2 & T3 & M).
  { intros r I. apply kinds_prefix. auto. }
  exists tys, ps. sp; auto.
  - intros ty. rewrite T2, in_map_iff. split; intros (r & a & b); eauto.
  - rewrite T3. now destruct rows.
  - assert (P : forall ty, In ty tys -> prefix_of ty <> None).
    { intros ty I. apply T2 in I. apply in_map_iff in I as (r & <- & I). apply kinds_prefix. auto. }
    destruct tys as [|ty tys], ps as [|p ps]; try destruct M as (M1 & M2); try destruct M. constructor.
    + eapply made_profile_of; eauto. apply P. now left.
    + assert (P' : forall ty, In ty tys -> prefix_of ty <> None) by (intros; apply P; now right). clear - M2 F P'.
      induction M2 as [|ty p tys ps M1 M2 IH]; constructor; auto.
      * eapply made_profile_of; eauto. apply P'. now left.
      * apply IH. intros. apply P'. now right.
Qed.
Print Assumptions C99_attest_profiles.

(** A column name determines the type and the number of the component. *)
Theorem C99_columns_identify_components : forall el W rows ty ty' p p' t t' k k' r r',
  profile_of el W rows ty p -> profile_of el W rows ty' p' -> pd_data p = Some t -> pd_data p' = Some t' ->
  nth_error (of_type ty rows) k = Some r -> nth_error (of_type ty' rows) k' = Some r' ->
  nth_error (jf_cols t) k = nth_error (jf_cols t') k' -> ty = ty' /\ sr_id r = sr_id r'.
Proof.
  intros el W rows ty ty' p p' t t' k k' r r' (v & pre & s & K & _ & _ & _ & D & C & _) (v' & pre' & s' & K' & _ & _ & _ & D' & C' & _) E E' N N' H.
  assert (s = t) as -> by congruence. assert (s' = t') as -> by congruence. rewrite C, C', !nth_error_map, N, N' in H. cbn [option_map] in H. injection H as H.
  assert (KK : forall ty v pre, In (ty, (v, pre)) kinds -> (ty = "P" /\ pre = "pd_") \/ (ty = "Q" /\ pre = "qd_")).
  { intros a b c [X|[X|[]]]; injection X as <- <- <-; auto. }
  destruct (KK _ _ _ K) as [(-> & ->)|(-> & ->)], (KK _ _ _ K') as [(-> & ->)|(-> & ->)]; cbn in H; try discriminate H; injection H as H; apply str_Z_inj in H; split; auto; lia.
Qed.
Print Assumptions C99_columns_identify_components.

Example C99_witness : attest_entry ex_entry "dir/loads.xlsx" (JStr "Sheet1") /\ Forall (fun r => List.length (sr_vals r) = 2) ex_rows /\
  match load_profile ex_excel ex_entry with
  | Ok (Some [p; q]) => pd_indexes p = JList [JInt 2; JInt 4] /\ pd_indexes q = JList [JInt 2] /\
      pd_data p = Some (mkJF [JStr "pd_2"; JStr "pd_4"] [[JNum 1; JNum 4]; [JNum 2; JNum 8]])
  | _ => False
  end.
Proof. sp; [apply ex_attest|repeat constructor|]. vm_compute. auto. Qed.

(* ------------------------------------------------------------------ *)
(** ** C100 *)

(** The active columns chosen in the settings go to the first profile of the sheet only; every
    later profile gets all of its columns (missing for a full proof of C100: false for two
    types, see below). *)
Theorem C100_first_profile_only_partial : forall excel d path name cols rows W act, attest_entry d path name -> NoDup (map fst d) ->
  excel path name false = Ok (mkJF cols (map cells rows)) -> rows <> [] -> Forall (fun r => List.length (sr_vals r) = W) rows ->
  (forall r, In r rows -> exists k, In (sr_type r, k) kinds) -> d_get "active_columns_names" d = Some act -> act <> JNull ->
  exists p ps, load_profile excel d = Ok (Some (p :: ps)) /\ pd_active p = act /\
    Forall (fun q => exists t, pd_data q = Some t /\ pd_active q = JList (jf_cols t)) ps.
Proof.
  intros excel d path name cols rows W act A ND X N F K E NA.
  destruct (load_attest excel d path name cols rows W A ND X N F) as (tys & ps & L & T1 & T2 & T3 & M).
  { intros r I. apply kinds_prefix. auto. }
  destruct tys as [|ty tys], ps as [|p ps]; try destruct M as (M1 & M2); try destruct M. exists p, ps. sp; auto.
  - rewrite M1. cbn [pd_active]. unfold chosen. rewrite (present_some _ _ _ E NA). unfold jget. now rewrite E.
  - clear - M2. induction M2 as [|ty p tys ps M1 M2 IH]; constructor; auto. rewrite M1. cbn. eauto.
Qed.
Print Assumptions C100_first_profile_only_partial.

Theorem C100_refuted : exists excel d act p q t, d_get "active_columns_names" d = Some act /\ load_profile excel d = Ok (Some [p; q]) /\
  pd_active p = act /\ pd_active q <> act /\ pd_data q = Some t /\ pd_active q = JList (jf_cols t).
Proof. exists ex_excel, ex_entry. do 4 eexists. sp; try (vm_compute; reflexivity). vm_compute. discriminate. Qed.
Print Assumptions C100_refuted.

Example C100_witness : d_get "active_columns_names" ex_entry = Some (JList [JStr "pd_2"]).
Proof. reflexivity. Qed.

(* ------------------------------------------------------------------ *)
(** ** C101 *)

(** A sheet with a row of another type than "P" and "Q" is rejected, wherever the row is. *)
Theorem C101_unknown_types_rejected : forall excel d path name cols rows, attest_entry d path name -> NoDup (map fst d) ->
  excel path name false = Ok (mkJF cols (map cells rows)) ->
  (forall r r', In r rows -> In r' rows -> List.length (sr_vals r) = List.length (sr_vals r')) ->
  (exists r, In r rows /\ sr_type r <> "P" /\ sr_type r <> "Q") -> load_profile excel d = Err ValueError.
Proof.
  intros excel d path name cols rows A ND X F (r & I & N1 & N2). eapply load_attest_unknown; eauto. exists r. split; auto. unfold prefix_of.
  destruct (String.eqb_spec (sr_type r) "P"); [contradiction|]. destruct (String.eqb_spec (sr_type r) "Q"); [contradiction|auto].
Qed.
Print Assumptions C101_unknown_types_rejected.

Example C101_witness : load_profile (fun _ _ _ => Ok (mkJF [] (map cells (ex_rows ++ [mkSR 1 "S" [JNum 1; JNum 1]])))) ex_entry = Err ValueError.
Proof. reflexivity. Qed.

(* ------------------------------------------------------------------ *)
(** ** C102 *)

(** A table given in the settings whose rows have one value per column is kept exactly, with the
    element type, the variable and the columns asked for; one with a longer row, or with only
    shorter rows, is rejected (missing for a full proof of C102: tables with rows of
    different lengths, which are filled up, see below). *)
Theorem C102_original_profiles_partial : forall excel d rows cols el var, d_get "format_data" d = Some (JStr "original") ->
  d_get "data" d = Some (JList (map JList rows)) -> d_get "dataframe_columns_names" d = Some (JList cols) ->
  d_get "element_type" d = Some el -> d_get "variable_name" d = Some var -> rows <> [] ->
  (Forall (fun r => List.length r = List.length cols) rows -> exists p, load_profile excel d = Ok (Some [p]) /\
     pd_data p = Some (mkJF cols rows) /\ pd_element p = el /\ pd_variable p = var /\
     (forall ixs, d_get "indexes" d = Some ixs -> pd_indexes p = ixs) /\ (d_get "indexes" d = None -> pd_indexes p = JList []) /\
     (forall act, d_get "active_columns_names" d = Some act -> act <> JNull -> pd_active p = act) /\
     (forall v, d_get "active_columns_names" d = None -> d_get "all_active_columns_names" d = Some v ->
        (~ is_empty v -> pd_active p = JList cols) /\ (is_empty v -> pd_active p = JNull))) /\
  ((exists r, In r rows /\ List.length cols < List.length r) \/ (forall r, In r rows -> List.length r < List.length cols) ->
     load_profile excel d = Err ValueError).
Proof.
  intros excel d rows cols el var E1 E2 E3 E4 E5 N.
  rewrite (original_given excel d (JList (map JList rows)) (JList cols) el var E1 E2) by (auto; discriminate). split.
  - intros F. rewrite (create_frame_rect cols rows N F). cbn [rbind]. eexists. split; [reflexivity|]. cbn [pd_data pd_element pd_variable pd_indexes pd_active jf_cols]. sp; auto.
    + intros ixs E. unfold jget. now rewrite E.
    + intros E. unfold jget. now rewrite E.
    + intros act E NA. rewrite (present_some _ _ _ E NA). unfold jget. now rewrite E.
    + intros v E E'. unfold present, jget. rewrite E, E'. rewrite <- truthy_spec. destruct (truthy v); split; congruence.
  - intros H. rewrite (create_frame_width cols rows N); [reflexivity|]. destruct H as [H|H].
    + apply max_bound in H. lia.
    + apply max_small in H; auto. lia.
Qed.
Print Assumptions C102_original_profiles_partial.

(** A short row is filled with missing values as soon as another row is complete. *)
Theorem C102_refuted : exists excel d rows cols p, d_get "data" d = Some (JList (map JList rows)) /\ d_get "dataframe_columns_names" d = Some (JList cols) /\
  (exists r, In r rows /\ List.length r < List.length cols) /\ load_profile excel d = Ok (Some [p]) /\
  exists t, pd_data p = Some t /\ jf_rows t <> rows.
Proof.
  exists ex_excel, [("format_data", JStr "original"); ("data", JList [JList [JNum 1; JNum 2]; JList [JNum 3]]);
    ("dataframe_columns_names", JList [JStr "a"; JStr "b"]); ("element_type", JStr "load"); ("variable_name", JStr "p_mw")], [[JNum 1; JNum 2]; [JNum 3]], [JStr "a"; JStr "b"].
  eexists. sp; try reflexivity.
  - exists [JNum 3]. split; [right; now left|cbn; lia].
  - eexists. split; [reflexivity|discriminate].
Qed.
Print Assumptions C102_refuted.

Example C102_witness : match load_profile ex_excel [("format_data", JStr "original"); ("data", JList [JList [JNum 1; JNum 2]; JList [JNum 3; JNum 4]]);
    ("dataframe_columns_names", JList [JStr "a"; JStr "b"]); ("element_type", JStr "load"); ("variable_name", JStr "p_mw");
    ("all_active_columns_names", JBool true)] with
  | Ok (Some [p]) => pd_active p = JList [JStr "a"; JStr "b"] /\ pd_indexes p = JList []
  | _ => False
  end.
Proof. vm_compute. auto. Qed.

(* ------------------------------------------------------------------ *)
(** ** C103 *)

(** When the settings are accepted every profile has a table with exactly one row per period of
    the OPF - in particular a profile without data never passes. *)
Theorem C103_profiles_fit_the_periods : forall excel grow build periods settings p p',
  read_data excel grow build periods settings p = Ok p' ->
  Forall (fun q => exists t, pd_data q = Some t /\ List.length (jf_rows t) = pm_periods p') (pm_profiles p').
Proof.
  intros excel grow build periods settings p p'. unfold read_data.
  repeat (match goal with |- rbind ?x _ = Ok _ -> _ => destruct x as [?|] eqn:?; [cbn [rbind]|discriminate] end).
  intros E. injection E as <-. cbn [pm_profiles pm_periods].
  match goal with H : mapM (adjust_profile ?n) _ = Ok ?l |- _ => apply mapM_Ok in H; clear - H; induction H as [|a b la lb H1 H2 IH]; constructor; auto end.
  now apply adjust_profile_rows in H1.
Qed.
Print Assumptions C103_profiles_fit_the_periods.

Definition ex_settings : obj :=
  [("problem", JObj [("non_anticipative", JBool true)]);
   ("opf_time_settings", JObj [("begin", JStr "2021-1-1"); ("end", JStr "2021-1-1 01:00:00"); ("frequency", JStr "hourly"); ("time_block", JStr "1")]);
   ("pandapower_profiles_data", JObj [("loads", JObj ex_entry)]);
   ("optimisation_binary_variables", JList [JObj [("element_type", JStr "line"); ("costs", JList [JNum 5])]])].
Example C103_witness : match read_data ex_excel (fun _ => Err KeyError) (fun _ => Ok tt) (fun _ _ _ => Ok 2) ex_settings default_params with
  | Ok p => List.length (pm_profiles p) = 2 /\ pm_periods p = 2
  | Err _ => False
  end.
Proof. vm_compute. auto. Qed.

(* ------------------------------------------------------------------ *)
(** ** C104 *)

(** What a second file read by the same reader gives: everything as if it were the first, but the
    investment options of the earlier file come first, and its tables stay when the second file has
    none (missing for a full proof of C104: false, see below). *)
Theorem C104_second_file_partial : forall excel grow build periods settings p q,
  read_data excel grow build periods settings default_params = Ok q ->
  exists p', read_data excel grow build periods settings p = Ok p' /\ same_but_history p' q /\
    pm_variables p' = pm_variables p ++ pm_variables q /\
    (pm_frames p' = pm_frames q \/ (pm_frames q = [] /\ pm_frames p' = pm_frames p)).
Proof.
  intros excel grow build periods settings p q. unfold read_data.
  repeat (match goal with |- rbind ?x _ = Ok _ -> _ => destruct x as [?|] eqn:?; [cbn [rbind]|discriminate] end).
  intros E. injection E as <-. eexists. split; [reflexivity|]. unfold same_but_history. cbn. sp; auto.
  match goal with |- context [snd ?o] => destruct (snd o); auto end.
Qed.
Print Assumptions C104_second_file_partial.

Theorem C104_refuted : exists excel grow build periods s p1 p2 q, read_data excel grow build periods s default_params = Ok p1 /\
  read_data excel grow build periods s p1 = Ok p2 /\ read_data excel grow build periods s default_params = Ok q /\
  List.length (pm_variables p2) = 2 * List.length (pm_variables q) /\ pm_variables q <> [].
Proof.
  exists ex_excel, (fun _ => Err KeyError), (fun _ => Ok tt), (fun _ _ _ => Ok 2), ex_settings. do 3 eexists. sp; try (vm_compute; reflexivity). vm_compute. discriminate.
Qed.
Print Assumptions C104_refuted.

Example C104_witness : exists q, read_data ex_excel (fun _ => Err KeyError) (fun _ => Ok tt) (fun _ _ _ => Ok 2) ex_settings default_params = Ok q /\ pm_frames q = [].
Proof. eexists. split; [vm_compute; reflexivity|reflexivity]. Qed.

(* ------------------------------------------------------------------ *)
(** ** C105 *)

(** An unknown format of the optimisation profiles, and the "attest" format without data, raise
    ValueError. *)
Theorem C105_optimisation_formats_partial : forall excel grow entries f, d_get "format_data" entries = Some (JStr f) ->
  (f <> "attest" \/ d_get "data" entries = None) -> load_optimisation_profiles excel grow entries = Err ValueError.
Proof.
  intros excel grow entries f E H. unfold load_optimisation_profiles, jpop, jget at 1. rewrite E. destruct (String.eqb_spec f "attest") as [->|]; auto.
  destruct H as [H|H]; [congruence|]. rewrite jget_remove by discriminate. unfold jget. now rewrite H.
Qed.
Print Assumptions C105_optimisation_formats_partial.

(** A profile of the network with a missing or unknown format, or in the "attest" format without a
    file, raises TypeError instead, whatever it holds. *)
Theorem C105_network_formats_partial : forall excel pre k d post ps, load_profiles excel pre = Ok ps ->
  (d_get "format_data" d = None \/ (exists f, d_get "format_data" d = Some (JStr f) /\ f <> "original" /\ (f = "attest" -> d_get "data_path" d = None))) ->
  load_profiles excel (pre ++ (k, JObj d) :: post) = Err TypeError.
Proof.
  intros excel pre k d post ps E H. unfold load_profiles in *.
  assert (A : forall A S (f : S -> A -> res S) l l' s, foldM f (l ++ l') s = do s' <- foldM f l s; foldM f l' s').
  { clear. intros A S f. induction l as [|a l IH]; intros l' s; cbn [app foldM rbind]; auto. destruct (f s a); cbn [rbind]; auto. }
  rewrite A, E. cbn [rbind foldM snd as_obj].
  assert (L : load_profile excel d = Ok None).
  { unfold load_profile. destruct H as [H|(f & H & N1 & N2)]; unfold jget at 1; rewrite H; auto. destruct (String.eqb_spec f "original"); [contradiction|].
    destruct (String.eqb_spec f "attest") as [X|]; auto. unfold present, jget. now rewrite (N2 X). }
  now rewrite L.
Qed.
Print Assumptions C105_network_formats_partial.

Theorem C105_refuted : exists excel d, d_get "format_data" d = Some (JStr "csv") /\ load_profiles excel [("loads", JObj d)] <> Err ValueError /\
  exists e, load_profiles excel [("loads", JObj d)] = Err e.
Proof. exists ex_excel, [("format_data", JStr "csv"); ("data_path", JStr "loads.csv")]. split; [reflexivity|]. split; [discriminate|]. eexists. reflexivity. Qed.
Print Assumptions C105_refuted.

Example C105_witness : load_profiles ex_excel [("a", JObj ex_entry); ("b", JObj [("data_path", JStr "x.xlsx")])] = Err TypeError /\
  load_optimisation_profiles ex_excel (fun _ => Err KeyError) [("format_data", JStr "csv")] = Err ValueError.
Proof. split; reflexivity. Qed.

(* ------------------------------------------------------------------ *)
(** ** C106 *)

(** A file whose extension is not exactly ".json" is not read: default parameters are returned,
    marked as not initialised, without an exception (missing for a full proof of C106: false,
    see below). *)
Theorem C106_other_files_partial : forall excel grow build periods load path, extension path <> ".json" ->
  exists p, read_parameters excel grow build periods load path = Ok p /\ pm_initialised p = false /\ pm_variables p = [] /\ pm_profiles p = [] /\ pm_problem p = None.
Proof.
  intros excel grow build periods load path N. unfold read_parameters. destruct (String.eqb_spec (extension path) ".json"); [contradiction|]. eexists. split; [reflexivity|]. repeat split.
Qed.
Print Assumptions C106_other_files_partial.

(** The parameters are initialised exactly when the file was read. *)
Theorem C106_initialised : forall excel grow build periods load path p, read_parameters excel grow build periods load path = Ok p ->
  (pm_initialised p = true <-> exists h, list_ascii_of_string path = h ++ list_ascii_of_string ".json" /\ extension path = ".json").
Proof.
  intros excel grow build periods load path p. unfold read_parameters. destruct (String.eqb_spec (extension path) ".json") as [X|X]; intros E.
  - split; intros _.
    + destruct (extension_suffix path) as (h & H); [rewrite X; discriminate|]. exists h. now rewrite X in H.
    + destruct (load path) as [v|]; [|discriminate]. cbn [rbind] in E. destruct (as_obj v) as [s|]; [|discriminate]. cbn [rbind] in E. revert E. unfold read_data.
      repeat (match goal with |- rbind ?x _ = Ok _ -> _ => destruct x as [?|] eqn:?; [cbn [rbind]|discriminate] end). intros E. injection E as <-. reflexivity.
  - injection E as <-. split; [discriminate|]. intros (h & _ & Y). contradiction.
Qed.
Print Assumptions C106_initialised.

Theorem C106_refuted : exists excel grow build periods load path p, load path = Ok (JObj ex_settings) /\
  read_parameters excel grow build periods load path = Ok p /\ pm_initialised p = false.
Proof. exists ex_excel, (fun _ => Err KeyError), (fun _ => Ok tt), (fun _ _ _ => Ok 2), (fun _ => Ok (JObj ex_settings)), "case.JSON". eexists. repeat split. Qed.
Print Assumptions C106_refuted.

Example C106_witness : extension "dir.json/case" <> ".json" /\ extension "dir/case.json" = ".json" /\ extension ".json" = "".
Proof. repeat split. discriminate. Qed.

(* ------------------------------------------------------------------ *)
(** ** C107 *)

(** A MATPOWER text file (extension ".m") is converted, and the .mat file beside it is used. *)
Theorem C107_m_files_partial : forall build path, extension path = ".m" ->
  mat_path build (JStr path) = do _ <- build path; Ok (JStr (path ++ "at")).
Proof.
  intros build path E. destruct (extension_suffix path) as (h & H); [rewrite E; discriminate|]. rewrite E in H. unfold mat_path. rewrite H, rev_app_distr. reflexivity.
Qed.
Print Assumptions C107_m_files_partial.

(** So is every file whose name ends in "m". *)
Theorem C107_refuted : exists path, extension path = ".xlsm" /\ forall build, mat_path build (JStr path) = do _ <- build path; Ok (JStr (path ++ "at")).
Proof. exists "grid.xlsm". split; reflexivity. Qed.
Print Assumptions C107_refuted.

(** A .mat file is used as it is. *)
Theorem C107_mat_files_partial : forall build path, extension path = ".mat" -> mat_path build (JStr path) = Ok (JStr path).
Proof.
  intros build path E. destruct (extension_suffix path) as (h & H); [rewrite E; discriminate|]. rewrite E in H. unfold mat_path. rewrite H, rev_app_distr. reflexivity.
Qed.
Print Assumptions C107_mat_files_partial.

Example C107_witness : extension "cases/case5.m" = ".m" /\ extension "cases/case5.mat" = ".mat".
Proof. split; reflexivity. Qed.

(* ------------------------------------------------------------------ *)
(** ** C108 *)

(** The tables of the "attest" data: under the name of a group the last table of that group is
    found, and every group is there (missing for a full proof of C108: the earlier tables of a
    repeated group, which are lost, see below). *)
Theorem C108_tables_partial : forall (es : list (string * (json * json))) ts,
  Forall2 (fun e t => create_frame (fst (snd e)) (snd (snd e)) = Ok t) es ts ->
  exists fr, extract_frames (map (fun e => table_entry (fst e) (fst (snd e)) (snd (snd e))) es) = Ok fr /\
    (forall i e t, nth_error es i = Some e -> nth_error ts i = Some t -> (forall j e', i < j -> nth_error es j = Some e' -> fst e' <> fst e) ->
       d_get (fst e) fr = Some t) /\
    (forall g, ~ In g (map fst es) -> d_get g fr = None).
Proof.
  intros es ts F. exists (d_update [] (combine (map fst es) ts)). split; [apply (extract_gen es ts [] F)|].
  assert (G : forall acc : @items jframe,
    (forall i e t, nth_error es i = Some e -> nth_error ts i = Some t -> (forall j e', i < j -> nth_error es j = Some e' -> fst e' <> fst e) ->
       d_get (fst e) (d_update acc (combine (map fst es) ts)) = Some t) /\
    (forall g, ~ In g (map fst es) -> d_get g (d_update acc (combine (map fst es) ts)) = d_get g acc)).
  { revert ts F. induction es as [|e es IH]; intros ts F acc; inversion F as [|? t ? ts' E1 F']; subst.
    - split; [intros [|i] e t X; discriminate|reflexivity].
    - cbn [map combine]. rewrite d_update_cons. cbn [fst snd]. destruct (IH ts' F' (d_set (fst e) t acc)) as (A & B). split.
      + intros [|i] e0 t0 X Y Z; cbn [nth_error] in X, Y.
        * injection X as <-. injection Y as <-. rewrite B.
          -- rewrite d_get_set, String.eqb_refl. reflexivity.
          -- intros I. apply in_map_iff in I as (e' & Ee & I). apply In_nth_error in I as (j & Ej). apply (Z (S j) e'); [lia|exact Ej|exact Ee].
        * apply (A i e0 t0 X Y). intros j e' L Ej. apply (Z (S j) e'); [lia|exact Ej].
      + intros g N. cbn [In] in N. rewrite B by tauto. rewrite d_get_set. destruct (String.eqb_spec (fst e) g); [exfalso; auto|reflexivity]. }
  destruct (G []) as (A & B). split; [exact A|]. intros g N. now rewrite B.
Qed.
Print Assumptions C108_tables_partial.

Theorem C108_refuted : exists g a b c fr, a <> b /\ extract_frames [table_entry g a c; table_entry g b c] = Ok fr /\
  d_get g fr = match create_frame b c with Ok t => Some t | Err _ => None end /\ List.length fr = 1.
Proof. exists "buses", (JList [JList [JNum 1]]), (JList [JList [JNum 2]]), (JList [JStr "p_mw"]). eexists. sp; try reflexivity. discriminate. Qed.
Print Assumptions C108_refuted.

Example C108_witness : Forall2 (fun e t => create_frame (fst (snd e)) (snd (snd e)) = Ok t)
  [("buses", (JList [JList [JNum 1]], JList [JStr "p_mw"])); ("flexible units", (JList [], JList [JStr "max_p_mw"]))]
  [mkJF [JStr "p_mw"] [[JNum 1]]; mkJF [JStr "max_p_mw"] []].
Proof. repeat constructor. Qed.

(* ------------------------------------------------------------------ *)
(** ** C131 *)

(** Every setting of the problem section and of an investment option is kept as given, or takes its
    default; settings nobody knows are left out (missing for a full proof of C131: a file without
    the problem section, see below). *)
Lemma settled_fields spec defaults d : (forall k, d_get k spec = d_get k defaults) -> settled defaults d (fields_of spec d).
Proof.
  intros H. unfold settled, fields_of, jget, d_get in *. split.
  - intros k v. rewrite <- H. clear H. induction spec as [|(k', v') spec IH]; cbn [l_get map fst snd]; [discriminate|].
    destruct (String.eqb_spec k' k); auto. subst k'. intros E. injection E as <-. reflexivity.
  - intros k. rewrite <- H. clear H. induction spec as [|(k', v') spec IH]; cbn [l_get map fst snd]; auto.
    destruct (String.eqb_spec k' k); auto. discriminate.
Qed.

Lemma problem_settled d : settled problem_defaults d (fields_of problem_fields d).
Proof.
  apply settled_fields. intros k. cbn -[String.eqb].
  repeat match goal with |- context [String.eqb ?a k] => destruct (String.eqb_spec a k); [subst; reflexivity|] end. reflexivity.
Qed.
Lemma option_settled d : settled option_defaults d (fields_of variable_fields d).
Proof.
  apply settled_fields. intros k. cbn -[String.eqb].
  repeat match goal with |- context [String.eqb ?a k] => destruct (String.eqb_spec a k); [subst; reflexivity|] end. reflexivity.
Qed.

Lemma mapM_Forall2 {A B} (f : A -> res B) (P : A -> B -> Prop) l l' : (forall a b, f a = Ok b -> P a b) -> mapM f l = Ok l' -> Forall2 P l l'.
Proof. intros H E. apply mapM_Ok in E. induction E; constructor; auto. Qed.

Ltac open_read := unfold read_data;
  repeat (match goal with |- rbind ?x _ = Ok _ -> _ => destruct x as [?|] eqn:?; [cbn [rbind]|discriminate] end).

Theorem C131_settings_kept_partial : forall excel grow build periods settings p p',
  read_data excel grow build periods settings p = Ok p' ->
  (forall d, d_get "problem" settings = Some (JObj d) -> settled problem_defaults d (problem_values p')) /\
  (forall l, d_get "optimisation_binary_variables" settings = Some (JList l) -> exists vs, pm_variables p' = pm_variables p ++ vs /\
     Forall2 (fun v fs => exists d, v = JObj d /\ settled option_defaults d fs) l vs).
Proof.
  intros excel grow build periods settings p p'. open_read. intros E. injection E as <-. unfold problem_values. cbn [pm_problem pm_variables]. split.
  - intros d G. unfold jget at 1 in Heqr. rewrite G in Heqr. cbn [as_obj rbind] in Heqr. injection Heqr as <-. apply problem_settled.
  - intros l G. eexists. split; [reflexivity|].
    match goal with H : match jget "optimisation_binary_variables" _ _ with _ => _ end = Ok _ |- _ => unfold jget in H; rewrite G in H; revert H end.
    apply mapM_Forall2. intros [| | | | | |d] fs; cbn [as_obj rbind]; try discriminate. intros E. injection E as <-. exists d. split; auto. apply option_settled.
Qed.
Print Assumptions C131_settings_kept_partial.

(** An empty problem section and none at all differ in the optimiser and the kind of power flow. *)
Theorem C131_refuted : exists excel grow build periods p q,
  read_data excel grow build periods [("problem", JObj [])] default_params = Ok p /\ read_data excel grow build periods [] default_params = Ok q /\
  d_get "opf_type" (problem_values p) = Some (JStr "ac") /\ d_get "opf_type" (problem_values q) = Some (JStr "") /\
  d_get "opf_optimizer" (problem_values p) = Some (JStr "pandapower") /\ d_get "opf_optimizer" (problem_values q) = Some (JStr "").
Proof. exists ex_excel, (fun _ => Err KeyError), (fun _ => Ok tt), (fun _ _ _ => Ok 2). do 2 eexists. sp; vm_compute; reflexivity. Qed.
Print Assumptions C131_refuted.

(** These are the only two. *)
Theorem C131_missing_section_partial : forall excel grow build periods settings p p', d_get "problem" settings = None ->
  read_data excel grow build periods settings p = Ok p' ->
  forall k, k <> "opf_type" -> k <> "opf_optimizer" -> d_get k (problem_values p') = d_get k problem_defaults.
Proof.
  intros excel grow build periods settings p p' G. open_read. intros E. injection E as <-. unfold problem_values. cbn [pm_problem].
  unfold jget at 1 in Heqr. rewrite G in Heqr. injection Heqr as <-. intros k N1 N2. cbn -[String.eqb].
  repeat match goal with |- context [String.eqb ?a k] => destruct (String.eqb_spec a k); [subst; try reflexivity; contradiction|] end. reflexivity.
Qed.
Print Assumptions C131_missing_section_partial.

Example C131_witness : match read_data ex_excel (fun _ => Err KeyError) (fun _ => Ok tt) (fun _ _ _ => Ok 2) ex_settings default_params with
  | Ok p => d_get "non_anticipative" (problem_values p) = Some (JBool true) /\ d_get "stochastic" (problem_values p) = Some (JBool false) /\
      map (d_get "costs") (pm_variables p) = [Some (JList [JNum 5])]
  | Err _ => False
  end.
Proof. vm_compute. auto. Qed.

(* ------------------------------------------------------------------ *)
(** ** C132 *)

Lemma bind_ok {A B} (a : A) (k : A -> res B) : rbind (Ok a) k = k a.
Proof. reflexivity. Qed.

Lemma load_profiles_gen excel entries : forall acc ps,
  foldM (fun acc e => do d <- as_obj (snd e); do ps <- load_profile excel d; match ps with Some l => Ok (acc ++ l) | None => Err TypeError end) entries acc = Ok ps ->
  exists pss, Forall2 (fun (e : string * json) l => exists d, snd e = JObj d /\ load_profile excel d = Ok (Some l)) entries pss /\ ps = acc ++ List.concat pss.
Proof.
  induction entries as [|e entries IH]; intros acc ps; cbn [foldM].
  - intros E. injection E as <-. exists []. split; [constructor|]. now rewrite List.app_nil_r.
  - destruct (snd e) as [| | | | | |d] eqn:D; try discriminate. cbn [as_obj]. rewrite bind_ok. cbv beta.
    destruct (load_profile excel d) as [[l|]|x] eqn:L; try discriminate. cbn [rbind]. intros E. apply IH in E as (pss & F & ->).
    exists (l :: pss). split; [constructor; eauto|]. cbn [List.concat]. now rewrite <- app_assoc.
Qed.

Lemma adjust_same size p q : adjust_profile size p = Ok q -> same_profile p q.
Proof.
  unfold adjust_profile, same_profile. destruct (pd_data p) as [t|] eqn:D; [|discriminate]. destruct (size <? List.length (jf_rows t)).
  - destruct (mapM _ _) as [rows|]; [|discriminate]. cbn [rbind]. destruct (recalculate _ _) as [r|]; [|discriminate]. cbn [rbind]. intros E. injection E as <-. sp; reflexivity.
  - destruct (_ <? size); [discriminate|]. intros E. injection E as <-. rewrite D. sp; reflexivity.
Qed.

(** The profiles of the network are those of the entries, in the order of the entries and without any
    left out, adjusted to the number of periods between the begin and the end of the study.
    Tables in the "attest" format are stored, and the optimisation profile is made of them. *)
Theorem C132_sections_read : forall excel grow build periods settings p p',
  read_data excel grow build periods settings p = Ok p' ->
  (forall es, d_get "pandapower_profiles_data" settings = Some (JObj es) -> exists pss,
     Forall2 (fun e l => exists d, snd e = JObj d /\ load_profile excel d = Ok (Some l)) es pss /\
     Forall2 same_profile (List.concat pss) (pm_profiles p')) /\
  (d_get "pandapower_profiles_data" settings = None -> pm_profiles p' = []) /\
  (forall d b e t, d_get "opf_time_settings" settings = Some (JObj d) ->
     d_get "begin" d = Some b -> d_get "end" d = Some e -> d_get "time_block" d = Some t -> periods b e t = Ok (pm_periods p')) /\
  (d_get "opf_time_settings" settings = None -> pm_periods p' = 1) /\
  (forall d data, d_get "optimisation_profiles_data" settings = Some (JObj d) -> d_get "format_data" d = Some (JStr "attest") ->
     d_get "data" d = Some (JList data) -> extract_frames data = Ok (pm_frames p') /\ exists o, grow (pm_frames p') = Ok o /\ pm_optimisation p' = [o]).
Proof.
  intros excel grow build periods settings p p'. open_read. intros E. injection E as <-. cbn [pm_profiles pm_periods pm_frames pm_optimisation].
  rename Heqr into P1, Heqr0 into P2, Heqr1 into P3, Heqr2 into P4, Heqr3 into P5, Heqr4 into P6, Heqr5 into P7. sp.
  - intros es G. unfold jget in P4. rewrite G in P4. cbn [as_obj rbind] in P4. apply load_profiles_gen in P4 as (pss & F & ->). exists pss. split; auto.
    revert P7. apply mapM_Forall2. intros x x' H. now apply adjust_same in H.
  - intros G. unfold jget in P4. rewrite G in P4. injection P4 as <-. cbn [mapM] in P7. now injection P7 as <-.
  - intros d b e t G G1 G2 G3. unfold jget in P2. rewrite G in P2. cbn [time_settings as_obj] in P2. rewrite bind_ok in P2. cbv beta in P2.
    unfold d_pop in P2. rewrite G1 in P2. cbn [rbind snd fst] in P2. rewrite get_remove, G2 in P2 by discriminate. cbn [rbind snd fst] in P2.
    destruct (d_get "frequency" _) as [f|]; [|discriminate]. cbn [rbind snd fst] in P2. destruct f; try discriminate. destruct (String.eqb _ _); [|discriminate].
    rewrite !get_remove, G3 in P2 by discriminate. exact P2.
  - intros G. unfold jget in P2. rewrite G in P2. now injection P2 as <-.
  - intros d data G G1 G2. unfold jget at 1 in P5. rewrite G in P5. cbn [as_obj] in P5. rewrite bind_ok in P5. cbv beta in P5. unfold load_optimisation_profiles, jpop in P5.
    unfold jget at 1 in P5. rewrite G1 in P5. cbn [String.eqb Ascii.eqb Bool.eqb] in P5. rewrite jget_remove in P5 by discriminate. unfold jget in P5. rewrite G2 in P5.
    destruct (extract_frames data) as [fr|]; [|discriminate]. cbn [rbind] in P5. destruct (grow fr) as [o|] eqn:O; [|discriminate]. cbn [rbind] in P5. injection P5 as <-.
    cbn [fst snd]. eauto.
Qed.
Print Assumptions C132_sections_read.

Example C132_witness : match read_data ex_excel (fun _ => Ok (mkOD JNull JNull None)) (fun _ => Ok tt) (fun _ _ _ => Ok 2)
    (("optimisation_profiles_data", JObj [("format_data", JStr "attest"); ("data", JList [table_entry "buses" (JList [JList [JNum 1]]) (JList [JStr "p_mw"])])]) :: ex_settings) default_params with
  | Ok p => List.length (pm_profiles p) = 2 /\ pm_periods p = 2 /\ pm_frames p = [("buses", mkJF [JStr "p_mw"] [[JNum 1]])]
  | Err _ => False
  end.
Proof. vm_compute. auto. Qed.
