(** Properties of names of cases and of run-dist_path (CaseName.v). *)
From Coq Require Import String List Bool Arith ZArith QArith Ascii Lia.
From Verif Require Import Base Cases CaseName Properties_Cases.
Import ListNotations.
Open Scope nat_scope.
Open Scope list_scope.

(* ------------------------------------------------------------------ *)
(** ** Lemmas *)

Definition free (stop : ascii -> bool) (l : list ascii) : Prop := forall a, In a l -> stop a = false.

Lemma py_mid (pre : list ascii) a suf i : i = Z.of_nat (List.length pre) -> py_index (pre ++ a :: suf) i = Ok a.
Proof. intros ->. unfold py_index. destruct (Z.ltb_spec (Z.of_nat (List.length pre)) 0); [lia|]. cbv zeta. destruct (Z.ltb_spec (Z.of_nat (List.length pre)) 0); [lia|]. rewrite Nat2Z.id, nth_error_app2, Nat.sub_diag by lia. reflexivity. Qed.
(** From the end of a part without the character down to its start. *)
Lemma search_part stop : forall part pre suf fuel, free stop part -> 
  search (List.length part + fuel) stop (pre ++ part ++ suf) (Z.of_nat (List.length pre + List.length part) - 1) = search fuel stop (pre ++ part ++ suf) (Z.of_nat (List.length pre) - 1).
Proof.
  induction part as [|a part IH] using rev_ind; intros pre suf fuel F; [cbn [List.length Nat.add]; now rewrite Nat.add_0_r|].
  rewrite app_length. cbn [List.length]. replace (List.length part + 1 + fuel) with (S (List.length part + fuel)) by lia. cbn [search].
  rewrite <- (app_assoc part [a] suf). cbn [app]. rewrite (app_assoc pre part). rewrite py_mid by (rewrite app_length; lia). cbn [rbind]. rewrite (F a) by (apply in_app_iff; right; now left).
  rewrite <- app_assoc. replace (Z.of_nat (List.length pre + (List.length part + 1)) - 1 - 1)%Z with (Z.of_nat (List.length pre + List.length part) - 1)%Z by lia.
  apply (IH pre (a :: suf)). intros b I. apply F. apply in_app_iff. now left.
Qed.
Lemma search_found stop pre a suf fuel : stop a = true -> search (S fuel) stop (pre ++ a :: suf) (Z.of_nat (List.length pre)) = Ok (Z.of_nat (List.length pre)).
Proof. intros S. cbn [search]. rewrite py_mid by reflexivity. cbn [rbind]. now rewrite S. Qed.
(** Nothing to be found: the loop goes through the path again from its end, and fails. *)
Lemma search_fails stop path : free stop path -> forall k fuel x, (x = Z.of_nat k - 1 - Z.of_nat (List.length path))%Z -> k <= 2 * List.length path -> k < fuel -> search fuel stop path x = Err IndexError.
Proof.
  intros F. induction k as [|k IH]; intros [|fuel] x Ex Lk Lf; try lia; cbn [search].
  - unfold py_index. cbv zeta. destruct (Z.ltb_spec x 0); [|lia]. destruct (Z.ltb_spec (x + Z.of_nat (List.length path)) 0); [reflexivity|lia].
  - assert (G : exists a, py_index path x = Ok a /\ In a path).
    { unfold py_index. cbv zeta. set (j := if (x <? 0)%Z then (x + Z.of_nat (List.length path))%Z else x). assert (0 <= j < Z.of_nat (List.length path))%Z by (unfold j; destruct (Z.ltb_spec x 0); lia). destruct (Z.ltb_spec j 0); [lia|].
      destruct (nth_error path (Z.to_nat j)) as [a|] eqn:N; [exists a; split; [reflexivity|eapply nth_error_In; eauto]|]. apply nth_error_None in N. lia. }
    destruct G as (a & -> & I). cbn [rbind]. rewrite (F a I). apply IH; lia.
Qed.
Lemma slice_mid {A} (pre mid suf : list A) i j : (i = Z.of_nat (List.length pre))%Z -> (j = Z.of_nat (List.length pre + List.length mid))%Z -> slice (pre ++ mid ++ suf) i j = mid.
Proof.
  intros -> ->. unfold slice, bound. rewrite !app_length. destruct (Z.ltb_spec (Z.of_nat (List.length pre)) 0); [lia|]. destruct (Z.ltb_spec (Z.of_nat (List.length pre + List.length mid)) 0); [lia|].
  rewrite !Z.min_r by lia. rewrite !Nat2Z.id. rewrite skipn_app, skipn_all, Nat.sub_diag. cbn [app skipn]. replace (List.length pre + List.length mid - List.length pre) with (List.length mid + 0) by lia. rewrite firstn_app_2. cbn [firstn]. apply app_nil_r.
Qed.

(** The last dot of a path. *)
Lemma last_dot before ext : free is_dot ext -> search (2 * List.length (before ++ "."%char :: ext) + 1) is_dot (before ++ "."%char :: ext) (Z.of_nat (List.length (before ++ "."%char :: ext)) - 1) = Ok (Z.of_nat (List.length before)).
Proof.
  intros F. pose proof (search_part is_dot ext (before ++ ["."%char]) [] (List.length before + List.length before + List.length ext + 3) F) as SP. rewrite app_nil_r in SP. rewrite <- app_assoc in SP. cbn [app] in SP.
  rewrite !app_length in *. cbn [List.length] in *. replace (List.length before + 1 + List.length ext) with (List.length before + S (List.length ext)) in SP by lia.
  replace (2 * (List.length before + S (List.length ext)) + 1) with (List.length ext + (List.length before + List.length before + List.length ext + 3)) by lia. rewrite SP.
  replace (Z.of_nat (List.length before + 1) - 1)%Z with (Z.of_nat (List.length before)) by lia. rewrite (Nat.add_comm _ 3). apply search_found. reflexivity.
Qed.

(* ------------------------------------------------------------------ *)
(** ** C331 *)
(** The name of the case is the name of the file without folders and extension: for a path with a folder, the text between
    the last slash before the last dot and this dot. *)
Theorem C331_name : forall dir slash stem ext, is_slash slash = true -> free is_slash stem -> free is_dot ext ->
  case_name (dir ++ slash :: stem ++ "."%char :: ext) = Ok stem.
Proof.
  intros dir slash stem ext SL F E. unfold case_name. cbv zeta.
  pose proof (last_dot (dir ++ slash :: stem) ext E) as D. rewrite <- app_assoc in D. cbn [app] in D. rewrite D. cbn [rbind].
  pose proof (search_part is_slash stem (dir ++ [slash]) ("."%char :: ext)) as P. rewrite <- app_assoc in P. cbn [app] in P.
  assert (X : search (2 * List.length (dir ++ slash :: stem ++ "."%char :: ext) + 1) is_slash (dir ++ slash :: stem ++ "."%char :: ext) (Z.of_nat (List.length (dir ++ slash :: stem)) - 1) = Ok (Z.of_nat (List.length dir))).
  { rewrite !app_length in *. cbn [List.length] in *. rewrite app_length. cbn [List.length]. specialize (P (S (2 * List.length dir + 2 + List.length stem + 2 * (List.length ext) + 2)) F).
    match goal with |- search ?a _ _ ?x = _ => match type of P with search ?b _ _ ?y = _ => replace a with b by lia; replace x with y by lia end end. rewrite P.
    replace (Z.of_nat (List.length dir + 1) - 1)%Z with (Z.of_nat (List.length dir)) by lia. apply search_found. exact SL. }
  rewrite X. cbn [rbind]. f_equal. pose proof (slice_mid (dir ++ [slash]) stem ("."%char :: ext) (Z.of_nat (List.length dir) + 1) (Z.of_nat (List.length (dir ++ slash :: stem)))) as M. rewrite <- app_assoc in M. cbn [app] in M.
  apply M; rewrite !app_length; cbn [List.length]; lia.
Qed.
Print Assumptions C331_name.
(** Refuted for a path without folders: it ends with IndexError, after the optimisation and before anything is saved; and
    so does a path without a dot. *)
Theorem C331_no_folder_refuted : forall path, free is_slash path \/ free is_dot path -> case_name path = Err IndexError.
Proof.
  intros path H. unfold case_name. cbv zeta.
  assert (D : free is_dot path \/ exists before ext, path = before ++ "."%char :: ext /\ free is_dot ext).
  { clear. induction path as [|a path IH]; [left; intros b []|]. destruct IH as [F|(before & ext & -> & F)].
    - destruct (is_dot a) eqn:A; [right; exists [], path; apply Ascii.eqb_eq in A; subst a; split; [reflexivity|exact F]|left; intros b [<-|I]; auto].
    - right. exists (a :: before), ext. split; [reflexivity|exact F]. }
  destruct D as [F|(before & ext & -> & F)]; [rewrite (search_fails is_dot path F (2 * List.length path)) by lia; reflexivity|].
  destruct H as [H|H]; [|specialize (H "."%char); rewrite in_app_iff in H; cbn in H; discriminate H; auto].
  rewrite (last_dot _ _ F). cbn [rbind]. rewrite (search_fails is_slash _ H (List.length before + List.length (before ++ "."%char :: ext))); [reflexivity| | |]; rewrite ?app_length; cbn [List.length]; lia.
Qed.
Print Assumptions C331_no_folder_refuted.
(** Refuted for a file without an extension in a folder with a dot: the name is that of the folder up to the dot, not that of
    the file. *)
Theorem C331_folder_refuted : forall dir stem rest file, free is_slash stem -> free is_dot rest -> free is_dot file -> stem <> file ->
  case_name (dir ++ "/"%char :: stem ++ "."%char :: rest ++ "/"%char :: file) = Ok stem /\ stem <> file.
Proof.
  intros dir stem rest file F R G N. split; [|exact N]. apply C331_name; auto. intros a I. apply in_app_iff in I as [I|[<-|I]]; auto.
Qed.
Print Assumptions C331_folder_refuted.
(** The same with both kinds of slashes written out. *)
Theorem C331_separators : forall dir slash stem ext, slash = "/"%char \/ slash = "\"%char -> (forall a, In a stem -> a <> "/"%char /\ a <> "\"%char) -> (forall a, In a ext -> a <> "."%char) ->
  case_name (dir ++ slash :: stem ++ "."%char :: ext) = Ok stem.
Proof.
  intros dir slash stem ext SL F E. apply C331_name.
  - destruct SL as [-> | ->]; reflexivity.
  - intros a I. destruct (F a I) as [A B]. unfold is_slash. apply orb_false_iff. split; now apply Ascii.eqb_neq.
  - intros a I. now apply Ascii.eqb_neq, E.
Qed.
Print Assumptions C331_separators.
Lemma py_back (pre : list ascii) a suf : py_index (pre ++ a :: suf) (- Z.of_nat (List.length suf) - 1) = Ok a.
Proof.
  unfold py_index. cbv zeta. destruct (Z.ltb_spec (- Z.of_nat (List.length suf) - 1) 0); [|lia]. rewrite app_length. cbn [List.length].
  replace (- Z.of_nat (List.length suf) - 1 + Z.of_nat (List.length pre + S (List.length suf)))%Z with (Z.of_nat (List.length pre)) by lia. destruct (Z.ltb_spec (Z.of_nat (List.length pre)) 0); [lia|].
  rewrite Nat2Z.id, nth_error_app2, Nat.sub_diag by lia. reflexivity.
Qed.
Lemma search_back stop a pre : stop a = true -> forall f1 f2 fuel, free stop f1 -> List.length f1 < fuel ->
  search fuel stop (pre ++ a :: f1 ++ f2) (- Z.of_nat (List.length f2) - 1) = Ok (- Z.of_nat (List.length f1 + List.length f2) - 1)%Z.
Proof.
  intros SA. induction f1 as [|b f1 IH] using rev_ind; intros f2 [|fuel] F L; try (cbn in L; lia).
  - cbn [app List.length Nat.add search]. rewrite py_back. cbn [rbind]. now rewrite SA.
  - rewrite app_length in *. cbn [List.length] in *. rewrite <- app_assoc. cbn [app search]. pose proof (py_back (pre ++ a :: f1) b f2) as P. rewrite <- app_assoc in P. cbn [app] in P. rewrite P. cbn [rbind].
    rewrite (F b) by (apply in_app_iff; right; now left). specialize (IH (b :: f2) fuel (fun c I => F c (proj2 (in_app_iff _ _ _) (or_introl I))) ltac:(lia)). cbn [List.length] in IH.
    replace (- Z.of_nat (List.length f2) - 1 - 1)%Z with (- Z.of_nat (S (List.length f2)) - 1)%Z by lia. rewrite IH. do 2 f_equal. lia.
Qed.
(** Refuted for a file without an extension in a folder with a dot that is itself in no folder: the name is empty. *)
Theorem C331_relative_refuted : forall stem rest file, free is_slash stem -> free is_dot rest -> free is_dot file -> free is_slash file -> file <> [] ->
  case_name (stem ++ "."%char :: rest ++ "/"%char :: file) = Ok [].
Proof.
  intros stem rest file F R G H NE. unfold case_name. cbv zeta.
  rewrite (last_dot stem (rest ++ "/"%char :: file)) by (intros a I; apply in_app_iff in I as [I|[<-|I]]; auto). cbn [rbind].
  pose proof (search_part is_slash stem [] ("."%char :: rest ++ "/"%char :: file)) as P. cbn [app List.length Nat.add] in P.
  assert (X : search (2 * List.length (stem ++ "."%char :: rest ++ "/"%char :: file) + 1) is_slash (stem ++ "."%char :: rest ++ "/"%char :: file) (Z.of_nat (List.length stem) - 1) = Ok (- Z.of_nat (List.length file) - 1)%Z).
  { replace (2 * List.length (stem ++ "."%char :: rest ++ "/"%char :: file) + 1) with (List.length stem + (List.length stem + 2 * List.length rest + 2 * List.length file + 5)) by (rewrite !app_length; cbn [List.length]; rewrite app_length; cbn [List.length]; lia).
    rewrite P by exact F. pose proof (search_back is_slash "/"%char (stem ++ "."%char :: rest) eq_refl file [] (List.length stem + 2 * List.length rest + 2 * List.length file + 5) H ltac:(lia)) as B.
    rewrite app_nil_r, <- app_assoc in B. cbn [app List.length] in B. rewrite Nat.add_0_r in B. exact B. }
  rewrite X. cbn [rbind]. f_equal. unfold slice, bound. assert (LF : 0 < List.length file) by (destruct file; [congruence|cbn; lia]).
  rewrite !app_length. cbn [List.length]. rewrite app_length. cbn [List.length]. destruct (Z.ltb_spec (Z.of_nat (List.length stem)) 0); [lia|]. destruct (Z.ltb_spec (- Z.of_nat (List.length file) - 1 + 1) 0); [|lia].
  match goal with |- firstn ?n _ = _ => replace n with 0 by lia end. reflexivity.
Qed.
Print Assumptions C331_relative_refuted.
Example C331_relative_witness : case_name (list_ascii_of_string "data.v1/case"%string) = Ok [].
Proof. vm_compute. reflexivity. Qed.
Definition ch_ (s : string) : list ascii := list_ascii_of_string s.
Example C331_witness : case_name (ch_ "/home/me/case_UK.v2.json"%string) = Ok (ch_ "case_UK.v2"%string) /\ case_name (ch_ "case.json"%string) = Err IndexError /\ case_name (ch_ "/data/v1.2/case"%string) = Ok (ch_ "v1"%string) /\
  free is_slash (ch_ "case_UK.v2"%string) /\ free is_dot (ch_ "json"%string).
Proof. split; [vm_compute; reflexivity|]. split; [vm_compute; reflexivity|]. split; [vm_compute; reflexivity|]. split; intros a; cbn; intuition (subst; reflexivity). Qed.

(* ------------------------------------------------------------------ *)
(** ** C332 *)
(** run-dist_path saves the plan.  Refuted: whatever the path, the number of lines and the clusters are, it ends with an
    exception when the rows of the plan have lines and a scenario below 1000; also without a plan. *)
Theorem C332_path_refuted : forall path n P, pn_rows P <> [] -> Forall (fun r => sr_lines r <> [] /\ sr_scenario r < 1000)%Z (pn_rows P) -> exists e, invest_path path n P = Err e.
Proof.
  intros path n P NE F. unfold invest_path. destruct (pn_clusters P) as [cl|]; cbn [rbind]; [|eauto]. destruct (case_name path); cbn [rbind]; [|eauto]. apply C68_never_saved; auto.
Qed.
Print Assumptions C332_path_refuted.
Theorem C332_no_plan_refuted : forall path n rows, invest_path path n (mkPlanned rows None) = Err IndexError.
Proof. reflexivity. Qed.
Print Assumptions C332_no_plan_refuted.
(** For a plan whose clusters are found, the exception is KeyError, with a path that has a folder and an extension. *)
Theorem C332_key_error : forall dir slash stem ext n r l k cl rest, is_slash slash = true -> free is_slash stem -> free is_dot ext -> l <> [] -> List.length k = List.length l -> (sr_scenario r < 1000)%Z -> sr_lines r = l ->
  invest_path (dir ++ slash :: stem ++ "."%char :: ext) n (mkPlanned [r] (Some (((l, k) :: cl) :: rest))) = Err KeyError.
Proof.
  intros dir slash stem ext n r l k cl rest SL F E NE LK LS LR. unfold invest_path. cbn [pn_clusters pn_rows rbind fold_left app]. rewrite C331_name by auto. cbn [rbind].
  assert (FI : forall rest acc, exists more, fold_left (fun acc (x : list (list Z * list Q)) => match x with a :: _ => acc ++ [a] | [] => acc end) rest acc = acc ++ more).
  { clear. induction rest as [|x rest IH]; intros acc; [exists []; now rewrite app_nil_r|]. cbn [fold_left]. destruct x as [|a x]; [apply IH|]. destruct (IH (acc ++ [a])) as (more & ->). exists (a :: more). now rewrite <- app_assoc. }
  destruct (FI rest [(l, k)]) as (more & ->). cbn [app map fst snd]. unfold save_interventions, first_last. cbn [List.length seq combine fold_left first_last_step snd fst].
  destruct (Z.ltb_spec (sr_scenario r) 1000); [|lia]. rewrite Z.eqb_refl.
  assert (W : forall known txt, existsb (String.eqb txt) saved_keys = false -> save_row known n (l :: map fst more) (k :: map snd more) txt r = Err KeyError).
  { intros known txt NK. unfold save_row. rewrite LR. cbn [find_cluster]. rewrite Nat.eqb_refl. assert (KS : keep_searching l l = false) by (clear; induction l as [|x l IH]; [reflexivity|]; cbn; now rewrite Z.eqb_refl). rewrite KS. cbn [rbind].
    destruct l as [|x l]; [congruence|]. destruct k as [|q k]; [discriminate|]. cbn [List.length seq foldM at_ nth_error rbind]. rewrite NK. reflexivity. }
  destruct (Z.ltb_spec 0 (sr_scenario r)); [|destruct (Z.eqb_spec 0 (sr_scenario r))];
    repeat match goal with |- context [(if (?a =? ?b)%Z then _ else _)] => destruct (Z.eqb_spec a b); try lia end; cbn [app foldM at_ nth_error rbind]; rewrite W by reflexivity; reflexivity.
Qed.
Print Assumptions C332_key_error.
Example C332_witness : invest_path (ch_ "/d/plan.json"%string) 4 (mkPlanned [mkS 1 2030 [2]%Z] (Some [[([2]%Z, [5%Q])]; []])) = Err KeyError /\ invest_path (ch_ "plan.json"%string) 4 (mkPlanned [mkS 1 2030 []] (Some [])) = Err IndexError.
Proof. split; vm_compute; reflexivity. Qed.

(** The years that are reported are those of the rows of the first and the last scenario, each once. *)
Theorem C332_years : forall rows, NoDup (report_years rows) /\
  forall y, In y (report_years rows) <-> exists i r, (In i (fst (first_last rows)) \/ In i (snd (first_last rows))) /\ nth_error rows i = Some r /\ sr_year r = y.
Proof.
  intros rows. unfold report_years. destruct (first_last rows) as [p0 p1]. cbn [fst snd]. set (step := fun ys i => match nth_error rows i with Some r => if existsb (Z.eqb (sr_year r)) ys then ys else ys ++ [sr_year r] | None => ys end).
  assert (G : forall is ys, NoDup ys -> NoDup (fold_left step is ys) /\ forall y, In y (fold_left step is ys) <-> In y ys \/ exists i r, In i is /\ nth_error rows i = Some r /\ sr_year r = y).
  { induction is as [|i is IH]; intros ys N; cbn [fold_left]; [split; [exact N|intros y; split; [auto|intros [I|(i & r & [] & _)]; auto]]|].
    assert (ST : NoDup (step ys i) /\ forall y, In y (step ys i) <-> In y ys \/ exists r, nth_error rows i = Some r /\ sr_year r = y).
    { unfold step. destruct (nth_error rows i) as [r|]; [|split; [exact N|intros y; split; [auto|intros [I|(r & ? & _)]; [auto|discriminate]]]]. destruct (existsb (Z.eqb (sr_year r)) ys) eqn:X.
      - apply existsb_exists in X as (z & Iz & Ez). apply Z.eqb_eq in Ez. split; [exact N|]. intros y. split; [auto|]. intros [I|(r' & Er & <-)]; [auto|]. inversion Er; subst r'. now rewrite Ez.
      - assert (NI : ~ In (sr_year r) ys). { intros I. assert (T : existsb (Z.eqb (sr_year r)) ys = true) by (apply existsb_exists; exists (sr_year r); split; [exact I|apply Z.eqb_refl]). congruence. }
        split; [apply (NoDup_Add (l := ys) (a := sr_year r)); [rewrite <- (app_nil_r ys) at 1; apply Add_app|auto]|]. intros y. rewrite in_app_iff. cbn [In]. split; [intros [I|[I|[]]]; [auto|right; exists r; auto]|intros [I|(r' & Er & E)]; [auto|inversion Er; subst; auto]]. }
    destruct ST as [N' ST]. destruct (IH _ N') as [N2 IN]. split; [exact N2|]. intros y. rewrite IN, ST. split.
    - intros [[I|(r & A & B)]|(j & r & A & B & C)]; [auto|right; exists i, r; cbn; auto|right; exists j, r; cbn; auto].
    - intros [I|(j & r & [<-|A] & B & C)]; [auto|left; right; eauto|right; eauto]. }
  destruct (G (p0 ++ p1) [] (NoDup_nil _)) as [N IN]. split; [exact N|]. intros y. rewrite IN. split.
  - intros [[]|(i & r & A & B)]. exists i, r. rewrite in_app_iff in A. tauto.
  - intros (i & r & A & B). right. exists i, r. rewrite in_app_iff. tauto.
Qed.
Print Assumptions C332_years.
Example C332_years_witness : report_years [mkS 1 2030 [1]; mkS 2 2030 [1]; mkS 3 2040 [2]; mkS 1 2030 [2]; mkS 3 2050 [2]; mkS 2 2060 [2]]%Z = [2030; 2040; 2050]%Z.
Proof. reflexivity. Qed.

(* ------------------------------------------------------------------ *)
(** ** C337 *)
(** The positions of the rows of a scenario. *)
Definition rows_of (v : Z) (rows : list srow) : list nat := filter (fun i => Z.eqb (sr_scenario (nth i rows (mkS 0 0 []))) v) (seq 0 (List.length rows)).
Lemma rows_of_snoc v rows r : rows_of v (rows ++ [r]) = rows_of v rows ++ (if Z.eqb (sr_scenario r) v then [List.length rows] else []).
Proof.
  unfold rows_of. rewrite app_length, seq_app, filter_app. cbn [List.length Nat.add seq filter]. rewrite app_nth2, Nat.sub_diag by lia. cbn [nth]. f_equal.
  apply filter_ext_in. intros i I. apply in_seq in I. now rewrite app_nth1 by lia.
Qed.
Lemma rows_of_none v rows : (forall r, In r rows -> sr_scenario r <> v) -> rows_of v rows = [].
Proof.
  intros H. unfold rows_of. rewrite (filter_ext_in _ (fun _ => false)); [now induction (seq 0 (List.length rows))|]. intros i I. apply in_seq in I. apply Z.eqb_neq, H, nth_In. lia.
Qed.
Lemma combine_snoc {A B} : forall (l : list A) (m : list B) x y, List.length l = List.length m -> combine (l ++ [x]) (m ++ [y]) = combine l m ++ [(x, y)].
Proof. induction l as [|a l IH]; intros [|b m] x y L; try discriminate; [reflexivity|]. cbn in *. f_equal. apply IH. lia. Qed.
Lemma scan_rows rows : exists lo hi, fold_left first_last_step (combine (seq 0 (List.length rows)) rows) ((1000%Z, 0%Z), ([], [])) = ((lo, hi), (rows_of lo rows, rows_of hi rows)) /\
  (lo <= 1000)%Z /\ (0 <= hi)%Z /\ (forall r, In r rows -> lo <= sr_scenario r <= hi)%Z /\ (lo = 1000 \/ exists r, In r rows /\ sr_scenario r = lo)%Z /\ (hi = 0 \/ exists r, In r rows /\ sr_scenario r = hi)%Z.
Proof.
  induction rows as [|r rows IH] using rev_ind; [exists 1000%Z, 0%Z; cbn; intuition lia|]. destruct IH as (lo & hi & E & L1 & H0 & B & A1 & A2).
  rewrite app_length. cbn [List.length]. rewrite seq_app. cbn [seq Nat.add]. rewrite combine_snoc by apply seq_length. rewrite fold_left_app, E. cbn [fold_left first_last_step fst snd].
  exists (Z.min lo (sr_scenario r)), (Z.max hi (sr_scenario r)). rewrite !rows_of_snoc.
  assert (P0 : (if (sr_scenario r <? lo)%Z then (sr_scenario r, []) else (lo, rows_of lo rows)) = (Z.min lo (sr_scenario r), rows_of (Z.min lo (sr_scenario r)) rows)).
  { destruct (Z.ltb_spec (sr_scenario r) lo); [rewrite Z.min_r by lia; f_equal; symmetry; apply rows_of_none; intros q I X; specialize (B q I); lia|now rewrite Z.min_l by lia]. }
  assert (P1 : (if (hi <? sr_scenario r)%Z then (sr_scenario r, []) else (hi, rows_of hi rows)) = (Z.max hi (sr_scenario r), rows_of (Z.max hi (sr_scenario r)) rows)).
  { destruct (Z.ltb_spec hi (sr_scenario r)); [rewrite Z.max_r by lia; f_equal; symmetry; apply rows_of_none; intros q I X; specialize (B q I); lia|now rewrite Z.max_l by lia]. }
  rewrite P0, P1. rewrite (Z.eqb_sym (Z.min lo _)), (Z.eqb_sym (Z.max hi _)). split.
  { destruct (sr_scenario r =? Z.min lo (sr_scenario r))%Z, (sr_scenario r =? Z.max hi (sr_scenario r))%Z; rewrite ?app_nil_r; reflexivity. }
  split; [lia|]. split; [lia|]. split; [|split].
  - intros q I. apply in_app_iff in I as [I|[<-|[]]]; [specialize (B q I); lia|lia].
  - destruct (Z.min_spec lo (sr_scenario r)) as [[_ ->]|[_ ->]]; [destruct A1 as [A1|(q & I & A1)]; [auto|right; exists q; split; [apply in_app_iff; auto|auto]]|right; exists r; split; [apply in_app_iff; right; now left|auto]].
  - destruct (Z.max_spec hi (sr_scenario r)) as [[_ ->]|[_ ->]]; [right; exists r; split; [apply in_app_iff; right; now left|auto]|destruct A2 as [A2|(q & I & A2)]; [auto|right; exists q; split; [apply in_app_iff; auto|auto]]].
Qed.
(** The rows that are reported are all those of the lowest and, if there is another, of the highest scenario, for scenarios
    from 0 to 1000. *)
Theorem C337_rows_partial : forall rows, rows <> [] -> (forall r, In r rows -> 0 <= sr_scenario r <= 1000)%Z -> exists lo hi,
  (exists r, In r rows /\ sr_scenario r = lo) /\ (exists r, In r rows /\ sr_scenario r = hi) /\ (forall r, In r rows -> lo <= sr_scenario r <= hi)%Z /\
  fst (first_last rows) = rows_of lo rows /\ snd (first_last rows) = (if Z.eq_dec lo hi then [] else rows_of hi rows).
Proof.
  intros rows NE H. destruct (scan_rows rows) as (lo & hi & E & L1 & H0 & B & A1 & A2). exists lo, hi. destruct rows as [|q rows]; [congruence|]. pose proof (H q (or_introl eq_refl)) as Hq. pose proof (B q (or_introl eq_refl)) as Bq.
  split; [destruct A1 as [A1|A1]; [exists q; split; [now left|lia]|exact A1]|]. split; [destruct A2 as [A2|A2]; [exists q; split; [now left|lia]|exact A2]|]. split; [exact B|].
  unfold first_last. rewrite E. cbn [fst snd]. split; [reflexivity|]. destruct (Z.eq_dec lo hi), (Z.eqb_spec lo hi); congruence.
Qed.
Print Assumptions C337_rows_partial.
(** Scenarios above 1000 are not the first: if there are no others, no row is reported as one of the first scenario. *)
Theorem C337_large_refuted : forall rows, (forall r, In r rows -> 1000 < sr_scenario r)%Z -> fst (first_last rows) = [].
Proof.
  intros rows H. destruct (scan_rows rows) as (lo & hi & E & L1 & H0 & B & A1 & A2). unfold first_last. rewrite E. cbn [fst]. apply rows_of_none. intros r I X. specialize (H r I). lia.
Qed.
Print Assumptions C337_large_refuted.
Example C337_witness : first_last [mkS 1 2030 [1]; mkS 2 2030 [1]; mkS 3 2040 [2]; mkS 1 2040 [2]; mkS 3 2050 [2]]%Z = ([0; 3], [2; 4]) /\ first_last [mkS 1001 2030 [1]; mkS 1002 2030 [1]]%Z = ([], [1]).
Proof. split; reflexivity. Qed.
