(** Properties of the writer of results in workbooks (pyeneO.py). *)
From Coq Require Import List String Bool Arith ZArith QArith Lia.
From Verif Require Import Base Outputs OutputsSpec OutputsProofs.
Import ListNotations.
Open Scope string_scope.
Open Scope nat_scope.
Open Scope list_scope.

(* ------------------------------------------------------------------ *)
(** ** C298 *)
(** A file is opened exactly for the devices that some output asks for. *)
Theorem C298_opened : forall outs,
  (fst (open_files outs) = true <-> exists o, In o outs /\ o_device o = Some ["h5"]) /\
  (snd (open_files outs) = true <-> exists o, In o outs /\ o_device o = Some ["excel"]).
Proof.
  assert (DEV : forall o d, device_is o d = true <-> o_device o = Some [d]).
  { intros o d. unfold device_is. destruct (o_device o) as [[|x [|y l]]|]; split; intros E; try discriminate; [apply String.eqb_eq in E; now subst|injection E as ->; apply String.eqb_refl]. }
  assert (F : forall outs s, (fst (fold_left open_step outs s) = true <-> fst s = true \/ exists o, In o outs /\ o_device o = Some ["h5"]) /\ (snd (fold_left open_step outs s) = true <-> snd s = true \/ exists o, In o outs /\ o_device o = Some ["excel"])).
  { induction outs as [|o outs IH]; intros [h e]; cbn [fold_left].
    - split; (split; [auto|intros [H|(o & [] & _)]; exact H]).
    - destruct (IH (open_step (h, e) o)) as (A & B). rewrite A, B. clear A B IH.
      assert (S : (fst (open_step (h, e) o) = true <-> h = true \/ o_device o = Some ["h5"]) /\ (snd (open_step (h, e) o) = true <-> e = true \/ o_device o = Some ["excel"])).
      { unfold open_step. rewrite <- !DEV. assert (X : device_is o "h5" = true -> device_is o "excel" = true -> False) by (rewrite !DEV; congruence). destruct (device_is o "h5"), (device_is o "excel"), h, e; cbn; intuition discriminate. }
      destruct S as (S1 & S2). rewrite S1, S2. cbn [fst snd In]. split; (split; [intros [[H|H]|(o' & I & H)]; eauto|intros [H|(o' & [->|I] & H)]; eauto]). }
  intros outs. unfold open_files. destruct (F outs (false, false)) as (A & B). rewrite A, B. cbn. intuition discriminate.
Qed.
Print Assumptions C298_opened.
(** Files are closed.  Refuted: whenever no output goes to HDF5, closing ends with an exception. *)
Theorem C298_closed_refuted : forall outs, (forall o, In o outs -> o_device o <> Some ["h5"]) -> close_files (open_files outs) = Err AttributeError.
Proof. intros outs H. unfold close_files. destruct (fst (open_files outs)) eqn:E; [|reflexivity]. apply C298_opened in E as (o & I & D). now apply H in D. Qed.
Print Assumptions C298_closed_refuted.
Example C298_witness : open_files [Out (Some ["excel"]) "flow" "DC OPF"; Out None "cost" "BT"] = (false, true) /\ forall o, In o [Out (Some ["excel"]) "flow" "DC OPF"; Out None "cost" "BT"] -> o_device o <> Some ["h5"].
Proof. split; [reflexivity|]. intros o [<-|[<-|[]]]; discriminate. Qed.

(* ------------------------------------------------------------------ *)
(** ** C299 *)
Definition wanted_in_excel (o : out) : bool := match o_device o with Some [d] => String.eqb d "excel" | _ => false end.
(** The workbook has a table for each output of the optimal power flow: each
    value is in the row of its hour below its ID, and no other number is there. *)
Theorem C299_tables : forall outs pt vs, pt <> [] -> all_described vs ->
  (forall o, In o outs -> o_device o = Some ["excel"] -> o_problem o = "DC OPF" /\ told_apart (o_name o) pt vs) ->
  NoDup (map o_name (filter wanted_in_excel outs)) ->
  exists sheets, (forall fuel, List.length vs < fuel -> save_results fuel outs (Some pt) vs = Ok sheets) /\
    Forall2 (fun o s => table_of (o_name o) pt vs s) (filter wanted_in_excel outs) sheets.
Proof.
  intros outs pt vs PT AD H ND. assert (D : forall o, In o (filter wanted_in_excel outs) -> In o outs /\ o_device o = Some ["excel"]).
  { intros o I. apply filter_In in I as (I & E). split; [exact I|]. unfold wanted_in_excel in E. destruct (o_device o) as [[|x [|y l]]|]; try discriminate. apply String.eqb_eq in E. now subst. }
  destruct (save_fold pt vs PT AD (filter wanted_in_excel outs) (repeat false (List.length vs)) []) as (new & used' & F & E).
  - apply repeat_length.
  - intros o I. destruct (D o I) as (A & B). now apply H.
  - exact ND.
  - intros o I. destruct (D o I) as (A & B). now apply H.
  - intros o v g _ I. exfalso. unfold items in I. apply in_map_iff in I as ([[v' g'] u'] & Q0 & I). cbn in Q0. injection Q0 as -> -> ->. apply in_combine_r in I. apply repeat_spec in I. discriminate.
  - exists new. split; [|exact F]. intros fuel L. unfold save_results. change (filter (fun o => device_is o "excel") outs) with (filter wanted_in_excel outs). rewrite (E fuel L). reflexivity.
Qed.
Print Assumptions C299_tables.
Local Definition val_ (n h i : string) : list cha := [Cha "ID" i []; Cha "name" n []; Cha "hour" h []; Cha "pt" "0" ["1"]].
Local Lemma val_described n h i : described (val_ n h i) n (Cha "pt" "0" ["1"]) (Cha "hour" h []) i.
Proof.
  unfold described, val_. cbn. split; [|split; [exists []; auto|split; [auto|split; [reflexivity|split; [auto|split; [reflexivity|exists []; auto]]]]]].
  repeat (constructor; [cbn; intuition discriminate|]). constructor.
Qed.
Local Definition four : list (Q * list cha) := [(1%Q, val_ "gen" "1" "a"); (2%Q, val_ "flow" "1" "b"); (3%Q, val_ "gen" "2" "a"); (4%Q, val_ "gen" "1" "c")].
Example C299_witness : all_described four /\ told_apart "gen" ["0"; "1"] four /\ told_apart "flow" ["0"; "1"] four /\
  exists s t, save_results 5 [Out (Some ["excel"]) "gen" "DC OPF"; Out None "flow" "BT"; Out (Some ["excel"]) "flow" "DC OPF"] (Some ["0"; "1"]) four = Ok [s; t] /\
    cell_at s 3 3 = Some (Num 1) /\ cell_at s 4 3 = Some (Num 3) /\ cell_at s 3 4 = Some (Num 4) /\ cell_at s 4 4 = None /\ cell_at t 3 3 = Some (Num 2).
Proof.
  assert (U : forall n h i n' p' h' i', described (val_ n h i) n' p' h' i' -> n = n' /\ Cha "hour" h [] = h' /\ i = i').
  { intros n h i n' p' h' i' D. destruct (described_unique _ _ _ _ _ _ _ _ _ (val_described n h i) D) as (A & _ & B & C). auto. }
  split; [|split; [|split]].
  - intros v g I. cbn in I. destruct I as [E|[E|[E|[E|[]]]]]; injection E as <- <-; do 4 eexists; (split; [apply val_described|split; discriminate]).
  - intros v g p h i v' g' p' h' i' I I' D D' _ _ J K. cbn in I, I'. destruct I as [E|[E|[E|[E|[]]]]], I' as [E'|[E'|[E'|[E'|[]]]]]; injection E as <- <-; injection E' as <- <-; apply U in D as (N1 & <- & <-); apply U in D' as (N2 & <- & <-); try discriminate; reflexivity.
  - intros v g p h i v' g' p' h' i' I I' D D' _ _ J K. cbn in I, I'. destruct I as [E|[E|[E|[E|[]]]]], I' as [E'|[E'|[E'|[E'|[]]]]]; injection E as <- <-; injection E' as <- <-; apply U in D as (N1 & <- & <-); apply U in D' as (N2 & <- & <-); try discriminate; reflexivity.
  - do 2 eexists. split; [vm_compute; reflexivity|]. repeat split.
Qed.

(* ------------------------------------------------------------------ *)
(** ** C300 *)
(** An output that is asked for twice has two tables.  Refuted: the second one
    has titles and no number, whatever the values are. *)
Theorem C300_again_refuted : forall n pt vs, pt <> [] -> all_described vs -> told_apart n pt vs -> let o := Out (Some ["excel"]) n "DC OPF" in
  exists s s', table_of n pt vs s /\ (forall r c q, cell_at s' r c <> Some (Num q)) /\ forall fuel, List.length vs < fuel -> save_results fuel [o; o] (Some pt) vs = Ok [s; s'].
Proof.
  intros n pt vs PT AD TA o. assert (L : List.length (repeat false (List.length vs)) = List.length vs) by apply repeat_length.
  destruct (sheet_ok n pt vs _ AD TA L) as (s & T & R).
  { intros v g I. exfalso. unfold items in I. apply in_map_iff in I as ([[v' g'] u'] & Q0 & I). cbn in Q0. injection Q0 as -> -> ->. apply in_combine_r in I. apply repeat_spec in I. discriminate. }
  set (used' := map (fun x => snd (fst x) || member_ n pt (snd x)) (items vs (repeat false (List.length vs)))) in *.
  assert (L' : List.length used' = List.length vs) by (unfold used'; rewrite map_length; now apply items_length).
  assert (NT : forall x, In x (items vs used') -> todo n pt x = false).
  { intros x I. unfold used' in I. rewrite (items_map _ vs _ L) in I. apply in_map_iff in I as ([[v u] g] & <- & _). unfold todo. cbn [fst snd]. destruct u; [reflexivity|]. cbn. now destruct (member_ n pt g). }
  exists s, (header n (columns n (map snd vs))). split; [exact T|]. split; [intros r c q C; apply cell_in, header_rows in C as (_ & k & K); discriminate|].
  intros fuel Lf. unfold save_results. cbn [filter device_is o o_device]. change (String.eqb "excel" "excel") with true. cbv iota. cbn [foldM].
  assert (ST : forall sh us s0 us0, opf_sheet fuel n pt vs us = Ok (s0, us0) -> save_step fuel pt vs (sh, us) o = Ok (sh ++ [s0], us0)).
  { intros sh us s0 us0 E. unfold save_step, o. cbn [o_problem o_name snd fst]. change (String.eqb "DC OPF" "DC OPF") with true. cbv iota. rewrite E. now destruct pt. }
  rewrite (ST _ _ _ _ (R fuel Lf)). cbn [rbind]. rewrite (ST _ _ _ _ (sheet_again n pt vs used' L' NT fuel ltac:(lia))). reflexivity.
Qed.
Print Assumptions C300_again_refuted.
Example C300_witness : all_described four /\ told_apart "gen" ["0"; "1"] four /\ exists s s', save_results 5 [Out (Some ["excel"]) "gen" "DC OPF"; Out (Some ["excel"]) "gen" "DC OPF"] (Some ["0"; "1"]) four = Ok [s; s'] /\ cell_at s 3 3 = Some (Num 1) /\ cell_at s' 3 3 = None.
Proof. destruct C299_witness as (A & B & _). split; [exact A|]. split; [exact B|]. do 2 eexists. split; [vm_compute; reflexivity|]. split; reflexivity. Qed.

(* ------------------------------------------------------------------ *)
(** ** C301 *)
(** Writing ends.  Refuted: with a value of the first output that has no ID it
    never ends normally, whatever the other values are. *)
Theorem C301_no_id_refuted : forall outs o rest pt vs v g, filter wanted_in_excel outs = o :: rest -> o_problem o = "DC OPF" ->
  In (v, g) vs -> (forall c, In c g -> ch_key c <> "ID" /\ (ch_key c = "name" -> ch_val c = o_name o) /\ (ch_key c = "pt" -> values_of c = pt)) ->
  (forall v' g' c, In (v', g') vs -> In c g' -> ch_key c = "ID" -> ch_val c <> "") ->
  forall fuel sheets, save_results fuel outs (Some pt) vs <> Ok sheets.
Proof.
  intros outs o rest pt vs v g F P I G NE fuel sheets E. unfold save_results in E. change (filter (fun o => device_is o "excel") outs) with (filter wanted_in_excel outs) in E. rewrite F in E. cbn [foldM] in E. unfold save_step at 1 in E. rewrite P in E. change (String.eqb "DC OPF" "DC OPF") with true in E. cbv iota in E.
  cbn [snd] in E. destruct (opf_sheet fuel (o_name o) pt vs (repeat false (List.length vs))) as [z|] eqn:O; [|destruct pt; cbn in E; discriminate]. clear E. unfold opf_sheet in O.
  apply In_nth_error in I as (k & N). revert O. apply (rows_no_id _ _ _ _ v g k); [| | |exact N|].
  - destruct (column_of (columns (o_name o) (map snd vs)) "") eqn:C; [|reflexivity]. exfalso. destruct (columns_keys (o_name o) (map snd vs) "") as [X|[X|(g' & c & Ig & _ & Ic & K & V)]]; [congruence|discriminate|discriminate|].
    apply in_map_iff in Ig as ([v' g''] & Q0 & Ig). cbn in Q0. subst g''. exact (NE v' g' c Ig Ic K V).
  - unfold has_id. apply not_true_is_false. intros X. apply existsb_exists in X as (c & Ic & K). apply String.eqb_eq in K. destruct (G c Ic) as (A & _). auto.
  - unfold member_. apply forallb_forall. intros c Ic. destruct (G c Ic) as (_ & A & B). apply andb_true_iff. split.
    + destruct (String.eqb_spec (ch_key c) "name") as [K|K]; [|reflexivity]. rewrite (A K), String.eqb_refl. reflexivity.
    + destruct (String.eqb_spec (ch_key c) "pt") as [K|K]; [|reflexivity]. change (list_eqb (values_of c) pt = true). apply list_eqb_eq, B, K.
  - assert (LT : k < List.length vs) by (apply nth_error_Some; congruence). clear - LT. revert k LT. generalize (List.length vs) as m. induction m as [|m IH]; intros k LT; [lia|]. destruct k as [|k]; [reflexivity|]. cbn. apply IH. lia.
Qed.
Print Assumptions C301_no_id_refuted.
Example C301_witness : let g := [Cha "name" "cost" []; Cha "hour" "1" []; Cha "pt" "0" ["1"]] in
  (forall c, In c g -> ch_key c <> "ID" /\ (ch_key c = "name" -> ch_val c = "cost") /\ (ch_key c = "pt" -> values_of c = ["0"; "1"])) /\
  save_results 100 [Out (Some ["excel"]) "cost" "DC OPF"] (Some ["0"; "1"]) ((5%Q, g) :: four) = Err OutOfFuel.
Proof. cbv zeta. split; [|vm_compute; reflexivity]. intros c [<-|[<-|[<-|[]]]]; cbn; repeat split; intros; try discriminate; reflexivity. Qed.

(* ------------------------------------------------------------------ *)
(** ** C302 *)
(** Two values with the same name, place, hour and ID are both in the table.
    Refuted: the second one replaces the first. *)
Theorem C302_same_refuted : forall v v', v <> v' -> exists g s, described g "gen" (Cha "pt" "0" ["1"]) (Cha "hour" "1" []) "a" /\
  save_results 3 [Out (Some ["excel"]) "gen" "DC OPF"] (Some ["0"; "1"]) [(v, g); (v', g)] = Ok [s] /\ forall r c, cell_at s r c <> Some (Num v).
Proof.
  intros v v' D. exists (val_ "gen" "1" "a"). eexists. split; [apply val_described|]. split; [vm_compute; reflexivity|]. intros r c.
  destruct r as [|[|[|[|r]]]]; destruct c as [|[|[|[|c]]]]; cbn; congruence.
Qed.
Print Assumptions C302_same_refuted.
Example C302_witness : (7 # 1 <> 8 # 1)%Q.
Proof. discriminate. Qed.

(* ------------------------------------------------------------------ *)
(** ** C303 *)
(** Outputs of the balance tree are written.  Refuted: an output of the balance
    tree with a value that has more than a name ends with an exception, and
    nothing is saved for the other outputs. *)
Theorem C303_tree_refuted : forall outs o pt vs v g c n0, In o outs -> o_device o = Some ["excel"] -> o_problem o = "BT" ->
  In (v, g) vs -> In n0 g -> ch_key n0 = "name" -> ch_val n0 = o_name o -> In c g -> ch_key c <> "name" ->
  forall fuel, exists e, save_results fuel outs (Some pt) vs = Err e.
Proof.
  intros outs o pt vs v g c n0 Io D P I In0 K0 V0 Ic K fuel. unfold save_results.
  assert (N : named (o_name o) g = true) by (apply existsb_exists; exists n0; split; [exact In0|]; rewrite K0, V0, !String.eqb_refl; reflexivity).
  pose proof (tree_more (o_name o) (map snd vs) g c (in_map snd _ _ I) N Ic K) as T.
  destruct (foldM_fails (save_step fuel pt vs) (filter (fun o => device_is o "excel") outs) o) with (s := ([] : list sheet, repeat false (List.length vs))) as (e & E).
  - apply filter_In. split; [exact Io|]. unfold device_is. rewrite D. apply String.eqb_refl.
  - intros s. unfold save_step. rewrite P. change (String.eqb "BT" "DC OPF") with false. change (String.eqb "BT" "BT") with true. cbv iota. unfold tree_sheet. destruct (tree_columns (o_name o) (map snd vs)) as [|[k m] t]; [congruence|]. destruct (String.length k =? 2); eexists; reflexivity.
  - rewrite E. exists e. reflexivity.
Qed.
Print Assumptions C303_tree_refuted.
(** The exception is TypeError when the first column has a key of two characters, otherwise ValueError. *)
Theorem C303_exception : forall n v k x m more fuel, k <> "name" -> k <> "reference" ->
  save_results fuel [Out (Some ["excel"]) n "BT"] (Some ["0"]) [(v, [Cha "name" n m; Cha k x more])] = Err (if String.length k =? 2 then TypeError else ValueError).
Proof.
  intros n v k x m more fuel K1 K2. unfold save_results. cbn [filter device_is o_device]. change (String.eqb "excel" "excel") with true. cbv iota. cbn [foldM]. unfold save_step. cbn [o_problem o_name]. change (String.eqb "BT" "DC OPF") with false. change (String.eqb "BT" "BT") with true. cbv iota.
  assert (N : named n [Cha "name" n m; Cha k x more] = true) by (unfold named; cbn [existsb ch_key ch_val]; rewrite !String.eqb_refl; reflexivity).
  assert (T : tree_columns n (map snd [(v, [Cha "name" n m; Cha k x more])]) = [(k, 1)]).
  { unfold tree_columns. cbn [map snd fold_left]. rewrite N. cbn [fold_left ch_key ch_val find]. apply String.eqb_neq in K1, K2. rewrite K1, K2. reflexivity. }
  unfold tree_sheet. rewrite T. destruct (String.length k =? 2); reflexivity.
Qed.
Print Assumptions C303_exception.
Example C303_witness : save_results 9 [Out (Some ["excel"]) "gen" "DC OPF"; Out (Some ["excel"]) "cost" "BT"] (Some ["0"; "1"]) ((5%Q, [Cha "name" "cost" []; Cha "pt" "0" ["1"]; Cha "reference" "total" []]) :: four) = Err TypeError.
Proof. vm_compute. reflexivity. Qed.

(* ------------------------------------------------------------------ *)
(** ** C304 *)
(** A value is in the table whatever its ID is.  Refuted: with the ID "hour" it
    is lost, or the hour is. *)
Theorem C304_title_refuted : forall v, exists g s, described g "gen" (Cha "pt" "0" ["1"]) (Cha "hour" "1" []) "hour" /\
  (forall fuel, 2 <= fuel -> save_results fuel [Out (Some ["excel"]) "gen" "DC OPF"] (Some ["0"; "1"]) [(v, g)] = Ok [s]) /\ forall r c q, cell_at s r c <> Some (Num q).
Proof.
  intros v. exists (val_ "gen" "1" "hour"). eexists. split; [apply val_described|]. split; [intros [|[|f]] L; [lia|lia|]; vm_compute; reflexivity|]. intros r c q.
  destruct r as [|[|[|[|r]]]]; destruct c as [|[|[|[|c]]]]; cbn; congruence.
Qed.
Print Assumptions C304_title_refuted.
Theorem C304_hour_refuted : forall v, exists g s, described g "gen" (Cha "pt" "0" ["1"]) (Cha "hour" "1" []) "hour" /\
  (forall fuel, 2 <= fuel -> save_results fuel [Out (Some ["excel"]) "gen" "DC OPF"] (Some ["0"; "1"]) [(v, g)] = Ok [s]) /\ forall r c, cell_at s r c <> Some (Text "1").
Proof.
  intros v. exists [Cha "name" "gen" []; Cha "hour" "1" []; Cha "ID" "hour" []; Cha "pt" "0" ["1"]]. eexists. split.
  { unfold described. cbn. split; [|split; [exists []; auto|split; [auto|split; [reflexivity|split; [auto|split; [reflexivity|exists []; auto]]]]]]. repeat (constructor; [cbn; intuition discriminate|]). constructor. }
  split; [intros [|[|f]] L; [lia|lia|]; vm_compute; reflexivity|]. intros r c.
  destruct r as [|[|[|[|r]]]]; destruct c as [|[|[|[|c]]]]; cbn; congruence.
Qed.
Print Assumptions C304_hour_refuted.
Example C304_witness : 2 <= 3 /\ "hour" <> "pt".
Proof. split; [lia|discriminate]. Qed.

(* ------------------------------------------------------------------ *)
(** ** C305 *)
(** The table of an output has values of that output only.  Proved in C299 for
    values with names.  Refuted: a value without a name is put in the table of
    any output that has a value with its ID, and not in that of later ones. *)
Theorem C305_nameless_refuted : forall v v', exists g s s',
  (forall c, In c g -> ch_key c <> "name") /\
  save_results 3 [Out (Some ["excel"]) "gen" "DC OPF"; Out (Some ["excel"]) "flow" "DC OPF"] (Some ["0"; "1"]) [(v, val_ "gen" "1" "a"); (v', g); (v, val_ "flow" "1" "b")] = Ok [s; s'] /\
  cell_at s 1 1 = Some (Text "gen") /\ cell_at s 3 3 = Some (Num v').
Proof.
  intros v v'. exists [Cha "ID" "a" []; Cha "hour" "1" []; Cha "pt" "0" ["1"]]. do 2 eexists. split; [intros c [<-|[<-|[<-|[]]]]; discriminate|]. split; [vm_compute; reflexivity|]. split; reflexivity.
Qed.
Print Assumptions C305_nameless_refuted.
Example C305_witness : forall c, In c [Cha "ID" "a" []; Cha "hour" "1" []] -> ch_key c <> "name".
Proof. intros c [<-|[<-|[]]]; discriminate. Qed.

(* ------------------------------------------------------------------ *)
(** ** C327 *)
(** Every output that is asked for in a workbook has a sheet.  Proved in C299 for a model with a place.  Refuted: without the subscript "pt" in
    the model there is no sheet for any output, without an exception; and with an empty place an output of the DC OPF ends
    with IndexError, if the outputs of the workbook before it are written. *)
Theorem C327_no_subscript_refuted : forall fuel outs vs, exists sheets, save_results fuel outs None vs = Ok sheets /\ forall o, In o outs -> wanted_in_excel o = true -> List.length sheets < List.length (filter wanted_in_excel outs).
Proof.
  intros fuel outs vs. exists []. split; [reflexivity|]. intros o I W. cbn. destruct (filter wanted_in_excel outs) eqn:F; [|cbn; lia].
  assert (X : In o (filter wanted_in_excel outs)) by now apply filter_In. rewrite F in X. destruct X.
Qed.
Print Assumptions C327_no_subscript_refuted.
Theorem C327_empty_place_refuted : forall fuel outs before o after vs, filter wanted_in_excel outs = before ++ o :: after -> o_problem o = "DC OPF" ->
  (forall b, In b before -> o_problem b <> "DC OPF" /\ o_problem b <> "BT") -> save_results fuel outs (Some []) vs = Err IndexError.
Proof.
  intros fuel outs before o after vs F P B. unfold save_results. change (filter (fun o => device_is o "excel") outs) with (filter wanted_in_excel outs). rewrite F. clear F. generalize ([] : list sheet, repeat false (List.length vs)).
  induction before as [|b before IH]; intros s; cbn [app foldM].
  - unfold save_step at 1. rewrite P. reflexivity.
  - destruct (B b (or_introl eq_refl)) as (B1 & B2). apply String.eqb_neq in B1, B2. unfold save_step at 1. rewrite B1, B2. cbn [rbind]. apply IH. intros b' I. apply B. now right.
Qed.
Print Assumptions C327_empty_place_refuted.
Example C327_witness : wanted_in_excel (Out (Some ["excel"]) "gen" "DC OPF") = true /\ save_results 5 [Out (Some ["excel"]) "x" "AC"; Out (Some ["excel"]) "gen" "DC OPF"] (Some []) four = Err IndexError.
Proof. split; vm_compute; reflexivity. Qed.
