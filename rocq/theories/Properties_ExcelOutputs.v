(** Properties of the reader of workbooks: sheets with outputs and functions. *)
From Coq Require Import List String Ascii Bool Arith ZArith QArith Lia.
From Verif Require Import Base Outputs OutputsProofs ExcelSheet ExcelTree ExcelProfiles ExcelBook ExcelProofs Properties_ExcelBook ExcelOutputs Properties_Outputs.
Import ListNotations.
Open Scope string_scope.
Open Scope nat_scope.
Open Scope list_scope.

(* ------------------------------------------------------------------ *)
(** ** C306 *)
(** The cells of a row from a column on, up to the first empty one. *)
Definition has_cells (row : list (option cell)) (c : nat) (vs : list cell) : Prop :=
  (forall i v, nth_error vs i = Some v -> in_row row (c + i) = Some v) /\ in_row row (c + List.length vs) = None.
(** A list for all elements or for a variable. *)
Definition for_all_of (l : list cell) : Prop := exists s, l = [CStr s] /\ (s = "all" \/ In s variable_names).
Definition type_of_list (k t : string) : Prop := exists t0, data_type k = Some t0 /\
  In (t0, t) [("integer", "v_integer"); ("double", "v_double"); ("string", "v_string"); ("bool", "v_bool"); ("v_double", "v_double"); ("v_string", "v_string")].
(** The row of a block gives this characteristic: a list of its values. *)
Definition asks (row : list (option cell)) (c : charac) : Prop :=
  exists k vs, key_of row k /\ ((In k variable_names /\ ch_name c = k) \/ dget all_names k = Some (ch_name c)) /\ vs <> [] /\ has_cells row 2 vs /\
  ch_value c = VList (map output_value vs) /\
  ((for_all_of (map output_value vs) /\ ch_type c = "v_string") \/ (~ for_all_of (map output_value vs) /\ type_of_list k (ch_type c))).
(** The row says nothing: no text, an unknown one, or a title without values. *)
Definition still (row : list (option cell)) : Prop := quiet row \/ (in_row row 2 = None /\ ~ marks row "end").
Inductive asked : sheet -> list charac -> Prop :=
| asked_nil : asked [] []
| asked_row row rows c cs : asks row c -> asked rows cs -> asked (row :: rows) (c :: cs)
| asked_still row rows cs : still row -> asked rows cs -> asked (row :: rows) cs.
Inductive olaid : nat -> sheet -> list (list charac) -> Prop :=
| olaid_none k rows : (forall row, In row (firstn (20 - k) rows) -> ~ marks row "begin") -> olaid k rows []
| olaid_block k gap brow lrows erow rest cs css : (forall row, In row gap -> ~ marks row "begin") -> k + List.length gap < 20 -> marks brow "begin" -> asked lrows cs -> marks erow "end" ->
    olaid 1 rest css -> olaid k (gap ++ brow :: lrows ++ erow :: rest) (cs :: css).

Lemma general_iff l : general l = true <-> for_all_of l.
Proof.
  unfold general, for_all_of. destruct l as [|[s|z|q|b] [|y l]]; split; try discriminate; try (intros (s' & E & _); discriminate E).
  - intros H. exists s. split; [reflexivity|]. apply orb_true_iff in H as [H|H]; [left; now apply String.eqb_eq|right; now apply member_In].
  - intros (s' & E & H). injection E as <-. apply orb_true_iff. destruct H as [->|H]; [left; reflexivity|right; now apply member_In].
Qed.
Lemma list_type_ok k t : type_of_list k t -> list_type k = Ok t.
Proof. intros (t0 & D & I). unfold list_type. rewrite D. cbn in I. decompose [or] I; try contradiction; match goal with H : (_, _) = _ |- _ => injection H as <- <- end; reflexivity. Qed.
Lemma asks_ok row c cs : asks row c -> output_row cs row = Ok (cs ++ [c], false).
Proof.
  intros (k & vs & (s & R & K) & N & NE & (V & E) & VC & T). unfold output_row. rewrite R. cbv zeta. rewrite K.
  assert (NM : known all_names k || member variable_names k = true /\ (if member variable_names k then k else match dget all_names k with Some n => n | None => k end) = ch_name c).
  { destruct N as [(I & ->)|D]; [apply member_In in I; rewrite I; now rewrite orb_true_r|]. unfold known. rewrite (variables_apart _ _ D), D. auto. }
  destruct NM as (-> & ->). rewrite (across_spec row 2 vs) by (auto; lia). destruct c as [cn cv ct]. cbn [ch_name ch_value ch_type] in *. subst cv.
  destruct (map output_value vs) as [|w ws] eqn:M; [destruct vs; [congruence|discriminate]|].
  destruct T as [(G & ->)|(G & T)]; [rewrite (proj2 (general_iff _) G); reflexivity|]. destruct (general (w :: ws)) eqn:GG; [apply general_iff in GG; contradiction|]. rewrite (list_type_ok _ _ T). reflexivity.
Qed.
Lemma across_none row c : 1 <= c -> in_row row c = None -> across row c = [].
Proof. intros L H. apply (across_spec row c []); [exact L|intros i v X; destruct i; discriminate|]. cbn. now rewrite Nat.add_0_r. Qed.
Lemma still_ok row cs : still row -> output_row cs row = Ok (cs, false).
Proof.
  intros [Q|(N & E)]; unfold output_row, quiet in *.
  - destruct (in_row row 1) as [[s| | |]|]; try reflexivity. destruct (Q s eq_refl) as (A & B & C). cbv zeta. unfold known. rewrite A. destruct (member variable_names (lower (plain s))) eqn:M; [apply member_In in M; contradiction|]. cbn [orb]. do 2 f_equal. now apply String.eqb_neq.
  - destruct (in_row row 1) as [[s| | |]|] eqn:R; try reflexivity. cbv zeta. rewrite (across_none row 2 ltac:(lia) N). cbn [map]. destruct (known all_names _ || _); [reflexivity|]. do 2 f_equal. apply String.eqb_neq. intros X. apply E. exists s. auto.
Qed.
Lemma oend_ok row cs : marks row "end" -> output_row cs row = Ok (cs, true).
Proof. intros (s & R & E). unfold output_row. rewrite R. cbv zeta. rewrite E. reflexivity. Qed.
Lemma asked_ok rows cs : asked rows cs -> forall cs0 rest acc, output_rows (rows ++ rest) (Block cs0) acc = output_rows rest (Block (cs0 ++ cs)) acc.
Proof.
  induction 1 as [|row rows c cs G L IH|row rows cs Q L IH]; intros cs0 rest acc.
  - now rewrite app_nil_r.
  - cbn [app output_rows]. rewrite (asks_ok _ _ _ G). cbn [rbind fst snd]. rewrite IH, <- app_assoc. reflexivity.
  - cbn [app output_rows]. rewrite (still_ok _ _ Q). cbn [rbind fst snd]. apply IH.
Qed.
Lemma ogap_ok gap : forall k rest acc, (forall row, In row gap -> ~ marks row "begin") -> k + List.length gap <= 20 -> output_rows (gap ++ rest) (Between k) acc = output_rows rest (Between (k + List.length gap)) acc.
Proof.
  induction gap as [|row gap IH]; intros k rest acc G L; cbn [app List.length] in *; [now rewrite Nat.add_0_r|]. cbn [output_rows]. rewrite (proj2 (Nat.ltb_lt k 20)) by lia.
  destruct (is_begin (in_row row 1)) eqn:E; [apply is_begin_iff in E; exfalso; apply (G row); auto; now left|]. rewrite IH by (try lia; intros r R; apply G; now right). f_equal. f_equal. lia.
Qed.
Lemma olaid_ok k rows css : olaid k rows css -> forall acc, output_rows rows (Between k) acc = Ok (acc ++ filter nonempty css).
Proof.
  induction 1 as [k rows N|k gap brow lrows erow rest cs css G L B LI E C IH]; intros acc.
  - cbn [filter]. rewrite app_nil_r. revert k N. induction rows as [|row rows IH]; intros k N; [reflexivity|]. cbn [output_rows]. destruct (Nat.ltb_spec k 20) as [K|K]; [|reflexivity].
    replace (20 - k) with (S (20 - S k)) in N by lia. cbn [firstn] in N. destruct (is_begin (in_row row 1)) eqn:E; [apply is_begin_iff in E; exfalso; apply (N row); auto; now left|]. apply IH. intros r R. apply N. now right.
  - rewrite ogap_ok by (auto; lia). cbn [output_rows]. rewrite (proj2 (Nat.ltb_lt _ 20) L), (proj2 (is_begin_iff _) B), (asked_ok _ _ LI). cbn [output_rows app]. rewrite (oend_ok _ _ E). cbn [rbind fst snd]. rewrite IH. destruct cs as [|c cs]; cbn [filter nonempty]; [reflexivity|]. now rewrite <- app_assoc.
Qed.
(** A sheet with blocks gives one output for each block that says something, in order. *)
Theorem C306_outputs : forall acc first rows css, olaid 0 rows css -> read_outputs acc (first :: rows) = Ok (acc ++ filter nonempty css).
Proof. intros acc first rows css H. unfold read_outputs. cbn [skipn]. now apply olaid_ok. Qed.
Print Assumptions C306_outputs.
(** A block without an end is never read. *)
Theorem C306_no_end : forall acc first gap brow rest, (forall row, In row gap -> ~ marks row "begin") -> List.length gap < 20 -> marks brow "begin" -> (forall row, In row rest -> ~ marks row "end") ->
  forall l, read_outputs acc (first :: gap ++ brow :: rest) <> Ok l.
Proof.
  intros acc first gap brow rest G L B N l. unfold read_outputs. cbn [skipn]. rewrite ogap_ok by (auto; lia). cbn [Nat.add output_rows]. rewrite (proj2 (Nat.ltb_lt _ 20) L), (proj2 (is_begin_iff _) B).
  generalize (@nil charac) as cs. induction rest as [|row rest IH]; intros cs E; [discriminate|]. cbn [output_rows] in E. destruct (output_row cs row) as [[cs' o]|] eqn:R; [|discriminate]. cbn [rbind fst snd] in E.
  assert (O : o = false).
  { destruct o; [|reflexivity]. exfalso. apply (N row); [now left|]. unfold output_row in R. destruct (in_row row 1) as [[s| | |]|] eqn:I; try discriminate. cbv zeta in R. destruct (_ || _).
    - destruct (map output_value (across row 2)); [discriminate|]. match type of R with context [if ?g then _ else _] => destruct g end; [discriminate|]. destruct (list_type _); discriminate.
    - injection R as _ R. apply String.eqb_eq in R. exists s. auto. }
  subst o. apply (IH (fun r Ir => N r (or_intror Ir)) cs' E).
Qed.
Print Assumptions C306_no_end.
Local Definition row_ (k : string) (vs : list string) : list (option cell) := Some (CStr k) :: map (fun s => Some (CStr s)) vs.
Local Lemma row_key k vs : key_of (row_ k vs) (lower (plain k)).
Proof. exists k. split; reflexivity. Qed.
Local Lemma row_cells k vs : has_cells (row_ k vs) 2 (map CStr vs).
Proof.
  unfold has_cells, row_, in_row. cbn [Nat.add]. split.
  - intros i v H. replace (S (S i) - 1) with (S i) by lia. cbn [nth]. rewrite nth_error_map in H. destruct (nth_error vs i) as [w|] eqn:W; [|discriminate]. injection H as <-. apply nth_error_nth with (d := None). now rewrite nth_error_map, W.
  - rewrite map_length. replace (S (S (List.length vs)) - 1) with (S (List.length vs)) by lia. cbn [nth]. apply nth_overflow. now rewrite map_length.
Qed.
Local Definition wanted_sheet : sheet := [row_ "outputs" []; row_ "begin" []; row_ "Data device" ["Excel"]; []; row_ "Name" ["Active power flow"]; row_ "Problem" ["DC OPF"]; row_ "notes" ["x"]; row_ "end" []].
Local Definition wanted_chars : list charac := [mkChar "data device" (VList [CStr "excel"]) "v_string"; mkChar "name" (VList [CStr "active power flow"]) "v_string"; mkChar "problem" (VList [CStr "DC OPF"]) "v_string"].
Example C306_witness : olaid 0 (skipn 1 wanted_sheet) [wanted_chars] /\ read_outputs [] wanted_sheet = Ok [wanted_chars].
Proof.
  split; [|vm_compute; reflexivity]. cbn [skipn wanted_sheet].
  apply (olaid_block 0 [] (row_ "begin" []) [row_ "Data device" ["Excel"]; []; row_ "Name" ["Active power flow"]; row_ "Problem" ["DC OPF"]; row_ "notes" ["x"]] (row_ "end" []) [] wanted_chars []).
  - intros r [].
  - cbn. lia.
  - exists "begin". split; reflexivity.
  - apply asked_row; [|apply asked_still; [|apply asked_row; [|apply asked_row; [|apply asked_still; [|constructor]]]]].
    + exists "data device", [CStr "Excel"]. split; [exact (row_key "Data device" ["Excel"])|]. split; [right; reflexivity|]. split; [discriminate|]. split; [exact (row_cells "Data device" ["Excel"])|]. split; [reflexivity|]. right. split; [|exists "string"; split; [reflexivity|cbn; auto]]. intros (s & E & H). injection E as <-. cbn in H. intuition discriminate.
    + left. intros s H. discriminate.
    + exists "name", [CStr "Active power flow"]. split; [exact (row_key "Name" ["Active power flow"])|]. split; [right; reflexivity|]. split; [discriminate|]. split; [exact (row_cells "Name" ["Active power flow"])|]. split; [reflexivity|]. left. split; [|reflexivity]. exists "active power flow". split; [reflexivity|]. right. cbn. auto 20.
    + exists "problem", [CStr "DC OPF"]. split; [exact (row_key "Problem" ["DC OPF"])|]. split; [right; reflexivity|]. split; [discriminate|]. split; [exact (row_cells "Problem" ["DC OPF"])|]. split; [reflexivity|]. right. split; [|exists "string"; split; [reflexivity|cbn; auto]]. intros (s & E & H). injection E as <-. cbn in H. intuition discriminate.
    + left. intros s H. injection H as <-. split; [reflexivity|]. split; [|discriminate]. cbn. intuition discriminate.
  - exists "end". split; reflexivity.
  - apply olaid_none. intros r [].
Qed.

(* ------------------------------------------------------------------ *)
(** ** C307 *)
(** The ID of an output is the text of its cell.  Refuted: every text that is
    no known name is turned into lower case. *)
Theorem C307_case_refuted : forall s, dget all_names (lower s) = None -> plain s = s -> lower s <> s ->
  exists t, read_outputs [] [row_ "outputs" []; row_ "begin" []; row_ "ID" [s]; row_ "end" []] = Ok [[mkChar "ID" (VList [CStr t]) "v_string"]] /\ t <> s.
Proof.
  intros s D P L. exists (lower s). split; [|exact L]. unfold read_outputs, row_. cbn [skipn map output_rows]. rewrite (proj2 (Nat.ltb_lt 0 20)) by lia. cbn [in_row Nat.sub nth is_begin]. change (plain "begin") with "begin". change (String.eqb "begin" "begin") with true. cbv iota.
  assert (R : output_row [] [Some (CStr "ID"); Some (CStr s)] = Ok ([mkChar "ID" (VList [CStr (lower s)]) "v_string"], false)).
  { unfold output_row. cbn [in_row Nat.sub nth]. change (lower (plain "ID")) with "id". cbv zeta. change (known all_names "id") with true. change (member variable_names "id") with false. cbn [orb]. change (dget all_names "id") with (Some "ID"). unfold across. cbn [skipn Nat.sub until_empty map output_value]. rewrite P, D.
    match goal with |- context [general ?l] => destruct (general l); reflexivity end. }
  rewrite R. cbn [rbind fst snd]. reflexivity.
Qed.
Print Assumptions C307_case_refuted.
(** It is replaced by the name of a parameter when it is a known name. *)
Theorem C307_known_refuted : forall s t, dget all_names (lower (plain s)) = Some t -> t <> s ->
  exists cs, read_outputs [] [row_ "outputs" []; row_ "begin" []; row_ "ID" [s]; row_ "end" []] = Ok [cs] /\ get_char cs "ID" = VList [CStr t] /\ get_char cs "ID" <> VList [CStr s].
Proof.
  intros s t D N. exists [mkChar "ID" (VList [CStr t]) "v_string"]. split; [|split; [reflexivity|unfold get_char; cbn; congruence]]. unfold read_outputs, row_. cbn [skipn map output_rows]. rewrite (proj2 (Nat.ltb_lt 0 20)) by lia. cbn [in_row Nat.sub nth is_begin]. change (plain "begin") with "begin". change (String.eqb "begin" "begin") with true. cbv iota.
  assert (R : output_row [] [Some (CStr "ID"); Some (CStr s)] = Ok ([mkChar "ID" (VList [CStr t]) "v_string"], false)).
  { unfold output_row. cbn [in_row Nat.sub nth]. change (lower (plain "ID")) with "id". cbv zeta. change (known all_names "id") with true. change (member variable_names "id") with false. cbn [orb]. change (dget all_names "id") with (Some "ID"). unfold across. cbn [skipn Nat.sub until_empty map output_value]. rewrite D.
    match goal with |- context [general ?l] => destruct (general l); reflexivity end. }
  rewrite R. cbn [rbind fst snd]. reflexivity.
Qed.
Print Assumptions C307_known_refuted.
Example C307_witness : dget all_names (lower "Gen1") = None /\ plain "Gen1" = "Gen1" /\ lower "Gen1" <> "Gen1" /\ dget all_names (lower (plain "B")) = Some "LCsusceptance".
Proof. repeat split; discriminate. Qed.

(* ------------------------------------------------------------------ *)
(** ** C308 *)
(** Variables can be rows of outputs.  Refuted: a variable with a list that is
    not for all elements ends with TypeError, wherever it stands. *)
Theorem C308_variable_refuted : forall acc first gap brow lrows cs row rest k vs, (forall r, In r gap -> ~ marks r "begin") -> List.length gap < 20 -> marks brow "begin" -> asked lrows cs ->
  key_of row k -> In k variable_names -> vs <> [] -> has_cells row 2 vs -> ~ for_all_of (map output_value vs) ->
  read_outputs acc (first :: gap ++ brow :: lrows ++ row :: rest) = Err TypeError.
Proof.
  intros acc first gap brow lrows cs row rest k vs G L B LI (s & R & K) I NE (V & E) NF. unfold read_outputs. cbn [skipn]. rewrite ogap_ok by (auto; lia). cbn [Nat.add output_rows]. rewrite (proj2 (Nat.ltb_lt _ 20) L), (proj2 (is_begin_iff _) B), (asked_ok _ _ LI). cbn [output_rows app].
  assert (X : output_row cs row = Err TypeError); [|now rewrite X]. unfold output_row. rewrite R. cbv zeta. rewrite K. assert (M : member variable_names k = true) by now apply member_In. rewrite M, orb_true_r, (across_spec row 2 vs) by (auto; lia).
  destruct (map output_value vs) as [|w ws] eqn:MM; [destruct vs; [congruence|discriminate]|]. destruct (general (w :: ws)) eqn:GG; [apply general_iff in GG; contradiction|].
  assert (D : data_type k = None). { assert (A : forallb (fun v => match data_type v with None => true | Some _ => false end) variable_names = true) by reflexivity. rewrite forallb_forall in A. specialize (A k I). destruct (data_type k); [discriminate|reflexivity]. }
  unfold list_type. rewrite D. reflexivity.
Qed.
Print Assumptions C308_variable_refuted.
Example C308_witness : read_outputs [] [row_ "outputs" []; row_ "begin" []; row_ "Name" ["flow"]; row_ "Flow" ["1"; "2"]; row_ "end" []] = Err TypeError /\ ~ for_all_of (map output_value [CStr "1"; CStr "2"]).
Proof. split; [vm_compute; reflexivity|]. intros (s & E & _). discriminate. Qed.

(* ------------------------------------------------------------------ *)
(** ** C309 *)
(** A block that asks for a variable of a problem in a workbook opens the
    workbook and gives its table: what is read is what the writer looks for. *)
Theorem C309_to_workbook : forall acc first rows css cs v p, olaid 0 rows css -> In cs css ->
  In (mkChar "data device" (VList [CStr "excel"]) "v_string") cs -> In (mkChar "name" (VList [CStr v]) "v_string") cs -> In (mkChar "problem" (VList [CStr p]) "v_string") cs -> NoDup (map ch_name cs) ->
  exists outs, read_outputs acc (first :: rows) = Ok outs /\ In (Out (Some ["excel"]) v p) (map out_of outs) /\ snd (open_files (map out_of outs)) = true.
Proof.
  intros acc first rows css cs v p H I D N P ND. rewrite (C306_outputs acc first rows css H). eexists. split; [reflexivity|].
  assert (G : forall c, In c cs -> has_char cs (ch_name c) = true /\ get_char cs (ch_name c) = ch_value c).
  { intros c Ic. split; [apply existsb_exists; exists c; split; [exact Ic|apply String.eqb_refl]|]. unfold get_char. destruct (find _ cs) as [d|] eqn:F.
    - apply find_some in F as (Id & E). apply String.eqb_eq in E. assert (d = c) as ->; [|reflexivity]. clear - ND Id Ic E. induction cs as [|x cs IH]; [destruct Ic|]. cbn in ND. inversion ND as [|? ? NI ND']; subst. destruct Id as [->|Id], Ic as [->|Ic]; auto; exfalso; apply NI; [rewrite E|rewrite <- E]; now apply in_map.
    - apply (find_none _ _ F) in Ic. rewrite String.eqb_refl in Ic. discriminate. }
  assert (O : In (Out (Some ["excel"]) v p) (map out_of (acc ++ filter nonempty css))).
  { apply in_map_iff. exists cs. split.
    - destruct (G _ D) as (D1 & D2), (G _ N) as (N1 & N2), (G _ P) as (P1 & P2). cbn [ch_name ch_value] in *. unfold out_of, first_text. rewrite D1, D2, N1, N2, P1, P2. reflexivity.
    - apply in_app_iff. right. apply filter_In. split; [exact I|]. destruct cs; [destruct D|reflexivity]. }
  split; [exact O|]. apply C298_opened. exists (Out (Some ["excel"]) v p). split; [exact O|reflexivity].
Qed.
Print Assumptions C309_to_workbook.
Example C309_witness : NoDup (map ch_name wanted_chars) /\ In (mkChar "name" (VList [CStr "active power flow"]) "v_string") wanted_chars /\ map out_of [wanted_chars] = [Out (Some ["excel"]) "active power flow" "DC OPF"].
Proof. split; [|split; [cbn; auto|reflexivity]]. repeat (constructor; [cbn; intuition discriminate|]). constructor. Qed.

(* ------------------------------------------------------------------ *)
(** ** C310 *)
(** The parameter that a title means, and the type of its values. *)
Definition means (s n t : string) : Prop := dget all_names (lower (plain s)) = Some n /\ known unique_names (lower (plain s)) = true /\ data_type (lower (plain s)) = Some t.
Definition means_list (s n t : string) : Prop := dget all_names (lower (plain s)) = Some n /\ known unique_names (lower (plain s)) = false /\ data_type (lower (plain s)) = Some t.
(** A function: the values below the single titles, then the name of the list and its coefficients, which are all other values of the row. *)
Inductive function_of : list (string * string * string) -> string -> string -> list cell -> list charac -> Prop :=
| function_coefs n t vs : function_of [] n t vs [mkChar "name" (VCell (CStr n)) "string"; mkChar "coefficients" (VList (map function_value vs)) t]
| function_single s m u us n t v vs cs : function_of us n t vs cs -> function_of ((s, m, u) :: us) n t (v :: vs) (mkChar m (VCell (function_value v)) u :: cs).
Inductive function_lines (us : list (string * string * string)) (n t : string) : sheet -> list (list charac) -> Prop :=
| flines_nil : function_lines us n t [] []
| flines_row row rows vs cs css : has_cells row 1 vs -> ~ (exists r, vs = CStr "end" :: r) -> function_of us n t vs cs -> function_lines us n t rows css -> function_lines us n t (row :: rows) (cs :: css).
(** Blocks of functions: the titles are single ones, at least one, and a list at the end. *)
Inductive flaid : nat -> sheet -> list (list charac) -> Prop :=
| flaid_none k rows : (forall row, In row (firstn (20 - k) rows) -> ~ marks row "begin") -> flaid k rows []
| flaid_block k gap brow trow us l n t lrows erow rest css css' : (forall row, In row gap -> ~ marks row "begin") -> k + List.length gap < 20 -> marks brow "begin" ->
    has_cells trow 1 (map CStr (map (fun x => fst (fst x)) us ++ [l])) -> us <> [] -> (forall s m u, In (s, m, u) us -> means s m u) -> means_list l n t ->
    function_lines us n t lrows css -> in_row erow 1 = Some (CStr "end") -> flaid 1 rest css' -> flaid k (gap ++ brow :: trow :: lrows ++ erow :: rest) (css ++ css').

Lemma known_app a b k : known (a ++ b) k = known a k || known b k.
Proof. unfold known. induction a as [|[x y] a IH]; cbn [app dget]; [reflexivity|]. destruct (dget (a ++ b) k), (dget a k), (dget b k); cbn in IH |- *; try discriminate; destruct (k =? x)%string; reflexivity. Qed.
Lemma known_list k n : dget all_names k = Some n -> known unique_names k = false -> known list_names k = true.
Proof. intros D U. assert (A : known all_names k = true) by (unfold known; now rewrite D). unfold all_names in A. rewrite known_app, U in A. exact A. Qed.
Lemma titles_ok fstr us l n t : (forall s m u, In (s, m, u) us -> means s m u) -> means_list l n t -> forall orig,
  function_titles fstr orig (map CStr (map (fun x => fst (fst x)) us ++ [l])) = Ok (Some (plain l), map (fun x => (plain (fst (fst x)), snd (fst x))) us ++ [(plain l, n)]).
Proof.
  intros U (L1 & L2 & L3). induction us as [|[[s m] u] us IH]; intros orig; cbn [map app function_titles fst snd].
  - cbv zeta. rewrite L1. reflexivity.
  - destruct (U s m u (or_introl eq_refl)) as (A & B & C). cbv zeta. rewrite A, (IH (fun s' m' u' I => U s' m' u' (or_intror I))). reflexivity.
Qed.
Lemma cells_ok us n t vs cs : function_of us n t vs cs -> forall l pre cs0 done, (forall s m u, In (s, m, u) us -> means s m u) -> means_list l n t ->
  function_cells (pre ++ map function_value vs) (List.length pre) (List.length pre + List.length us + 1) (map (fun x => (plain (fst (fst x)), snd (fst x))) us ++ [(plain l, n)]) cs0 done = Ok ([], done ++ [cs0 ++ cs], false).
Proof.
  induction 1 as [n t vs|s m u us n t v vs cs F IH]; intros l pre cs0 done U (L1 & L2 & L3).
  - cbn [map app function_cells List.length]. cbv zeta. rewrite L2, (known_list _ _ L1 L2), L3. replace (List.length pre + 1 =? List.length pre + 0 + 1) with true by (symmetry; apply Nat.eqb_eq; lia). rewrite skipn_app, skipn_all, Nat.sub_diag. reflexivity.
  - cbn [map app function_cells List.length fst snd]. cbv zeta. destruct (U s m u (or_introl eq_refl)) as (A & B & C). rewrite B, C. rewrite nth_error_app2, Nat.sub_diag by lia. cbn [nth_error].
    specialize (IH l (pre ++ [function_value v]) (cs0 ++ [mkChar m (VCell (function_value v)) u]) done (fun s' m' u' I => U s' m' u' (or_intror I)) (conj L1 (conj L2 L3))). rewrite <- !app_assoc, app_length in IH. cbn [app List.length] in IH.
    replace (List.length pre + 1) with (S (List.length pre)) in IH at 1 by lia. replace (List.length pre + 1 + List.length us + 1) with (List.length pre + S (List.length us) + 1) in IH by lia. exact IH.
Qed.
Lemma frow fstr row rest names cs orig nub acc : in_row row 1 <> Some (CStr "end") ->
  function_rows fstr (row :: rest) (FRows names cs) orig nub acc =
  do z <- function_cells (map function_value (across row 1)) 0 (List.length names) names cs []; if snd z then Ok (acc ++ snd (fst z)) else function_rows fstr rest (FRows names (fst (fst z))) orig true (acc ++ snd (fst z)).
Proof.
  intros NE. cbn [function_rows]. destruct (in_row row 1) as [[s| | |]|]; try reflexivity.
  repeat (match goal with |- match ?x with EmptyString => _ | String _ _ => _ end = _ => destruct x | |- (match ?a with Ascii _ _ _ _ _ _ _ _ => _ end) = _ => destruct a as [[] [] [] [] [] [] [] []] end; try reflexivity). exfalso. now apply NE.
Qed.
Lemma not_end_row row vs : has_cells row 1 vs -> ~ (exists r, vs = CStr "end" :: r) -> in_row row 1 <> Some (CStr "end").
Proof. intros (V & E) NE Y. apply NE. destruct vs as [|v vs]; [cbn in E; congruence|]. pose proof (V 0 v eq_refl) as V0. cbn in V0. exists vs. congruence. Qed.
Lemma flines_prefix fstr us l n t rows css : (forall s m u, In (s, m, u) us -> means s m u) -> means_list l n t -> function_lines us n t rows css -> forall tail orig nub acc, exists nub',
  function_rows fstr (rows ++ tail) (FRows (map (fun x => (plain (fst (fst x)), snd (fst x))) us ++ [(plain l, n)]) []) orig nub acc =
  function_rows fstr tail (FRows (map (fun x => (plain (fst (fst x)), snd (fst x))) us ++ [(plain l, n)]) []) orig nub' (acc ++ css).
Proof.
  intros U L. induction 1 as [|row rows vs cs css HC NE F FL IH]; intros tail orig nub acc.
  - exists nub. now rewrite app_nil_r.
  - pose proof (cells_ok us n t vs cs F l [] [] [] U L) as C. cbn [app List.length Nat.add] in C.
    destruct (IH tail orig true (acc ++ [cs])) as (nub' & X). exists nub'. rewrite <- app_assoc in X. cbn [app] in X. rewrite <- X. cbn [app]. rewrite frow by (eapply not_end_row; eauto). rewrite app_length, map_length. cbn [List.length].
    destruct HC as (V & E). rewrite (across_spec row 1 vs) by (auto; lia). rewrite C. reflexivity.
Qed.
Lemma flines_ok fstr us l n t rows css : (forall s m u, In (s, m, u) us -> means s m u) -> means_list l n t -> function_lines us n t rows css -> forall erow rest orig nub acc, in_row erow 1 = Some (CStr "end") -> exists nub',
  function_rows fstr (rows ++ erow :: rest) (FRows (map (fun x => (plain (fst (fst x)), snd (fst x))) us ++ [(plain l, n)]) []) orig nub acc = function_rows fstr rest (FBetween 1) orig nub' (acc ++ css).
Proof.
  intros U L F erow rest orig nub acc EE. destruct (flines_prefix fstr us l n t rows css U L F (erow :: rest) orig nub acc) as (nub' & X). exists nub'. rewrite X. cbn [function_rows]. now rewrite EE.
Qed.
Lemma fgap_ok fstr gap : forall k rest orig nub acc, (forall row, In row gap -> ~ marks row "begin") -> k + List.length gap <= 20 -> function_rows fstr (gap ++ rest) (FBetween k) orig nub acc = function_rows fstr rest (FBetween (k + List.length gap)) orig nub acc.
Proof.
  induction gap as [|row gap IH]; intros k rest orig nub acc G L; cbn [app List.length] in *; [now rewrite Nat.add_0_r|]. cbn [function_rows]. rewrite (proj2 (Nat.ltb_lt k 20)) by lia.
  destruct (is_begin (in_row row 1)) eqn:E; [apply is_begin_iff in E; exfalso; apply (G row); auto; now left|]. rewrite IH by (try lia; intros r R; apply G; now right). f_equal. f_equal. lia.
Qed.
Lemma flaid_ok fstr k rows css : flaid k rows css -> forall orig nub acc, function_rows fstr rows (FBetween k) orig nub acc = Ok (acc ++ css).
Proof.
  induction 1 as [k rows N|k gap brow trow us l n t lrows erow rest css css' G L B (T & T') NE U ML FL E C IH]; intros orig nub acc.
  - rewrite app_nil_r. revert k N. induction rows as [|row rows IH]; intros k N; [reflexivity|]. cbn [function_rows]. destruct (Nat.ltb_spec k 20) as [K|K]; [|reflexivity].
    replace (20 - k) with (S (20 - S k)) in N by lia. cbn [firstn] in N. destruct (is_begin (in_row row 1)) eqn:E; [apply is_begin_iff in E; exfalso; apply (N row); auto; now left|]. apply IH. intros r R. apply N. now right.
  - rewrite fgap_ok by (auto; lia). cbn [function_rows]. rewrite (proj2 (Nat.ltb_lt _ 20) L), (proj2 (is_begin_iff _) B), (across_spec trow 1 _ ltac:(lia) T T'), (titles_ok fstr us l n t U ML). cbn [rbind fst snd].
    destruct (flines_ok fstr us l n t lrows css U ML FL erow rest (Some (plain l)) nub acc E) as (nub' & X).
    destruct us as [|x us]; [congruence|]. cbn [map app] in X |- *. destruct (map _ us ++ [(plain l, n)]) as [|y r] eqn:Y; [destruct us; discriminate|]. rewrite X, IH, app_assoc. reflexivity.
Qed.
(** Every row of a block gives a function with its values and coefficients. *)
Theorem C310_functions : forall fstr acc first rows css, flaid 0 rows css -> read_functions fstr acc (first :: rows) = Ok (acc ++ css).
Proof. intros fstr acc first rows css H. unfold read_functions. cbn [skipn]. now apply flaid_ok. Qed.
Print Assumptions C310_functions.
Local Definition fun_sheet : sheet := [row_ "functions" []; row_ "begin" []; row_ "ID" ["Pieces"; "Cost function"]; [Some (CStr "G1"); Some (CInt 2); Some (CNum (1 # 2)); Some (CInt 7)]; [Some (CStr "G2"); Some (CInt 1); Some (CInt 3)]; row_ "end" []].
Local Definition fun_chars : list (list charac) :=
  [[mkChar "ID" (VCell (CStr "G1")) "string"; mkChar "pieces" (VCell (CInt 2)) "integer"; mkChar "name" (VCell (CStr "cost function")) "string"; mkChar "coefficients" (VList [CNum (1 # 2); CInt 7]) "v_double"];
   [mkChar "ID" (VCell (CStr "G2")) "string"; mkChar "pieces" (VCell (CInt 1)) "integer"; mkChar "name" (VCell (CStr "cost function")) "string"; mkChar "coefficients" (VList [CInt 3]) "v_double"]].
Example C310_witness : flaid 0 (skipn 1 fun_sheet) fun_chars /\ read_functions (fun _ => "") [] fun_sheet = Ok fun_chars.
Proof.
  split; [|vm_compute; reflexivity]. cbn [skipn fun_sheet]. rewrite <- (app_nil_r fun_chars).
  apply (flaid_block 0 [] (row_ "begin" []) (row_ "ID" ["Pieces"; "Cost function"]) [("ID", "ID", "string"); ("Pieces", "pieces", "integer")] "Cost function" "cost function" "v_double" [[Some (CStr "G1"); Some (CInt 2); Some (CNum (1 # 2)); Some (CInt 7)]; [Some (CStr "G2"); Some (CInt 1); Some (CInt 3)]] (row_ "end" []) [] fun_chars []).
  - intros r [].
  - cbn. lia.
  - exists "begin". split; reflexivity.
  - split; [|reflexivity]. intros [|[|[|i]]] v E; cbn in E; try (injection E as <-; reflexivity). destruct i; discriminate.
  - discriminate.
  - intros s m u [E|[E|[]]]; injection E as <- <- <-; repeat split; reflexivity.
  - repeat split; reflexivity.
  - apply (flines_row _ _ _ _ _ [CStr "G1"; CInt 2; CNum (1 # 2); CInt 7]).
    + split; [|reflexivity]. intros [|[|[|[|i]]]] v E; cbn in E; try (injection E as <-; reflexivity). destruct i; discriminate.
    + intros (r & E). discriminate.
    + do 2 constructor. apply function_coefs.
    + apply (flines_row _ _ _ _ _ [CStr "G2"; CInt 1; CInt 3]).
      * split; [|reflexivity]. intros [|[|[|i]]] v E; cbn in E; try (injection E as <-; reflexivity). destruct i; discriminate.
      * intros (r & E). discriminate.
      * do 2 constructor. apply function_coefs.
      * constructor.
  - reflexivity.
  - apply flaid_none. intros r [].
Qed.

(* ------------------------------------------------------------------ *)
(** ** C311 *)
(** Functions with one title per row can be read.  Refuted: a first block with
    one known title always ends with an exception. *)
Theorem C311_single_refuted : forall fstr acc first gap brow trow rest s, (forall row, In row gap -> ~ marks row "begin") -> List.length gap < 20 -> marks brow "begin" ->
  has_cells trow 1 [CStr s] -> dget all_names (lower (plain s)) <> None ->
  read_functions fstr acc (first :: gap ++ brow :: trow :: rest) = Err (if known unique_names (lower (plain s)) then AttributeError else UnboundLocalError).
Proof.
  intros fstr acc first gap brow trow rest s G L B (V & E) D. unfold read_functions. cbn [skipn]. rewrite fgap_ok by (auto; lia). cbn [Nat.add function_rows]. rewrite (proj2 (Nat.ltb_lt _ 20) L), (proj2 (is_begin_iff _) B), (across_spec trow 1 [CStr s]) by (auto; lia).
  cbn [function_titles]. cbv zeta. destruct (dget all_names (lower (plain s))) as [n|] eqn:A; [|congruence]. cbn [rbind fst snd].
  pose proof (V 0 (CStr s) eq_refl) as V0. cbn in V0, E. assert (X : single_row false [] trow = Err (if known unique_names (lower (plain s)) then AttributeError else UnboundLocalError)); [|now rewrite X].
  unfold single_row. rewrite V0, E. destruct (String.eqb_spec s "end") as [->|N]; [discriminate A|]. cbv zeta. destruct (known unique_names (lower (plain s))) eqn:K; [reflexivity|]. now rewrite (known_list _ _ A K).
Qed.
Print Assumptions C311_single_refuted.
Example C311_witness : read_functions (fun _ => "") [] [row_ "functions" []; row_ "begin" []; row_ "Cost function" []; [Some (CInt 1)]; row_ "end" []] = Err UnboundLocalError /\ dget all_names (lower (plain "Cost function")) <> None.
Proof. split; [vm_compute; reflexivity|discriminate]. Qed.

(* ------------------------------------------------------------------ *)
(** ** C312 *)
(** Every row of a block of functions gives a function.  Refuted: without a
    title of a list all rows are dropped without an exception. *)
Theorem C312_no_list_refuted : forall fstr acc first brow trow us erow lrows, marks brow "begin" -> has_cells trow 1 (map CStr us) -> 2 <= List.length us ->
  (forall s, In s us -> known unique_names (lower (plain s)) = true) ->
  (forall row, In row lrows -> in_row row 1 <> Some (CStr "end") /\ exists vs, has_cells row 1 vs /\ List.length us <= List.length vs) -> in_row erow 1 = Some (CStr "end") ->
  read_functions fstr acc (first :: brow :: trow :: lrows ++ [erow]) = Ok acc.
Proof.
  intros fstr acc first brow trow us erow lrows B (T & T') L U R E. unfold read_functions. cbn [skipn function_rows]. rewrite (proj2 (Nat.ltb_lt 0 20)) by lia. rewrite (proj2 (is_begin_iff _) B), (across_spec trow 1 _ ltac:(lia) T T').
  assert (TI : forall orig us, (forall s, In s us -> known unique_names (lower (plain s)) = true) -> exists o names, function_titles fstr orig (map CStr us) = Ok (o, names) /\ List.length names = List.length us /\ forall x, In x names -> known unique_names (lower (fst x)) = true).
  { clear. intros orig us. revert orig. induction us as [|s us IH]; intros orig U; [exists orig, []; split; [reflexivity|]; split; [reflexivity|intros x []]|]. cbn [map function_titles]. cbv zeta. pose proof (U s (or_introl eq_refl)) as D. assert (KA : known all_names (lower (plain s)) = true) by (unfold all_names; now rewrite known_app, D).
    unfold known in KA. destruct (dget all_names (lower (plain s))) as [n|]; [|discriminate]. destruct (IH (Some (plain s)) (fun s' I => U s' (or_intror I))) as (o & names & E & LL & K). rewrite E. cbn [rbind fst snd]. exists o, ((plain s, n) :: names). split; [reflexivity|]. split; [cbn; now rewrite LL|]. intros x [<-|I]; [exact D|auto]. }
  destruct (TI None us U) as (o & names & -> & LN & K). cbn [rbind fst snd].
  assert (FC : forall values names nu total cs done, (forall x, In x names -> known unique_names (lower (fst x)) = true) -> nu + List.length names <= List.length values -> exists cs', function_cells values nu total names cs done = Ok (cs', done, false)).
  { clear. intros values names. induction names as [|[a b] names IH]; intros nu total cs done K L; [exists cs; reflexivity|]. cbn [function_cells]. cbv zeta. rewrite (K (a, b) (or_introl eq_refl) : known unique_names (lower a) = true). cbn [List.length] in L.
    destruct (nth_error values nu) as [v|] eqn:N; [|apply nth_error_None in N; lia]. apply IH; [intros x I; apply K; now right|lia]. }
  assert (FR : forall lrows cs nub, (forall row, In row lrows -> in_row row 1 <> Some (CStr "end") /\ exists vs, has_cells row 1 vs /\ List.length us <= List.length vs) -> function_rows fstr (lrows ++ [erow]) (FRows names cs) o nub acc = Ok acc).
  { clear R lrows. induction lrows as [|row lrows IH]; intros cs nub R.
    - cbn [app function_rows]. rewrite E. reflexivity.
    - destruct (R row (or_introl eq_refl)) as (NE & vs & (V & V') & LV). cbn [app]. rewrite (frow _ _ _ _ _ _ _ _ NE). rewrite (across_spec row 1 vs) by (auto; lia). destruct (FC (map function_value vs) names 0 (List.length names) cs [] K) as (cs' & F); [rewrite map_length; lia|].
      rewrite F. cbn [rbind fst snd]. rewrite app_nil_r. apply IH. intros r Ir. apply R. now right. }
  destruct names as [|x [|y names]]; [cbn in LN; lia|cbn in LN; lia|]. now apply FR.
Qed.
Print Assumptions C312_no_list_refuted.
Example C312_witness : read_functions (fun _ => "") [] [row_ "functions" []; row_ "begin" []; row_ "ID" ["Pieces"]; [Some (CStr "G1"); Some (CInt 2)]; row_ "end" []] = Ok [].
Proof. vm_compute. reflexivity. Qed.

(* ------------------------------------------------------------------ *)
(** ** C313 *)
(** A function gets the characteristics of the element with its ID, other than
    ID and name.  Proved when all parameters with that ID agree on them. *)
Theorem C313_correlate : forall ps f i, In i (List.concat ps) -> get_char (in_chars i) "ID" = get_char f "ID" ->
  (forall j, In j (List.concat ps) -> cval_eqb (get_char (in_chars j) "ID") (get_char f "ID") = true -> in_chars j = in_chars i) ->
  exists more, correlate ps f = f ++ more /\ forall c, In c more <-> In c (in_chars i) /\ ch_name c <> "ID" /\ ch_name c <> "name".
Proof.
  intros ps f i I E U. unfold correlate. destruct (find _ (List.concat ps)) as [j|] eqn:F.
  - apply find_some in F as (Ij & Ej). rewrite (U j Ij Ej). eexists. split; [reflexivity|]. intros c. rewrite filter_In, andb_true_iff, !negb_true_iff, !String.eqb_neq. reflexivity.
  - apply (find_none _ _ F) in I. cbn in I. rewrite E, cval_eqb_refl in I. discriminate.
Qed.
Print Assumptions C313_correlate.
Theorem C313_unknown : forall ps f, (forall i, In i (List.concat ps) -> cval_eqb (get_char (in_chars i) "ID") (get_char f "ID") = false) -> correlate ps f = f.
Proof. intros ps f H. unfold correlate. destruct (find _ (List.concat ps)) as [j|] eqn:F; [|reflexivity]. apply find_some in F as (Ij & Ej). rewrite (H j Ij) in Ej. discriminate. Qed.
Print Assumptions C313_unknown.
(** Refuted otherwise: when a bus has the ID of the generator, its function gets
    the characteristics of the bus, whatever those of the generator are. *)
Theorem C313_bus_refuted : forall id bus generators f, get_char (in_chars bus) "ID" = VCell id -> get_char f "ID" = VCell id ->
  correlate [[bus]; generators] f = f ++ filter (fun c => negb (ch_name c =? "ID")%string && negb (ch_name c =? "name")%string) (in_chars bus).
Proof. intros id bus generators f B F. unfold correlate. cbn [List.concat app find]. rewrite B, F. cbn [cval_eqb]. rewrite cell_eqb_refl. reflexivity. Qed.
Print Assumptions C313_bus_refuted.
Local Definition el_ (id sub : string) : info := mkInfo [mkChar "ID" (VCell (CStr id)) "string"; mkChar "name" (VCell (CStr "Pd")) "string"; mkChar "subtype" (VCell (CStr sub)) "string"] (CInt 1) "double".
Example C313_witness : correlate [[el_ "1" "bus"]; [el_ "2" "hydro"; el_ "3" "wind"]] [mkChar "ID" (VCell (CStr "3")) "string"] = [mkChar "ID" (VCell (CStr "3")) "string"; mkChar "subtype" (VCell (CStr "wind")) "string"] /\
  get_char (in_chars (el_ "1" "bus")) "ID" = VCell (CStr "1").
Proof. split; reflexivity. Qed.

(* ------------------------------------------------------------------ *)
(** ** C315 *)
(** Rows of a block of functions that are blank or short are skipped.  Refuted:
    the first row with fewer values than single titles ends with IndexError,
    wherever it stands in its block. *)
Theorem C315_short_row_refuted : forall fstr acc first gap brow trow us l n t lrows css row vs rest, (forall r, In r gap -> ~ marks r "begin") -> List.length gap < 20 -> marks brow "begin" ->
  has_cells trow 1 (map CStr (map (fun x => fst (fst x)) us ++ [l])) -> (forall s m u, In (s, m, u) us -> means s m u) -> means_list l n t ->
  function_lines us n t lrows css -> has_cells row 1 vs -> ~ (exists r, vs = CStr "end" :: r) -> List.length vs < List.length us ->
  read_functions fstr acc (first :: gap ++ brow :: trow :: lrows ++ row :: rest) = Err IndexError.
Proof.
  intros fstr acc first gap brow trow us l n t lrows css row vs rest G L B (T & T') U ML FL HC NE SH. unfold read_functions. cbn [skipn]. rewrite fgap_ok by (auto; lia). cbn [Nat.add function_rows]. rewrite (proj2 (Nat.ltb_lt _ 20) L), (proj2 (is_begin_iff _) B), (across_spec trow 1 _ ltac:(lia) T T'), (titles_ok fstr us l n t U ML). cbn [rbind fst snd].
  destruct (flines_prefix fstr us l n t lrows css U ML FL (row :: rest) (Some (plain l)) false acc) as (nub' & X).
  assert (BAD : forall us pre cs done total, (forall s m u, In (s, m, u) us -> means s m u) -> forall vs, List.length vs < List.length us ->
    function_cells (pre ++ vs) (List.length pre) total (map (fun x => (plain (fst (fst x)), snd (fst x))) us ++ [(plain l, n)]) cs done = Err IndexError).
  { clear. induction us as [|[[s m] u] us IH]; intros pre cs done total U vs L; [cbn in L; lia|]. cbn [map app function_cells fst snd]. cbv zeta. destruct (U s m u (or_introl eq_refl)) as (_ & -> & _). destruct vs as [|v vs].
    - rewrite nth_error_app2, Nat.sub_diag by lia. reflexivity.
    - rewrite nth_error_app2, Nat.sub_diag by lia. cbn [nth_error]. specialize (IH (pre ++ [v])). rewrite app_length in IH. cbn [List.length] in IH. rewrite (Nat.add_1_r (List.length pre)) in IH. replace (pre ++ v :: vs) with ((pre ++ [v]) ++ vs) by (now rewrite <- app_assoc). apply IH; [intros s' m' u' I; apply U; now right|cbn in L; lia]. }
  destruct us as [|x us]; [cbn in SH; lia|]. cbn [map app] in X |- *. destruct (map _ us ++ [(plain l, n)]) as [|y r] eqn:Y; [destruct us; discriminate|]. rewrite X, <- Y.
  rewrite frow by (eapply not_end_row; eauto). destruct HC as (V & E). rewrite (across_spec row 1 vs) by (auto; lia).
  pose proof (BAD (x :: us) [] [] [] (List.length ((plain (fst (fst x)), snd (fst x)) :: map (fun x => (plain (fst (fst x)), snd (fst x))) us ++ [(plain l, n)])) U (map function_value vs)) as Z. cbn [app List.length map] in Z |- *. rewrite Z by (rewrite map_length; exact SH). reflexivity.
Qed.
Print Assumptions C315_short_row_refuted.
Example C315_witness : read_functions (fun _ => "") [] (firstn 4 fun_sheet ++ [[]] ++ skipn 4 fun_sheet) = Err IndexError /\ has_cells [] 1 [] /\ means "ID" "ID" "string".
Proof. split; [vm_compute; reflexivity|]. split; [split; [intros [|i] v E; discriminate|reflexivity]|repeat split; reflexivity]. Qed.

(* ------------------------------------------------------------------ *)
(** ** C316 *)
(** The titles of functions can be in any order.  Refuted: with titles after
    the one of a list the reading stops at the first row without an exception;
    this row, the rest of the block and all later blocks are lost. *)
Theorem C316_order_refuted : forall fstr acc first brow trow us l n t more row vs rest, marks brow "begin" -> has_cells trow 1 (map CStr (map (fun x => fst (fst x)) us ++ [l]) ++ more) -> more <> [] ->
  (forall s m u, In (s, m, u) us -> means s m u) -> means_list l n t -> has_cells row 1 vs -> ~ (exists r, vs = CStr "end" :: r) -> List.length us <= List.length vs ->
  read_functions fstr acc (first :: brow :: trow :: row :: rest) = Ok acc.
Proof.
  intros fstr acc first brow trow us l n t more row vs rest B (T & T') NM U ML HC NE LV. unfold read_functions. cbn [skipn]. 
  assert (TI : forall more o, exists o' names, function_titles fstr (Some o) more = Ok (o', names) /\ List.length names = List.length more).
  { clear. induction more as [|v more IH]; intros o; [exists (Some o), []; split; reflexivity|]. cbn [function_titles]. cbv zeta. destruct v as [s| | |]; [destruct (dget all_names (lower (plain s))) as [t1|]|..]; match goal with |- context [function_titles fstr (Some ?x) more] => destruct (IH x) as (o' & names & E & L); rewrite E end; cbn [rbind fst snd]; eexists _, _; (split; [reflexivity|cbn; now rewrite L]). }
  assert (TT : forall us orig, (forall s m u, In (s, m, u) us -> means s m u) -> exists o names, function_titles fstr orig (map CStr (map (fun x => fst (fst x)) us ++ [l]) ++ more) = Ok (o, map (fun x => (plain (fst (fst x)), snd (fst x))) us ++ (plain l, n) :: names) /\ List.length names = List.length more).
  { destruct ML as (L1 & L2 & L3). clear - L1 TI. induction us as [|[[s m] u] us IH]; intros orig U; cbn [map app function_titles fst snd]; cbv zeta.
    - rewrite L1. destruct (TI more (plain l)) as (o' & names & E & L). rewrite E. exists o', names. split; [reflexivity|exact L].
    - destruct (U s m u (or_introl eq_refl)) as (A & _). rewrite A. destruct (IH (Some (plain s)) (fun s' m' u' I => U s' m' u' (or_intror I))) as (o' & names & E & L). rewrite E. exists o', names. split; [reflexivity|exact L]. }
  cbn [function_rows]. rewrite (proj2 (Nat.ltb_lt 0 20)) by lia. rewrite (proj2 (is_begin_iff _) B). cbn [function_rows]. rewrite (across_spec trow 1 _ ltac:(lia) T T'). destruct (TT us None U) as (o & names & E & LN). rewrite E. cbn [rbind fst snd].
  assert (NN : exists x y z, map (fun x => (plain (fst (fst x)), snd (fst x))) us ++ (plain l, n) :: names = x :: y :: z).
  { destruct us as [|u0 [|u1 us]]; cbn; [|eauto|eauto]. destruct names as [|y z]; [destruct more; [congruence|discriminate]|eauto]. }
  assert (G : function_rows fstr (row :: rest) (FRows (map (fun x => (plain (fst (fst x)), snd (fst x))) us ++ (plain l, n) :: names) []) o false acc = Ok acc).
  { rewrite frow by (eapply not_end_row; eauto). destruct HC as (V & E'). rewrite (across_spec row 1 vs) by (auto; lia).
    assert (ST : forall us pre cs total, (forall s m u, In (s, m, u) us -> means s m u) -> forall vs, List.length us <= List.length vs -> List.length pre + List.length us + 1 < total ->
      exists cs', function_cells (pre ++ vs) (List.length pre) total (map (fun x => (plain (fst (fst x)), snd (fst x))) us ++ (plain l, n) :: names) cs [] = Ok (cs', [], true)).
    { destruct ML as (L1 & L2 & L3). clear - L1 L2. induction us as [|[[s m] u] us IH]; intros pre cs total U vs L LT; cbn [map app function_cells fst snd]; cbv zeta.
      - rewrite L2, (known_list _ _ L1 L2). cbn [List.length] in LT. destruct (Nat.eqb_spec (List.length pre + 1) total); [lia|]. eexists. reflexivity.
      - destruct (U s m u (or_introl eq_refl)) as (_ & -> & _). destruct vs as [|v vs]; [cbn in L; lia|]. rewrite nth_error_app2, Nat.sub_diag by lia. cbn [nth_error]. specialize (IH (pre ++ [v])). rewrite app_length in IH. cbn [List.length] in IH, L, LT. rewrite (Nat.add_1_r (List.length pre)) in IH. replace (pre ++ v :: vs) with ((pre ++ [v]) ++ vs) by (now rewrite <- app_assoc). apply IH; [intros s' m' u' I; apply U; now right|lia|lia]. }
    destruct (ST us [] [] (List.length (map (fun x => (plain (fst (fst x)), snd (fst x))) us ++ (plain l, n) :: names)) U (map function_value vs)) as (cs' & F); [rewrite map_length; exact LV|rewrite app_length, map_length; cbn [List.length]; destruct more; [congruence|]; cbn in LN; lia|].
    cbn [app List.length] in F. rewrite F. cbn [rbind fst snd]. now rewrite app_nil_r. }
  destruct NN as (x & y & z & EQ). rewrite EQ in G |- *. exact G.
Qed.
Print Assumptions C316_order_refuted.
Example C316_witness : read_functions (fun _ => "") [] ([row_ "functions" []; row_ "begin" []; row_ "ID" ["Cost function"; "Pieces"]; [Some (CStr "G1"); Some (CInt 2); Some (CInt 7)]; row_ "end" []] ++ skipn 1 fun_sheet) = Ok [] /\
  read_functions (fun _ => "") [] fun_sheet = Ok fun_chars.
Proof. split; vm_compute; reflexivity. Qed.

(* ------------------------------------------------------------------ *)
(** ** C328 *)
(** An output without a name is refused.  Refuted: its sheet has the title "N", the first letter of "N/A", and no values when the values all
    have other names. *)
Theorem C328_nameless_refuted : forall cs pt p vs fuel, (forall c, In c cs -> ch_name c <> "name") ->
  has_char cs "data device" = true -> texts (get_char cs "data device") = ["excel"] -> has_char cs "problem" = true -> texts (get_char cs "problem") = ["DC OPF"] ->
  (forall v g, In (v, g) vs -> exists c, In c g /\ ch_key c = "name") -> (forall v g c, In (v, g) vs -> In c g -> ch_key c = "name" -> ch_val c <> "N") -> 0 < fuel ->
  save_results fuel [out_of cs] (Some (p :: pt)) vs = Ok [[((1, 1), Text "N")]].
Proof.
  intros cs pt p vs fuel NN D DT P PT SN ON Lf. unfold out_of, first_text.
  assert (H : has_char cs "name" = false). { unfold has_char. destruct (existsb _ cs) eqn:E; [|reflexivity]. apply existsb_exists in E as (c & I & E). apply String.eqb_eq in E. exfalso. exact (NN c I ltac:(congruence)). }
  rewrite H, D, DT, P, PT. unfold save_results. cbn [filter device_is o_device]. change (String.eqb "excel" "excel") with true. cbv iota. cbn [foldM]. unfold save_step. cbn [o_problem o_name fst snd]. change (String.eqb "DC OPF" "DC OPF") with true. cbv iota. cbn [rbind].
  assert (NG : forall g, In g (map snd vs) -> Outputs.named "N" g = false).
  { intros g I. apply in_map_iff in I as ((v & g') & <- & I). cbn [snd]. unfold Outputs.named. destruct (existsb _ g') eqn:E; [|reflexivity]. apply existsb_exists in E as (c & Ic & E). apply andb_true_iff in E as (E1 & E2). apply String.eqb_eq in E1, E2. exfalso. exact (ON v g' c I Ic E1 E2). }
  rewrite sheet_again; [| |  |exact Lf].
  - cbn [rbind fst snd app]. assert (C : columns "N" (map snd vs) = []); [|now rewrite C]. unfold columns, place_columns.
    assert (F : find (Outputs.named "N") (map snd vs) = None). { destruct (find _ _) eqn:E; [|reflexivity]. apply find_some in E as (I & E). rewrite (NG _ I) in E. discriminate. }
    rewrite F. clear F. revert NG. generalize (map snd vs). clear. intros gs. induction gs as [|g gs IH]; intros NG; [reflexivity|]. cbn [fold_left]. unfold id_step at 2. rewrite (NG g) by now left. apply IH. intros g' I. apply NG. now right.
  - now rewrite repeat_length.
  - intros [[v u] g] I. unfold todo. apply items_in in I. destruct (SN v g I) as (c & Ic & K). assert (M : member_ "N" (p :: pt) g = false).
    { unfold member_. destruct (forallb _ g) eqn:E; [|reflexivity]. rewrite forallb_forall in E. specialize (E c Ic). rewrite K in E. change (String.eqb "name" "name") with true in E. cbn [andb] in E. rewrite negb_involutive in E. apply andb_true_iff in E as (E & _). apply String.eqb_eq in E. exfalso. exact (ON v g c I Ic K E). }
    cbn [fst snd]. rewrite M. apply andb_false_r.
Qed.
Print Assumptions C328_nameless_refuted.
Example C328_witness : exists cs, read_outputs [] [row_ "outputs" []; row_ "begin" []; row_ "data device" ["excel"]; row_ "problem" ["dc opf"]; row_ "end" []] = Ok [cs] /\ (forall c, In c cs -> ch_name c <> "name") /\
  save_results 3 [out_of [mkChar "data device" (VList [CStr "excel"]) "v_string"; mkChar "problem" (VList [CStr "DC OPF"]) "v_string"]] (Some ["0"; "1"]) [(1%Q, [Cha "name" "gen" []; Cha "pt" "0" ["1"]; Cha "hour" "1" []; Cha "ID" "a" []])] = Ok [[((1, 1), Text "N")]].
Proof. eexists. split; [vm_compute; reflexivity|]. split; [|vm_compute; reflexivity]. cbn. intros c [<-|[<-|[]]]; discriminate. Qed.

(* ------------------------------------------------------------------ *)
(** ** C329 *)
(** An unknown title in a block of functions is reported.  Refuted: as the first title of the first block it ends with
    UnboundLocalError; as the first of several titles of a later block it is taken for the last title of the block before,
    and the reading stops without an exception, so that this block and all later ones are lost. *)
Theorem C329_first_refuted : forall fstr acc first gap brow trow rest s vs, (forall row, In row gap -> ~ marks row "begin") -> List.length gap < 20 -> marks brow "begin" ->
  has_cells trow 1 (CStr s :: vs) -> dget all_names (lower (plain s)) = None -> read_functions fstr acc (first :: gap ++ brow :: trow :: rest) = Err UnboundLocalError.
Proof.
  intros fstr acc first gap brow trow rest s vs G L B (V & E) D. unfold read_functions. cbn [skipn]. rewrite fgap_ok by (auto; lia). cbn [Nat.add function_rows]. rewrite (proj2 (Nat.ltb_lt _ 20) L), (proj2 (is_begin_iff _) B), (across_spec trow 1 (CStr s :: vs)) by (auto; lia).
  cbn [function_titles]. cbv zeta. rewrite D. reflexivity.
Qed.
Print Assumptions C329_first_refuted.
Theorem C329_later_refuted : forall fstr acc first gap brow trow us l n t lrows css erow gap' brow' trow' s x more row vs rest,
  (forall r, In r gap -> ~ marks r "begin") -> List.length gap < 20 -> marks brow "begin" ->
  has_cells trow 1 (map CStr (map (fun x => fst (fst x)) us ++ [l])) -> us <> [] -> (forall s m u, In (s, m, u) us -> means s m u) -> means_list l n t ->
  function_lines us n t lrows css -> in_row erow 1 = Some (CStr "end") ->
  (forall r, In r gap' -> ~ marks r "begin") -> List.length gap' < 19 -> marks brow' "begin" -> has_cells trow' 1 (CStr s :: x :: more) -> dget all_names (lower (plain s)) = None ->
  has_cells row 1 vs -> ~ (exists r, vs = CStr "end" :: r) ->
  read_functions fstr acc (first :: gap ++ brow :: trow :: lrows ++ erow :: gap' ++ brow' :: trow' :: row :: rest) = Ok (acc ++ css).
Proof.
  intros fstr acc first gap brow trow us l n t lrows css erow gap' brow' trow' s x more row vs rest G L B (T & T') NU U ML FL EE G' L' B' (S1 & S2) D HC NE.
  unfold read_functions. cbn [skipn]. rewrite fgap_ok by (auto; lia). cbn [Nat.add function_rows]. rewrite (proj2 (Nat.ltb_lt _ 20) L), (proj2 (is_begin_iff _) B), (across_spec trow 1 _ ltac:(lia) T T'), (titles_ok fstr us l n t U ML). cbn [rbind fst snd].
  destruct (flines_ok fstr us l n t lrows css U ML FL erow (gap' ++ brow' :: trow' :: row :: rest) (Some (plain l)) false acc EE) as (nub' & X).
  assert (TI : forall more o, exists o' names, function_titles fstr (Some o) more = Ok (o', names) /\ List.length names = List.length more).
  { clear. induction more as [|v more IH]; intros o; [exists (Some o), []; split; reflexivity|]. cbn [function_titles]. cbv zeta. destruct v as [s| | |]; [destruct (dget all_names (lower (plain s))) as [t1|]|..]; match goal with |- context [function_titles fstr (Some ?x) more] => destruct (IH x) as (o' & names & E & L); rewrite E end; cbn [rbind fst snd]; eexists _, _; (split; [reflexivity|cbn; now rewrite L]). }
  assert (W : forall y names o, function_rows fstr (row :: rest) (FRows ((plain l, plain s) :: y :: names) []) o nub' (acc ++ css) = Ok (acc ++ css)).
  { intros y names o. rewrite frow by (eapply not_end_row; eauto). destruct HC as (V & E'). rewrite (across_spec row 1 vs) by (auto; lia). destruct ML as (L1 & L2 & L3). cbn [function_cells]. cbv zeta. rewrite L2, (known_list _ _ L1 L2). cbn [List.length Nat.add Nat.eqb rbind fst snd]. now rewrite app_nil_r. }
  assert (Y : function_rows fstr (gap' ++ brow' :: trow' :: row :: rest) (FBetween 1) (Some (plain l)) nub' (acc ++ css) = Ok (acc ++ css)).
  { rewrite fgap_ok by (auto; lia). cbn [Nat.add function_rows]. rewrite (proj2 (Nat.ltb_lt (S (List.length gap')) 20)) by lia. rewrite (proj2 (is_begin_iff _) B'), (across_spec trow' 1 _ ltac:(lia) S1 S2).
    destruct (TI (x :: more) (plain l)) as (o & names & TE & LN). change (function_titles fstr (Some (plain l)) (CStr s :: x :: more)) with
      (let known_ := match dget all_names (lower (plain s)) with Some t => Some (plain s, t) | None => None end in
       let orig' := match known_ with Some (o, _) => Some o | None => Some (plain l) end in
       let na := match known_ with Some (_, t) => t | None => plain s end in
       match orig' with None => Err UnboundLocalError | Some o => do z <- function_titles fstr orig' (x :: more); Ok (fst z, (o, na) :: snd z) end).
    rewrite D. cbv iota zeta. rewrite TE. cbn [rbind fst snd]. destruct names as [|y names]; [discriminate|].
    exact (W y names o). }
  destruct us as [|u0 us]; [congruence|]. cbn [map app] in X |- *. destruct (map _ us ++ [(plain l, n)]) as [|y r] eqn:Z; [destruct us; discriminate|]. rewrite X. exact Y.
Qed.
Print Assumptions C329_later_refuted.
Example C329_witness : dget all_names (lower (plain "Idd")) = None /\
  read_functions (fun _ => "") [] (fun_sheet ++ [row_ "begin" []; row_ "Idd" ["Pieces"; "Cost function"]; [Some (CStr "G3"); Some (CInt 2); Some (CInt 7)]; row_ "end" []]) = Ok fun_chars /\
  read_functions (fun _ => "") [] [row_ "functions" []; row_ "begin" []; row_ "Idd" ["Pieces"; "Cost function"]] = Err UnboundLocalError.
Proof. repeat split; vm_compute; reflexivity. Qed.
