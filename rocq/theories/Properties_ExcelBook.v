(** Properties of the reader of workbooks: connections and whole workbooks. *)
From Coq Require Import List String Ascii Bool Arith ZArith QArith Lia Permutation.
From Verif Require Import Base GraphDataProofs ExcelSheet ExcelTree ExcelProfiles ExcelBook ExcelProofs ConverterOpen HydroTables Properties_Excel.
Import ListNotations.
Open Scope string_scope.
Open Scope nat_scope.
Open Scope list_scope.

Local Ltac sp := repeat match goal with |- _ /\ _ => split end.

(* ------------------------------------------------------------------ *)
(** ** C262 *)

(** The key of a row, without special blanks and in lower case. *)
Definition key_of (row : list (option cell)) (k : string) : Prop := exists s, in_row row 1 = Some (CStr s) /\ lower (plain s) = k.
(** The row of a block gives this characteristic: a list for the keys of lists, or else the second cell (which is not "end", empty or 0). *)
Definition gives (row : list (option cell)) (c : charac) : Prop :=
  exists k, key_of row k /\ dget all_names k = Some (ch_name c) /\ data_type k = Some (ch_type c) /\
  (if known list_names k
   then exists vs, vs <> [] /\ (forall i v, nth_error vs i = Some v -> in_row row (2 + i) = Some v) /\ in_row row (2 + List.length vs) = None /\ ch_value c = VList (map list_value vs)
   else exists v, in_row row 2 = Some v /\ single_value v <> CStr "end" /\ truthy (single_value v) = true /\ ch_value c = VCell (single_value v)).
(** The row says nothing: no text, or an unknown one. *)
Definition quiet (row : list (option cell)) : Prop :=
  forall s, in_row row 1 = Some (CStr s) -> dget all_names (lower (plain s)) = None /\ ~ In (lower (plain s)) variable_names /\ plain s <> "end".
Definition marks (row : list (option cell)) (m : string) : Prop := exists s, in_row row 1 = Some (CStr s) /\ plain s = m.
Inductive lines : sheet -> list charac -> Prop :=
| lines_nil : lines [] []
| lines_give row rows c cs : gives row c -> lines rows cs -> lines (row :: rows) (c :: cs)
| lines_quiet row rows cs : quiet row -> lines rows cs -> lines (row :: rows) cs.
(** The rows have these blocks, each from "begin" to "end"; [k] rows without a block have been seen before, and at most 20 come between
    two blocks. *)
Inductive claid : nat -> sheet -> list (list charac) -> Prop :=
| claid_none k rows : (forall row, In row (firstn (20 - k) rows) -> ~ marks row "begin") -> claid k rows []
| claid_block k gap brow lrows erow rest cs css : (forall row, In row gap -> ~ marks row "begin") -> k + List.length gap < 20 -> marks brow "begin" -> lines lrows cs -> marks erow "end" ->
    claid 1 rest css -> claid k (gap ++ brow :: lrows ++ erow :: rest) (cs :: css).
Definition connection (cs : list charac) : list charac := cs ++ [mkChar "name" (VCell (CStr "connection")) "string"].
Definition nonempty {A} (l : list A) : bool := match l with [] => false | _ => true end.

Lemma is_begin_iff row : is_begin (in_row row 1) = true <-> marks row "begin".
Proof.
  unfold is_begin, marks. destruct (in_row row 1) as [[s|z|q|b]|]; split; try discriminate; try (intros (s' & H & _); discriminate H).
  - intros H. apply String.eqb_eq in H. eauto.
  - intros (s' & H & E). injection H as <-. now apply String.eqb_eq.
Qed.
Lemma variables_apart k n : dget all_names k = Some n -> member variable_names k = false.
Proof.
  intros H. destruct (member variable_names k) eqn:M; [|reflexivity]. apply member_In in M. exfalso.
  assert (A : forallb (fun v => negb (known all_names v)) variable_names = true) by reflexivity. rewrite forallb_forall in A. specialize (A k M). unfold known in A. rewrite H in A. discriminate.
Qed.
Lemma gives_ok row c cs b : gives row c -> connection_row cs b row = Ok (cs ++ [c], true, false).
Proof.
  intros (k & (s & R & K) & D & T & H). unfold connection_row. rewrite R. cbv zeta. rewrite K, D, (variables_apart _ _ D), T. destruct c as [cn cv ct]. cbn [ch_name ch_value ch_type] in *. destruct (known list_names k).
  - destruct H as (vs & NE & V & N & ->). rewrite (across_spec row 2 vs) by (auto; lia). destruct vs as [|v vs]; [congruence|]. reflexivity.
  - destruct H as (v & V & NE & TR & ->). rewrite V. cbn [option_map]. rewrite TR. do 2 f_equal. destruct (single_value v) as [t| | |]; try reflexivity. apply String.eqb_neq. congruence.
Qed.
Lemma quiet_ok row cs b : quiet row -> connection_row cs b row = Ok (cs, b, false).
Proof.
  intros Q. unfold connection_row, quiet in *. destruct (in_row row 1) as [[s| | |]|]; try reflexivity. destruct (Q s eq_refl) as (A & B & C). cbv zeta. rewrite A.
  destruct (member variable_names (lower (plain s))) eqn:M; [apply member_In in M; contradiction|]. do 2 f_equal. now apply String.eqb_neq.
Qed.
Lemma end_names : dget all_names "end" = None /\ member variable_names "end" = false.
Proof. split; reflexivity. Qed.
Lemma end_ok row cs b : marks row "end" -> connection_row cs b row = Ok (cs, b, true).
Proof. intros (s & R & E). unfold connection_row. rewrite R. cbv zeta. rewrite E. reflexivity. Qed.
Lemma lines_ok rows cs : lines rows cs -> forall cs0 b rest acc, exists b', connection_rows (rows ++ rest) (Block cs0) b acc = connection_rows rest (Block (cs0 ++ cs)) b' acc.
Proof.
  induction 1 as [|row rows c cs G L IH|row rows cs Q L IH]; intros cs0 b rest acc.
  - exists b. now rewrite app_nil_r.
  - cbn [app connection_rows]. rewrite (gives_ok _ _ _ _ G). cbn [rbind]. destruct (IH (cs0 ++ [c]) true rest acc) as (b' & E). exists b'. rewrite E, <- app_assoc. reflexivity.
  - cbn [app connection_rows]. rewrite (quiet_ok _ _ _ Q). cbn [rbind]. apply IH.
Qed.
Lemma gap_ok gap : forall k rest b acc, (forall row, In row gap -> ~ marks row "begin") -> k + List.length gap <= 20 -> connection_rows (gap ++ rest) (Between k) b acc = connection_rows rest (Between (k + List.length gap)) b acc.
Proof.
  induction gap as [|row gap IH]; intros k rest b acc G L; cbn [app List.length] in *; [now rewrite Nat.add_0_r|]. cbn [connection_rows]. rewrite (proj2 (Nat.ltb_lt k 20)) by lia.
  destruct (is_begin (in_row row 1)) eqn:E; [apply is_begin_iff in E; exfalso; apply (G row); auto; now left|]. rewrite IH by (try lia; intros r R; apply G; now right). f_equal. f_equal. lia.
Qed.
Lemma claid_ok k rows css : claid k rows css -> forall b acc, connection_rows rows (Between k) b acc = Ok (acc ++ map connection (filter nonempty css)).
Proof.
  induction 1 as [k rows N|k gap brow lrows erow rest cs css G L B LI E C IH]; intros b acc.
  - cbn [filter map]. rewrite app_nil_r. revert k N. induction rows as [|row rows IH]; intros k N; [reflexivity|]. cbn [connection_rows]. destruct (Nat.ltb_spec k 20) as [K|K]; [|reflexivity].
    replace (20 - k) with (S (20 - S k)) in N by lia. cbn [firstn] in N. destruct (is_begin (in_row row 1)) eqn:E; [apply is_begin_iff in E; exfalso; apply (N row); auto; now left|]. apply IH. intros r R. apply N. now right.
  - rewrite gap_ok by (auto; lia). cbn [connection_rows]. rewrite (proj2 (Nat.ltb_lt _ 20) L), (proj2 (is_begin_iff _) B).
    destruct (lines_ok _ _ LI [] b (erow :: rest) acc) as (b' & ->). cbn [connection_rows app]. rewrite (end_ok _ _ _ E). cbn [rbind]. rewrite IH. destruct cs as [|c cs]; cbn [filter nonempty map]; [reflexivity|]. now rewrite <- app_assoc.
Qed.

(** The IDs of the elements that a connection of all elements takes: those with all its subtypes, or its group, or its zone (any of them is
    enough), or all elements if it names none of these. *)
Definition chosen (cs : list charac) (i : info) : Prop :=
  (exists ss l, has_char cs "subtype" = true /\ has i "subtype" = true /\ get_char cs "subtype" = VList ss /\ get i "subtype" = VList l /\ forall s, In s ss -> exists s', In s' l /\ cell_eqb s s' = true) \/
  (exists n, In n ["group"; "zone"] /\ has_char cs n = true /\ has i n = true /\ cval_eqb (get i n) (get_char cs n) = true) \/
  (forall n, In n ["subtype"; "group"; "zone"] -> has_char cs n = false).
Lemma takes_iff cs i : takes cs i = true <-> chosen cs i.
Proof.
  unfold takes, chosen. rewrite !orb_true_iff, !andb_true_iff, !negb_true_iff. split.
  - intros [[[((H1 & H2) & H3)|((H1 & H2) & H3)]|((H1 & H2) & H3)]|((H1 & H2) & H3)].
    + left. destruct (get_char cs "subtype") as [v|ss] eqn:E1; [discriminate|]. destruct (get i "subtype") as [v|l] eqn:E2; [discriminate|]. exists ss, l. sp; auto. intros s S. rewrite forallb_forall in H3. specialize (H3 s S). apply existsb_exists in H3. exact H3.
    + right. left. exists "group". sp; auto. cbn. auto.
    + right. left. exists "zone". sp; auto. cbn. auto.
    + right. right. intros n [<-|[<-|[<-|[]]]]; auto.
  - intros [(ss & l & H1 & H2 & H3 & H4 & H5)|[(n & N & H1 & H2 & H3)|H]].
    + do 3 left. rewrite H3, H4. sp; auto. apply forallb_forall. intros s S. apply existsb_exists. destruct (H5 s S) as (s' & A & B). eauto.
    + destruct N as [<-|[<-|[]]]; [left; left; right|left; right]; auto.
    + right. sp; apply H; cbn; auto.
Qed.
Lemma cells_eqb_refl l : cells_eqb l l = true.
Proof. induction l as [|a l IH]; [reflexivity|]. cbn. now rewrite cell_eqb_refl. Qed.
Lemma cval_eqb_refl x : cval_eqb x x = true.
Proof. destruct x as [v|l]; [apply cell_eqb_refl|apply cells_eqb_refl]. Qed.

(** Connections that end in the model: one for each ID, all distinct, of the chosen elements. *)
Definition ids_spread (cs : list charac) (l : list info) (ids : list cval) : Prop :=
  (forall x, In x ids -> exists i, In i l /\ chosen cs i /\ x = get i "ID") /\
  (forall i, In i l -> chosen cs i -> exists x, In x ids /\ cval_eqb (get i "ID") x = true) /\
  (forall a b x y, nth_error ids a = Some x -> nth_error ids b = Some y -> a < b -> cval_eqb y x = false).
Lemma taken_spread cs l : ids_spread cs l (taken_ids cs l).
Proof.
  unfold taken_ids. assert (G : forall m l0 ids, ids_spread cs l0 ids -> ids_spread cs (l0 ++ m) (fold_left (fun ids i => if negb (cval_in ids (get i "ID")) && takes cs i then ids ++ [get i "ID"] else ids) m ids)).
  { induction m as [|i m IH]; intros l0 ids H; [now rewrite app_nil_r|]. cbn [fold_left]. replace (l0 ++ i :: m) with ((l0 ++ [i]) ++ m) by (now rewrite <- app_assoc). apply IH. clear IH. destruct H as (H1 & H2 & H3).
    destruct (cval_in ids (get i "ID")) eqn:E; cbn [negb andb].
    - unfold cval_in in E. apply existsb_exists in E as (x & X & E). unfold ids_spread. sp.
      + intros y Y. destruct (H1 y Y) as (j & J & C & ->). exists j. rewrite in_app_iff. auto.
      + intros j J C. apply in_app_iff in J as [J|[<-|[]]]; [now apply H2|]. eauto.
      + exact H3.
    - destruct (takes cs i) eqn:T.
      + apply takes_iff in T. unfold ids_spread. sp.
        * intros y Y. apply in_app_iff in Y as [Y|[<-|[]]]; [destruct (H1 y Y) as (j & J & C & ->); exists j; rewrite in_app_iff; auto|]. exists i. rewrite in_app_iff. cbn. auto.
        * intros j J C. apply in_app_iff in J as [J|[<-|[]]]; [destruct (H2 j J C) as (x & X & EX); exists x; rewrite in_app_iff; auto|]. exists (get i "ID"). rewrite in_app_iff. cbn. split; [auto|apply cval_eqb_refl].
        * intros a b x y A B AB. assert (BL : b < List.length (ids ++ [get i "ID"])) by (apply nth_error_Some; congruence). rewrite app_length in BL. cbn in BL. rewrite nth_error_app1 in A by lia. destruct (Nat.eq_dec b (List.length ids)) as [->|NB].
          -- rewrite nth_error_app2, Nat.sub_diag in B by lia. cbn in B. injection B as <-. destruct (cval_eqb (get i "ID") x) eqn:EX; [|reflexivity]. unfold cval_in in E. assert (X : existsb (cval_eqb (get i "ID")) ids = true) by (apply existsb_exists; exists x; split; [now apply nth_error_In in A|exact EX]). congruence.
          -- rewrite nth_error_app1 in B by lia. eapply H3; eauto.
      + unfold ids_spread. sp.
        * intros y Y. destruct (H1 y Y) as (j & J & C & ->). exists j. rewrite in_app_iff. auto.
        * intros j J C. apply in_app_iff in J as [J|[<-|[]]]; [now apply H2|]. apply takes_iff in C. congruence.
        * exact H3. }
  apply (G l [] []). unfold ids_spread. sp; [intros x []|intros i []|intros a b x y A; destruct a; discriminate A].
Qed.

(** A connection of all elements of a type of the data. *)
Definition of_all (cs : list charac) : Prop := is_cell (get_char cs "ID") (CStr "all") = true /\ has_char cs "type" = true.
Definition spreads (d : store) (cs : list charac) (out : list (list charac)) : Prop :=
  (of_all cs -> exists t l ids, get_char cs "type" = VCell (CStr t) /\ sget d (Some t) = Ok l /\ ids_spread cs l ids /\ out = map (fun x => update_char "ID" x cs) ids) /\
  (~ of_all cs -> out = []).
Lemma spread_ok d cs : (of_all cs -> exists t l, get_char cs "type" = VCell (CStr t) /\ sget d (Some t) = Ok l) -> exists out, spread d cs = Ok out /\ spreads d cs out.
Proof.
  intros H. unfold spread, spreads. destruct (is_cell (get_char cs "ID") (CStr "all") && has_char cs "type") eqn:E.
  - apply andb_true_iff in E. destruct (H E) as (t & l & T & L). rewrite T, L. cbn [rbind]. eexists. split; [reflexivity|]. split; [|intros N; exfalso; now apply N]. intros _. exists t, l, (taken_ids cs l). sp; auto. apply taken_spread.
  - eexists. split; [reflexivity|]. split; [|reflexivity]. intros (A & B). rewrite A, B in E. discriminate.
Qed.

(** C262: from the first sheet of connections every block is read, and the model gets one connection for each ID of an element that a
    connection of all elements takes (with all its subtypes, or its group, or its zone). *)
Theorem C262_connections : forall d first rows css, claid 0 rows css ->
  (forall cs, In cs css -> of_all (connection cs) -> exists t l, get_char (connection cs) "type" = VCell (CStr t) /\ sget d (Some t) = Ok l) ->
  exists outs, read_connections d ([], []) (first :: rows) = Ok (map connection (filter nonempty css), List.concat outs) /\ Forall2 (spreads d) (map connection (filter nonempty css)) outs.
Proof.
  intros d first rows css C H. unfold read_connections. cbn [skipn fst snd]. rewrite (claid_ok _ _ _ C). cbn [rbind app].
  assert (G : forall l, (forall cs, In cs l -> of_all cs -> exists t l, get_char cs "type" = VCell (CStr t) /\ sget d (Some t) = Ok l) -> exists outs, mapM (spread d) l = Ok outs /\ Forall2 (spreads d) l outs).
  { induction l as [|cs l IH]; intros HL; [exists []; split; [reflexivity|constructor]|]. destruct (spread_ok d cs (HL cs (or_introl eq_refl))) as (out & E & S). destruct IH as (outs & E' & S'); [intros c I; apply HL; now right|]. exists (out :: outs). cbn [mapM]. rewrite E. cbn [rbind]. rewrite E'. split; [reflexivity|now constructor]. }
  destruct (G (map connection (filter nonempty css))) as (outs & E & S).
  - intros cs I. apply in_map_iff in I as (c & <- & I). apply filter_In in I as (I & _). now apply H.
  - exists outs. unfold concatM. rewrite E. cbn [rbind]. auto.
Qed.
Print Assumptions C262_connections.

(** Generators of the subtype "hydro" are connected; "g1" has two parameters and one connection. *)
Definition ex_rows : sheet :=
  [[]; [Some (CStr "begin")]; [Some (CStr "ID"); Some (CStr "All")]; [Some (CStr "type"); Some (CStr "generator")]; [Some (CStr "see below")];
   [Some (CStr "subtype"); Some (CStr "hydro")]; [Some (CStr "end")]].
Definition ex_conn : list charac :=
  [mkChar "ID" (VCell (CStr "all")) "string"; mkChar "type" (VCell (CStr "generator")) "string"; mkChar "subtype" (VList [CStr "hydro"]) "v_string"].
Definition ex_info (id sub n : string) : info :=
  mkInfo [mkChar "name" (VCell (CStr n)) "string"; mkChar "ID" (VCell (CStr id)) "string"; mkChar "subtype" (VList [CStr sub]) "v_string"] (CInt 1) "double".
Definition ex_data : store := [("generator", [ex_info "g1" "hydro" "Pmin"; ex_info "g1" "hydro" "Qmin"; ex_info "g2" "solar" "Pmin"; ex_info "g3" "hydro" "Pmin"])].
Lemma ex_claid : claid 0 ex_rows [ex_conn].
Proof.
  apply (claid_block 0 [[]] [Some (CStr "begin")] [[Some (CStr "ID"); Some (CStr "All")]; [Some (CStr "type"); Some (CStr "generator")]; [Some (CStr "see below")]; [Some (CStr "subtype"); Some (CStr "hydro")]] [Some (CStr "end")] [] ex_conn []).
  - intros row [<-|[]] (s & H & _). discriminate H.
  - cbn. lia.
  - exists "begin". split; reflexivity.
  - apply lines_give; [|apply lines_give; [|apply lines_quiet; [|apply lines_give; [|constructor]]]].
    + exists "id". sp; [exists "ID"; split; reflexivity|reflexivity|reflexivity|]. vm_compute known. exists (CStr "All"). sp; try reflexivity. discriminate.
    + exists "type". sp; [exists "type"; split; reflexivity|reflexivity|reflexivity|]. vm_compute known. exists (CStr "generator"). sp; try reflexivity. discriminate.
    + intros s H. injection H as <-. sp; [reflexivity| |discriminate]. intros I. apply member_In in I. discriminate I.
    + exists "subtype". sp; [exists "subtype"; split; reflexivity|reflexivity|reflexivity|]. vm_compute known. exists [CStr "hydro"]. sp; try reflexivity; [discriminate|]. intros i v H. destruct i as [|i]; [now injection H as <-|destruct i; discriminate H].
  - exists "end". split; reflexivity.
  - apply claid_none. intros row [].
Qed.
Example C262_witness : claid 0 ex_rows [ex_conn] /\ of_all (connection ex_conn) /\
  match read_connections ex_data ([], []) ([] :: ex_rows) with Ok (_, cs) => map (fun c => get_char c "ID") cs = [VCell (CStr "g1"); VCell (CStr "g3")] | Err _ => False end.
Proof. sp; [exact ex_claid|split; vm_compute; reflexivity|vm_compute; reflexivity]. Qed.

(* ------------------------------------------------------------------ *)
(** ** C263 *)

(** C263 (refuted): connections of a single element do not reach the model: a sheet of such connections adds nothing to it. *)
Theorem C263_single_refuted : forall d conns first rows css, claid 0 rows css -> (forall cs, In cs css -> ~ of_all (connection cs)) ->
  read_connections d ([], conns) (first :: rows) = Ok (map connection (filter nonempty css), conns).
Proof.
  intros d conns first rows css C N. unfold read_connections. cbn [skipn fst snd]. rewrite (claid_ok _ _ _ C). cbn [rbind app].
  assert (G : forall l, (forall cs, In cs l -> ~ of_all cs) -> concatM (spread d) l = Ok []).
  { unfold concatM. induction l as [|cs l IH]; intros HL; [reflexivity|]. cbn [mapM]. unfold spread at 1. destruct (is_cell (get_char cs "ID") (CStr "all") && has_char cs "type") eqn:E.
    - exfalso. apply (HL cs (or_introl eq_refl)). apply andb_true_iff in E. exact E.
    - cbn [rbind]. specialize (IH (fun c I => HL c (or_intror I))). destruct (mapM (spread d) l) as [r|]; [|discriminate IH]. cbn [rbind] in IH. cbn [rbind List.concat app]. exact IH. }
  rewrite G; [cbn [rbind]; now rewrite app_nil_r|]. intros cs I. apply in_map_iff in I as (c & <- & I). apply filter_In in I as (I & _). now apply N.
Qed.
Print Assumptions C263_single_refuted.
(** The connection of the generator "g2". *)
Definition ex_single : list charac := [mkChar "ID" (VCell (CStr "g2")) "string"; mkChar "type" (VCell (CStr "generator")) "string"].
Example C263_witness : claid 0 [[Some (CStr "begin")]; [Some (CStr "ID"); Some (CStr "g2")]; [Some (CStr "type"); Some (CStr "generator")]; [Some (CStr "end")]] [ex_single] /\ ~ of_all (connection ex_single).
Proof.
  split; [|intros (H & _); discriminate H].
  apply (claid_block 0 [] [Some (CStr "begin")] [[Some (CStr "ID"); Some (CStr "g2")]; [Some (CStr "type"); Some (CStr "generator")]] [Some (CStr "end")] [] ex_single []).
  - intros row [].
  - cbn. lia.
  - exists "begin". split; reflexivity.
  - apply lines_give; [|apply lines_give; [|constructor]].
    + exists "id". sp; [exists "ID"; split; reflexivity|reflexivity|reflexivity|]. vm_compute known. exists (CStr "g2"). sp; try reflexivity. discriminate.
    + exists "type". sp; [exists "type"; split; reflexivity|reflexivity|reflexivity|]. vm_compute known. exists (CStr "generator"). sp; try reflexivity. discriminate.
  - exists "end". split; reflexivity.
  - apply claid_none. intros row [].
Qed.

(* ------------------------------------------------------------------ *)
(** ** C264 *)

Lemma connection_rows_extend : forall rows m b acc r, connection_rows rows m b acc = Ok r -> exists new, r = acc ++ new.
Proof.
  induction rows as [|row rows IH]; intros m b acc r H; cbn [connection_rows] in H.
  - destruct m; [|discriminate H]. injection H as <-. exists []. now rewrite app_nil_r.
  - destruct m as [tries|cs].
    + destruct (tries <? 20); [|injection H as <-; exists []; now rewrite app_nil_r]. destruct (is_begin (in_row row 1)); eapply IH; exact H.
    + apply bind_inv in H as (((cs' & b') & over) & _ & H). destruct over; [|eapply IH; exact H]. apply IH in H as (new & ->). destruct cs' as [|c cs']; [eauto|]. rewrite <- app_assoc. eauto.
Qed.
(** C264 (refuted): connections of several sheets are not read once: after the second sheet the model has all connections of the first twice,
    whatever the sheets. *)
Theorem C264_sheets_refuted : forall d sh1 sh2 r1 r2, read_connections d ([], []) sh1 = Ok r1 -> read_connections d r1 sh2 = Ok r2 ->
  exists more, snd r2 = snd r1 ++ snd r1 ++ more.
Proof.
  intros d sh1 sh2 r1 r2 H1 H2. unfold read_connections in *. cbn [fst snd] in H1. apply bind_inv in H1 as (own & _ & H1). apply bind_inv in H1 as (new & N & H1). assert (r1 = (own, new)) by (cbn [app] in H1; congruence). subst r1. clear H1. cbn [fst snd] in *.
  apply bind_inv in H2 as (own2 & O & H2). apply bind_inv in H2 as (new2 & N2 & H2). assert (r2 = (own2, new ++ new2)) by congruence. subst r2. cbn [snd].
  apply connection_rows_extend in O as (more & ->). unfold concatM in *. apply bind_inv in N as (a & A & EA). apply bind_inv in N2 as (b & B & EB). assert (EA' : List.concat a = new) by congruence. assert (EB' : List.concat b = new2) by congruence.
  assert (P : forall l m a b, mapM (spread d) l = Ok a -> mapM (spread d) (l ++ m) = Ok b -> exists c, b = a ++ c).
  { clear. induction l as [|x l IH]; intros m a b A B; cbn [mapM app] in A, B; [injection A as <-; exists b; reflexivity|]. apply bind_inv in A as (y & Y & A). apply bind_inv in A as (ys & YS & A). rewrite Y in B. cbn [rbind] in B. apply bind_inv in B as (zs & ZS & B). injection A as <-. injection B as <-. destruct (IH m ys zs YS ZS) as (c & ->). exists c. reflexivity. }
  destruct (P _ _ _ _ A B) as (c & ->). exists (List.concat c). rewrite concat_app in EB'. rewrite <- EB', EA'. reflexivity.
Qed.
Print Assumptions C264_sheets_refuted.
Example C264_witness : match read_connections ex_data ([], []) ([] :: ex_rows) with
  | Ok r1 => match read_connections ex_data r1 [] with Ok r2 => map (fun c => get_char c "ID") (snd r2) = [VCell (CStr "g1"); VCell (CStr "g3"); VCell (CStr "g1"); VCell (CStr "g3")] | Err _ => False end
  | Err _ => False end.
Proof. vm_compute. reflexivity. Qed.

(* ------------------------------------------------------------------ *)
(** ** C265 *)

(** The title of a sheet is its first cell. *)
Definition entitled (sh : sheet) (n : string) : Prop := exists s, cell_at sh 1 1 = Some (CStr s) /\ plain s = n.
Lemma sget_sput_other d s l t : s <> t -> sget (sput d s l) (Some t) = sget d (Some t).
Proof.
  intros N. unfold sget. induction d as [|e d IH]; cbn [sput find fst snd].
  - destruct (String.eqb_spec s t); [congruence|reflexivity].
  - destruct (String.eqb_spec (fst e) s) as [E|E]; cbn [find fst snd].
    + rewrite E. destruct (String.eqb_spec s t); [congruence|reflexivity].
    + destruct (fst e =? t)%string; [reflexivity|exact IH].
Qed.
Lemma read_sheet_data fstr b sh b' t : read_sheet fstr b sh = Ok b' -> ~ entitled sh t -> sget (bk_data b') (Some t) = sget (bk_data b) (Some t).
Proof.
  intros H N. unfold read_sheet in H. destruct (cell_at sh 1 1) as [[s| | |]|] eqn:C; try discriminate H. cbv zeta in H. assert (NT : plain s <> t) by (intros <-; apply N; exists s; auto).
  repeat match type of H with
         | (if ?c then _ else _) = _ => destruct c
         end; try (apply bind_inv in H as (x & X & H)); injection H as <-; cbn [bk_data]; try reflexivity; now apply sget_sput_other.
Qed.
Lemma fold_data fstr t : forall pre b b', foldM (read_sheet fstr) pre b = Ok b' -> (forall sh, In sh pre -> ~ entitled sh t) -> sget (bk_data b') (Some t) = sget (bk_data b) (Some t).
Proof.
  induction pre as [|sh pre IH]; intros b b' H N; cbn [foldM] in H; [now injection H as <-|]. apply bind_inv in H as (b1 & H1 & H). rewrite (IH b1 b' H) by (intros s S; apply N; now right). apply (read_sheet_data fstr b sh); [exact H1|]. apply N. now left.
Qed.
(** C265 (refuted): the order of the sheets matters: a sheet of connections of all elements of a type before the sheet of the type raises
    KeyError. *)
Theorem C265_order_refuted : forall fstr pre first rows post css cs t b, entitled (first :: rows) "connections energy" -> claid 0 rows css -> foldM (read_sheet fstr) pre new_book = Ok b -> bk_own b = [] ->
  In cs css -> cs <> [] -> of_all (connection cs) -> get_char (connection cs) "type" = VCell (CStr t) -> (forall sh, In sh pre -> ~ entitled sh t) ->
  read_excel fstr (pre ++ (first :: rows) :: post) = Err KeyError.
Proof.
  intros fstr pre first rows post css cs t b (s & T & P) C F O I NE A TY N. unfold read_excel. rewrite foldM_app, F. cbn [rbind foldM]. 
  pose proof (fold_data fstr t pre new_book b F N) as D. change (sget (bk_data new_book) (Some t)) with (@Err (list info) KeyError) in D.
  unfold read_sheet at 1. rewrite T. cbv zeta. rewrite P. cbn [String.eqb Ascii.eqb Bool.eqb].
  assert (E : read_connections (bk_data b) (bk_own b, bk_conns b) (first :: rows) = Err KeyError); [|rewrite E; reflexivity].
  unfold read_connections. cbn [skipn fst snd]. rewrite O, (claid_ok _ _ _ C). cbn [rbind app]. unfold concatM.
  assert (G : forall l, In (connection cs) l -> mapM (spread (bk_data b)) l = Err KeyError).
  { induction l as [|c l IH]; intros IL; [destruct IL|]. cbn [mapM]. destruct IL as [->|IL].
    - unfold spread at 1. destruct A as (A1 & A2). rewrite A1, A2, TY. cbn [andb]. now rewrite D.
    - assert (SE : (exists o, spread (bk_data b) c = Ok o) \/ spread (bk_data b) c = Err KeyError).
      { unfold spread. destruct (_ && _); [|left; eexists; reflexivity]. destruct (get_char c "type") as [[t'| | |]|]; cbn [rbind]; auto. unfold sget. destruct (find _ _); [left; eexists; reflexivity|auto]. }
      destruct SE as [(o & ->)| ->]; [|reflexivity]. cbn [rbind]. now rewrite (IH IL). }
  rewrite G; [reflexivity|]. apply in_map_iff. exists cs. split; [reflexivity|]. apply filter_In. split; [exact I|]. destruct cs; [congruence|reflexivity].
Qed.
Print Assumptions C265_order_refuted.
Example C265_witness : entitled ([Some (CStr "connections energy")] :: ex_rows) "connections energy" /\ ~ entitled [[Some (CStr "bus")]] "generator" /\
  read_excel ex_fstr [[Some (CStr "connections energy")] :: ex_rows; ex_gens] = Err KeyError /\
  match read_excel ex_fstr [ex_gens; [Some (CStr "connections energy")] :: ex_rows] with Ok r => map (fun c => get_char c "ID") (ld_conns r) = [VCell (CStr "g1")] | Err _ => False end.
Proof. sp; [exists "connections energy"; split; reflexivity|intros (s & H & E); injection H as <-; discriminate E|vm_compute; reflexivity|vm_compute; reflexivity]. Qed.

(* ------------------------------------------------------------------ *)
(** ** C266 *)

Lemma options_files opts sh r : read_model_options opts sh = Ok r -> forall ts c v, titled sh ts -> nth_error ts c = Some v -> low_title v = "paths" -> cell_at sh 3 (S c) <> None -> snd r <> [].
Proof.
  intros H ts c v T N L C. unfold read_model_options in H. rewrite (titles_ok sh ts) in H by apply T. cbn [rbind] in H.
  assert (F : named_column (map low_title ts) 1 sh "paths" <> []).
  { destruct (cell_at sh 3 (S c)) as [w|] eqn:E; [|congruence]. apply (named_column_in sh "paths" w (map low_title ts) 1 c); [rewrite nth_error_map, N; cbn; now rewrite L|exact E]. }
  apply bind_inv in H as (a & _ & H). apply bind_inv in H as (p & _ & H). apply bind_inv in H as (e & _ & H). apply bind_inv in H as (cs & _ & H). cbv zeta in H. unfold read_any in H. destruct (named_column (map low_title ts) 1 sh "paths") as [|f fs]; [congruence|].
  destruct p as [ps|]; [|discriminate H]. destruct e as [es|]; [|discriminate H]. destruct (_ && _); [|discriminate H]. destruct cs as [cs|]; [|discriminate H]. destruct (match named_column (map low_title ts) 1 sh "options" with [] => None | _ => _ end) as [vs|]; [|discriminate H]. destruct (_ =? _); [|discriminate H].
  assert (snd r = [f :: fs]) as -> by (injection H as <-; reflexivity). discriminate.
Qed.
Lemma read_sheet_files fstr b sh b' : read_sheet fstr b sh = Ok b' -> exists more, bk_files b' = bk_files b ++ more.
Proof.
  intros H. unfold read_sheet in H. destruct (cell_at sh 1 1) as [[s| | |]|]; try discriminate H. cbv zeta in H.
  repeat match type of H with (if ?c then _ else _) = _ => destruct c end; try (apply bind_inv in H as (x & X & H)); injection H as <-; cbn [bk_files]; eauto; exists []; now rewrite app_nil_r.
Qed.
Lemma fold_files fstr : forall l b b', foldM (read_sheet fstr) l b = Ok b' -> exists more, bk_files b' = bk_files b ++ more.
Proof.
  induction l as [|sh l IH]; intros b b' H; cbn [foldM] in H; [injection H as <-; exists []; now rewrite app_nil_r|]. apply bind_inv in H as (b1 & H1 & H). apply read_sheet_files in H1 as (m1 & E1). apply IH in H as (m2 & E2). exists (m1 ++ m2). now rewrite E2, E1, app_assoc.
Qed.
(** C266 (refuted): other workbooks cannot be given by their paths: if the sheet of options has a path, the reader ends with TypeError
    whatever else is in the workbook. *)
Theorem C266_paths_refuted : forall fstr sheets b sh ts c v, foldM (read_sheet fstr) sheets new_book = Ok b -> In sh sheets -> entitled sh "model" -> titled sh ts -> nth_error ts c = Some v -> low_title v = "paths" -> cell_at sh 3 (S c) <> None ->
  read_excel fstr sheets = Err TypeError.
Proof.
  intros fstr sheets b sh ts c v F I (s & C1 & PL) T N L C. unfold read_excel. rewrite F. cbn [rbind]. assert (NE : bk_files b <> []); [|destruct (bk_files b); [congruence|reflexivity]].
  apply in_split in I as (l1 & l2 & ->). rewrite foldM_app in F. apply bind_inv in F as (b1 & _ & F). cbn [foldM] in F. apply bind_inv in F as (b2 & H & F). apply fold_files in F as (m & ->).
  assert (bk_files b2 <> []); [|destruct (bk_files b2); [congruence|discriminate]].
  unfold read_sheet in H. rewrite C1 in H. cbv zeta in H. rewrite PL in H. cbn [String.eqb Ascii.eqb Bool.eqb] in H. apply bind_inv in H as (r & R & H). injection H as <-. cbn [bk_files]. pose proof (options_files _ _ _ R ts c v T N L C) as X. destruct (bk_files b1); [exact X|discriminate].
Qed.
Print Assumptions C266_paths_refuted.
(** A sheet of options with the path of another workbook. *)
Definition ex_paths : sheet :=
  [[Some (CStr "model")];
   [Some (CStr "Problem"); Some (CStr "Active"); Some (CStr "Engine"); Some (CStr "Characteristics"); Some (CStr "Options"); Some (CStr "Paths")];
   [Some (CStr "DC OPF"); Some (CBool true); Some (CStr "pyene"); Some (CStr "Solver"); Some (CStr "CLP"); Some (CStr "more.xlsx")]].
Example C266_witness : (exists b, foldM (read_sheet ex_fstr) [ex_paths; ex_gens] new_book = Ok b) /\ entitled ex_paths "model" /\ cell_at ex_paths 3 6 = Some (CStr "more.xlsx") /\ read_excel ex_fstr [ex_paths; ex_gens] = Err TypeError.
Proof. sp; [eexists; vm_compute; reflexivity|exists "model"; split; reflexivity|reflexivity|vm_compute; reflexivity]. Qed.

(* ------------------------------------------------------------------ *)
(** ** C267 *)

(** C267 (refuted): the names of variables cannot be keys of connections: as the first key of the first block one raises UnboundLocalError. *)
Theorem C267_variable_refuted : forall d st first gap brow qrows row rest k, (forall r, In r gap -> ~ marks r "begin") -> List.length gap < 20 -> marks brow "begin" -> (forall r, In r qrows -> quiet r) ->
  key_of row k -> In k variable_names -> read_connections d st (first :: gap ++ brow :: qrows ++ row :: rest) = Err UnboundLocalError.
Proof.
  intros d st first gap brow qrows row rest k G L B Q (s & R & K) V. unfold read_connections. cbn [skipn]. rewrite gap_ok by (auto; lia). cbn [Nat.add connection_rows]. rewrite (proj2 (Nat.ltb_lt _ 20) L), (proj2 (is_begin_iff _) B).
  assert (E : connection_rows (qrows ++ row :: rest) (Block []) false (fst st) = Err UnboundLocalError); [|now rewrite E].
  induction qrows as [|q qrows IH]; cbn [app connection_rows].
  - assert (E : connection_row [] false row = Err UnboundLocalError); [|now rewrite E]. unfold connection_row. rewrite R. cbv zeta. rewrite K. rewrite (proj2 (member_In _ _) V). destruct (dget all_names k) as [n|] eqn:D; [|reflexivity]. apply member_In in V. rewrite (variables_apart _ _ D) in V. discriminate.
  - rewrite quiet_ok by (apply Q; now left). cbn [rbind]. apply IH. intros r I. apply Q. now right.
Qed.
Print Assumptions C267_variable_refuted.
Example C267_witness : key_of [Some (CStr "Input"); Some (CStr "x")] "input" /\ In "input" variable_names.
Proof. split; [exists "Input"; split; reflexivity|vm_compute; auto]. Qed.

(* ------------------------------------------------------------------ *)
(** ** C268 *)

Definition kinds : list string := ["model"; "bus"; "branch"; "generator"; "tree"; "profile"].
Definition title_of (sh : sheet) : string := match cell_at sh 1 1 with Some (CStr s) => plain s | _ => "" end.
Definition is_kind (sh : sheet) : bool := member kinds (title_of sh).
Definition same_data (d d' : store) : Prop := forall t, sget d t = sget d' t.
(** Two readings have the same result: both fail, or options, tree, connections and the parameters of each type are the same. *)
Definition same_result (r r' : res loaded) : Prop :=
  match r, r' with
  | Ok a, Ok b => ld_opts a = ld_opts b /\ ld_tree a = ld_tree b /\ ld_conns a = ld_conns b /\ same_data (ld_data a) (ld_data b)
  | Err _, Err _ => True
  | _, _ => False
  end.

Definition same_book (b b' : book) : Prop :=
  bk_opts b = bk_opts b' /\ same_data (bk_data b) (bk_data b') /\ bk_tree b = bk_tree b' /\ bk_profs b = bk_profs b' /\ bk_own b = bk_own b' /\ bk_conns b = bk_conns b' /\ bk_files b = bk_files b'.
Definition same_res (r r' : res book) : Prop := match r, r' with Ok a, Ok b => same_book a b | Err _, Err _ => True | _, _ => False end.
Lemma same_book_refl b : same_book b b.
Proof. unfold same_book, same_data. sp; reflexivity. Qed.
Lemma same_res_refl r : same_res r r.
Proof. destruct r; [apply same_book_refl|exact I]. Qed.
Lemma same_res_trans a b c : same_res a b -> same_res b c -> same_res a c.
Proof.
  destruct a, b, c; cbn; try tauto. unfold same_book, same_data. intros (A1 & A2 & A3 & A4 & A5 & A6 & A7) (B1 & B2 & B3 & B4 & B5 & B6 & B7). sp; try congruence.
Qed.

(** What a sheet does to a book. *)
Inductive effect (fstr : Q -> string) (sh : sheet) : Prop :=
| eff_fails e : (forall b, read_sheet fstr b sh = Err e) -> effect fstr sh
| eff_nothing : is_kind sh = false -> (forall b, read_sheet fstr b sh = Ok b) -> effect fstr sh
| eff_opts f : title_of sh = "model" -> (forall b, read_sheet fstr b sh = do r <- f (bk_opts b); Ok (mkBook (fst r) (bk_data b) (bk_tree b) (bk_profs b) (bk_own b) (bk_conns b) (bk_files b ++ snd r))) -> effect fstr sh
| eff_net l : In (title_of sh) ["bus"; "branch"; "generator"] -> (forall b, read_sheet fstr b sh = do r <- l; Ok (mkBook (bk_opts b) (sput (bk_data b) (title_of sh) r) (bk_tree b) (bk_profs b) (bk_own b) (bk_conns b) (bk_files b))) -> effect fstr sh
| eff_tree f : title_of sh = "tree" -> (forall b, read_sheet fstr b sh = Ok (mkBook (bk_opts b) (bk_data b) (f (bk_tree b)) (bk_profs b) (bk_own b) (bk_conns b) (bk_files b))) -> effect fstr sh
| eff_prof f : title_of sh = "profile" -> (forall b, read_sheet fstr b sh = do r <- f (bk_profs b); Ok (mkBook (bk_opts b) (bk_data b) (bk_tree b) r (bk_own b) (bk_conns b) (bk_files b))) -> effect fstr sh.
Lemma sheet_effect fstr sh : title_of sh <> "connections energy" -> effect fstr sh.
Proof.
  intros N. unfold title_of in N. destruct (cell_at sh 1 1) as [[s| | |]|] eqn:C; try (apply (eff_fails _ _ AttributeError); intros bk; unfold read_sheet; rewrite C; reflexivity).
  assert (T : title_of sh = plain s) by (unfold title_of; now rewrite C).
  Local Ltac rr C := intros b; unfold read_sheet; rewrite C; cbv zeta; repeat match goal with E : (_ =? _)%string = _ |- _ => rewrite E; clear E end; reflexivity.
  destruct (plain s =? "model")%string eqn:E1; [apply (eff_opts _ _ (fun o => read_model_options o sh)); [rewrite T; now apply String.eqb_eq|rr C]|].
  destruct (plain s =? "bus")%string eqn:E2; [apply (eff_net _ _ (read_info_network fstr node_names (plain s) sh)); rewrite T; [left; symmetry; now apply String.eqb_eq|rr C]|].
  destruct (plain s =? "branch")%string eqn:E3; [apply (eff_net _ _ (read_info_network fstr branch_names (plain s) sh)); rewrite T; [right; left; symmetry; now apply String.eqb_eq|rr C]|].
  destruct (plain s =? "generator")%string eqn:E4; [apply (eff_net _ _ (read_info_network fstr generator_names (plain s) sh)); rewrite T; [right; right; left; symmetry; now apply String.eqb_eq|rr C]|].
  destruct (plain s =? "tree")%string eqn:E5; [apply (eff_tree _ _ (fun t => read_info_tree t sh)); [rewrite T; now apply String.eqb_eq|rr C]|].
  destruct (plain s =? "profile")%string eqn:E6; [apply (eff_prof _ _ (fun t => read_profile t sh)); [rewrite T; now apply String.eqb_eq|rr C]|].
  destruct (plain s =? "connections energy")%string eqn:E7; [apply String.eqb_eq in E7; congruence|].
  apply eff_nothing; [|rr C]. unfold is_kind, member. rewrite T. cbn [kinds existsb]. rewrite ?(String.eqb_sym _ (plain s)), ?E1, ?E2, ?E3, ?E4, ?E5, ?E6. reflexivity.
Qed.
Lemma sget_sput_eq d s l : sget (sput d s l) (Some s) = Ok l.
Proof. unfold sget. induction d as [|e d IH]; cbn [sput find fst snd]; [now rewrite String.eqb_refl|]. destruct (fst e =? s)%string eqn:E; cbn [find fst snd]; [now rewrite String.eqb_refl|now rewrite E]. Qed.
Lemma sput_same d d' s l : same_data d d' -> same_data (sput d s l) (sput d' s l).
Proof. intros H [t|]; [|reflexivity]. destruct (String.eqb_spec s t) as [->|N]; [now rewrite !sget_sput_eq|]. rewrite !sget_sput_other by exact N. apply H. Qed.
Lemma sput_swap d s l s' l' : s <> s' -> same_data (sput (sput d s l) s' l') (sput (sput d s' l') s l).
Proof.
  intros N [t|]; [|reflexivity]. destruct (String.eqb_spec s t) as [->|N1]; destruct (String.eqb_spec s' t) as [->|N2]; try congruence.
  - rewrite sget_sput_other, !sget_sput_eq by congruence. reflexivity.
  - rewrite sget_sput_eq, sget_sput_other, sget_sput_eq by congruence. reflexivity.
  - now rewrite !sget_sput_other by congruence.
Qed.

Lemma effect_same fstr sh b b' : effect fstr sh -> same_book b b' -> same_res (read_sheet fstr b sh) (read_sheet fstr b' sh).
Proof.
  intros E (B1 & B2 & B3 & B4 & B5 & B6 & B7). destruct E as [e R|_ R|f _ R|l _ R|f _ R|f _ R]; rewrite !R.
  - exact I.
  - cbn. unfold same_book. sp; auto.
  - rewrite B1. destruct (f (bk_opts b')) as [r|]; [|exact I]. cbn. unfold same_book. cbn. sp; try congruence; auto.
  - destruct l as [r|]; [|exact I]. cbn. unfold same_book. cbn. sp; auto. now apply sput_same.
  - cbn. unfold same_book. cbn. sp; try congruence; auto.
  - rewrite B4. destruct (f (bk_profs b')) as [r|]; [|exact I]. cbn. unfold same_book. cbn. sp; auto.
Qed.
Lemma effect_swap fstr s1 s2 b : effect fstr s1 -> effect fstr s2 -> (is_kind s1 = true -> is_kind s2 = true -> title_of s1 <> title_of s2) ->
  same_res (do b1 <- read_sheet fstr b s1; read_sheet fstr b1 s2) (do b1 <- read_sheet fstr b s2; read_sheet fstr b1 s1).
Proof.
  intros E1 E2 D.
  assert (K : forall sh n, In n kinds -> title_of sh = n -> is_kind sh = true) by (intros sh n N T; unfold is_kind; rewrite T; now apply member_In).
  destruct E1 as [e1 R1|K1 R1|f1 T1 R1|l1 T1 R1|f1 T1 R1|f1 T1 R1]; destruct E2 as [e2 R2|K2 R2|f2 T2 R2|l2 T2 R2|f2 T2 R2|f2 T2 R2]; rewrite ?R1, ?R2; cbn [rbind]; rewrite ?R1, ?R2; cbn [rbind bk_opts bk_profs bk_tree bk_data].
  all: try (exfalso; apply D; [eapply K; [|exact T1]; cbn; tauto|eapply K; [|exact T2]; cbn; tauto|congruence]; fail).
  all: repeat match goal with |- context [rbind ?r _] => match r with rbind _ _ => fail 1 | Ok _ => fail 1 | Err _ => fail 1 | _ => destruct r eqn:?; cbn [rbind]; rewrite ?R1, ?R2; cbn [rbind bk_opts bk_profs bk_tree bk_data bk_own bk_conns bk_files] end end.
  all: try exact I; try apply same_res_refl.
  all: repeat match goal with H : ?x = Ok _ |- context [?x] => rewrite H; cbn [rbind] | H : ?x = Err _ |- context [?x] => rewrite H; cbn [rbind] end; try exact I; try apply same_res_refl.
  all: repeat match goal with H : Ok _ = Ok _ |- _ => injection H as H; subst | H : Ok _ = Err _ |- _ => discriminate H | H : Err _ = Ok _ |- _ => discriminate H end; try exact I; try apply same_res_refl.
  all: try congruence.
  cbn. unfold same_book. cbn. sp; try reflexivity. apply sput_swap. apply D; eapply K; try reflexivity; unfold kinds; cbn in *; tauto.
Qed.
Lemma fold_same fstr : forall l b b', (forall sh, In sh l -> effect fstr sh) -> same_book b b' -> same_res (foldM (read_sheet fstr) l b) (foldM (read_sheet fstr) l b').
Proof.
  induction l as [|sh l IH]; intros b b' E S; cbn [foldM]; [exact S|]. pose proof (effect_same fstr sh b b' (E sh (or_introl eq_refl)) S) as H. destruct (read_sheet fstr b sh), (read_sheet fstr b' sh); cbn in H; try contradiction; [|exact I]. cbn [rbind]. apply IH; [|exact H]. intros s I'. apply E. now right.
Qed.
Lemma filter_perm {A} (f : A -> bool) l m : Permutation l m -> Permutation (filter f l) (filter f m).
Proof. induction 1; cbn [filter]; [constructor|destruct (f x); auto|destruct (f x), (f y); auto; constructor|eapply perm_trans; eauto]. Qed.
Lemma fold_perm fstr l l' : Permutation l l' -> (forall sh, In sh l -> effect fstr sh) -> NoDup (map title_of (filter is_kind l)) -> forall b, same_res (foldM (read_sheet fstr) l b) (foldM (read_sheet fstr) l' b).
Proof.
  induction 1 as [|sh l l' P IH|s1 s2 l|l l' l'' P1 IH1 P2 IH2]; intros E N b.
  - apply same_res_refl.
  - cbn [foldM]. destruct (read_sheet fstr b sh) as [b1|]; [|exact I]. cbn [rbind]. apply IH; [intros s S; apply E; now right|]. cbn [filter] in N. destruct (is_kind sh); [now inversion N|exact N].
  - cbn [foldM]. assert (X : same_res (do b1 <- read_sheet fstr b s2; read_sheet fstr b1 s1) (do b1 <- read_sheet fstr b s1; read_sheet fstr b1 s2)).
    { apply effect_swap; [apply E; cbn; auto|apply E; cbn; auto|]. intros K2 K1 T. cbn [filter] in N. rewrite K1, K2 in N. cbn [map] in N. inversion N as [|? ? N1 N2]. apply N1. rewrite T. now left. }
    destruct (read_sheet fstr b s1) as [b1|e1], (read_sheet fstr b s2) as [b2|e2]; cbn [rbind] in *.
    + destruct (read_sheet fstr b2 s1) as [c1|], (read_sheet fstr b1 s2) as [c2|]; cbn in X; try contradiction; [|exact I]. cbn [rbind]. apply fold_same; [intros s S; apply E; cbn; auto|exact X].
    + destruct (read_sheet fstr b1 s2); [contradiction|exact I].
    + destruct (read_sheet fstr b2 s1); [contradiction|exact I].
    + exact I.
  - eapply same_res_trans; [apply IH1; auto|]. apply IH2.
    + intros s S. apply E. exact (Permutation_in s (Permutation_sym P1) S).
    + eapply Permutation_NoDup; [|exact N]. now apply Permutation_map, filter_perm.
Qed.
Lemma correlate_same : forall n net net' d d' ps, same_data net net' -> same_data d d' ->
  match correlate n net d ps, correlate n net' d' ps with Ok a, Ok b => same_data a b | Err e, Err e' => e = e' | _, _ => False end.
Proof.
  induction n as [|n IH]; intros net net' d d' ps SN SD; destruct ps as [|p ps]; cbn [correlate]; auto.
  unfold correlate_step. rewrite (SN (pr_type p)), (SD (pr_type p)). destruct (sget net' (pr_type p)) as [l|]; cbn [rbind]; [|reflexivity]. destruct (extract p l) as [o|]; cbn [rbind]; [|reflexivity]. destruct (sget d' (pr_type p)) as [l1|]; cbn [rbind]; [|reflexivity].
  destruct (existing p l1) as [el|]; cbn [rbind]; [|reflexivity]. destruct (if fst el then Ok (snd el) else delete p (snd el)) as [l2|]; cbn [rbind]; [|reflexivity]. destruct o as [o|]; cbn [rbind]; [|reflexivity].
  destruct (concatM _ o) as [new|]; cbn [rbind]; [|reflexivity]. apply IH; [exact SN|]. destruct (pr_type p); [now apply sput_same|exact SD].
Qed.

(** C268: in a workbook without connections and with at most one sheet of each kind the order of the sheets does not matter: in any order
    the reader fails, or gives the same options, tree and parameters. *)
Theorem C268_order : forall fstr sheets sheets', Permutation sheets sheets' -> (forall sh, In sh sheets -> title_of sh <> "connections energy") -> NoDup (map title_of (filter is_kind sheets)) ->
  same_result (read_excel fstr sheets) (read_excel fstr sheets').
Proof.
  intros fstr l l' P C N. unfold read_excel. pose proof (fold_perm fstr l l' P (fun sh I => sheet_effect fstr sh (C sh I)) N new_book) as H.
  destruct (foldM (read_sheet fstr) l new_book) as [b|], (foldM (read_sheet fstr) l' new_book) as [b'|]; cbn in H; try contradiction; [|exact I]. cbn [rbind].
  destruct H as (H1 & H2 & H3 & H4 & H5 & H6 & H7). rewrite H7. destruct (bk_files b'); [|exact I]. rewrite H1, H4, H3, H6. unfold use_profiles. destruct (wanted (bk_opts b')).
  - pose proof (correlate_same (List.length (bk_profs b')) (bk_data b) (bk_data b') (bk_data b) (bk_data b') (bk_profs b') H2 H2) as X. destruct (correlate _ (bk_data b) _ _), (correlate _ (bk_data b') _ _); try contradiction; [|exact I]. cbn. sp; auto.
  - cbn. sp; auto.
Qed.
Print Assumptions C268_order.
(** Options before and after the generators. *)
Example C268_witness : Permutation [ex_opts; ex_gens] [ex_gens; ex_opts] /\ NoDup (map title_of (filter is_kind [ex_opts; ex_gens])) /\
  match read_excel ex_fstr [ex_opts; ex_gens] with Ok r => List.length (ld_opts r) = 3 /\ match sget (ld_data r) (Some "generator") with Ok l => List.length l = 3 | Err _ => False end | Err _ => False end.
Proof.
  sp; [constructor| |vm_compute; auto]. vm_compute. constructor; [intros [H|[]]; discriminate H|]. constructor; [intros []|constructor].
Qed.
