(** Properties of the reader of workbooks: options, elements of the network and the tree. *)
From Coq Require Import List String Ascii Bool Arith ZArith QArith Lia.
From Verif Require Import Base GraphDataProofs ReaderProofs ExcelSheet ExcelTree ExcelProfiles ExcelBook ExcelProofs ExcelTreeProofs.
Import ListNotations.
Open Scope string_scope.
Open Scope nat_scope.
Open Scope list_scope.

Local Ltac sp := repeat match goal with |- _ /\ _ => split end.

(** ** Specification *)

(** The second row has these titles and nothing behind them. *)
Definition titled (sh : sheet) (ts : list string) : Prop :=
  (forall c s, nth_error ts c = Some s -> cell_at sh 2 (S c) = Some (CStr s)) /\ cell_at sh 2 (S (List.length ts)) = None.
(** The values from the third row down to the first empty cell of column [c] (counted from 0). *)
Definition below (sh : sheet) (c : nat) (vs : list cell) : Prop :=
  (forall i v, nth_error vs i = Some v -> cell_at sh (3 + i) (S c) = Some v) /\ cell_at sh (3 + List.length vs) (S c) = None.
(** The only column with this title (in any case) has these values. *)
Definition one_column (sh : sheet) (ts : list string) (name : string) (vs : list cell) : Prop :=
  vs <> [] /\ exists c t, nth_error ts c = Some t /\ low_title t = name /\ below sh c vs /\
  forall c' t', nth_error ts c' = Some t' -> low_title t' = name -> c' = c.
(** The cells that switch a problem on. *)
Definition switched (v : cell) : Prop :=
  v = CBool true \/ v = CInt 1 \/ exists s, v = CStr s /\ (lower s = "true" \/ lower s = "=true").

(* ------------------------------------------------------------------ *)
(** ** C248 *)

Lemma column_of sh ts name vs : titled sh ts -> one_column sh ts name vs -> named_column (map low_title ts) 1 sh name = vs.
Proof.
  intros _ (V & c & t & H & <- & (B & N) & U). apply (named_column_one sh (low_title t) vs _ 1 c).
  - rewrite nth_error_map, H. reflexivity.
  - intros c' H'. rewrite nth_error_map in H'. destruct (nth_error ts c') as [t'|] eqn:E; [|discriminate]. cbn in H'. injection H' as H'. eapply U; eauto.
  - exact V.
  - apply down_spec; [lia|exact B|exact N].
Qed.
Lemma bool_of_switched v : bool_of v = true <-> switched v.
Proof.
  unfold switched. destruct v as [s|z|q|b]; cbn [bool_of]; split.
  - intros H. apply orb_true_iff in H. right. right. exists s. split; [reflexivity|]. destruct H as [H|H]; apply String.eqb_eq in H; auto.
  - intros [H|[H|(s' & H & [E|E])]]; try discriminate; injection H as <-; rewrite E; reflexivity.
  - intros H. apply Z.eqb_eq in H. subst. auto.
  - intros [H|[H|(s' & H & _)]]; try discriminate. injection H as ->. reflexivity.
  - discriminate.
  - intros [H|[H|(s' & H & _)]]; discriminate.
  - intros ->. auto.
  - intros [H|[H|(s' & H & _)]]; try discriminate. now injection H as ->.
Qed.
Lemma read_options_ok sh ts opts ps acts es cs vs fs :
  titled sh ts -> one_column sh ts "problem" ps -> one_column sh ts "active" acts -> one_column sh ts "engine" es ->
  one_column sh ts "characteristics" cs -> one_column sh ts "options" vs -> named_column (map low_title ts) 1 sh "paths" = fs ->
  List.length ps = List.length acts -> List.length ps = List.length es -> List.length cs = List.length vs ->
  (forall v, In v (ps ++ es ++ cs) -> exists s, v = CStr s) ->
  read_model_options opts sh = Ok (fold_left put_characteristic (combine (map (meaning characteristic_names) cs) vs)
    (fold_left put_problem (combine (combine (map (meaning problem_names) ps) (map bool_of acts)) (map (meaning engine_names) es)) opts), match fs with [] => [] | _ => [fs] end).
Proof.
  intros T P A E C V F L1 L2 L3 S. unfold read_model_options. rewrite (titles_ok sh ts) by apply T. cbn [rbind].
  unfold read_bools, read_known, read_any. rewrite !(column_of sh ts _ _ T P), !(column_of sh ts _ _ T A), !(column_of sh ts _ _ T E), !(column_of sh ts _ _ T C), !(column_of sh ts _ _ T V), F.
  destruct P as (P & _), A as (A & _), E as (E & _), C as (C & _), V as (V & _).
  destruct acts as [|a acts]; [congruence|]. destruct ps as [|p ps]; [congruence|]. destruct es as [|e es]; [congruence|]. destruct cs as [|c cs]; [congruence|]. destruct vs as [|v vs]; [congruence|].
  rewrite !known_ok by (intros x Hx; apply S; rewrite !in_app_iff; auto). cbn [rbind]. rewrite !map_length. rewrite L1, <- L2, L1, L3, !Nat.eqb_refl. cbn [andb]. rewrite ?Nat.eqb_refl. destruct fs; reflexivity.
Qed.

Lemma nth_error_combine {A B} (l : list A) (m : list B) : forall i a b, nth_error l i = Some a -> nth_error m i = Some b -> nth_error (combine l m) i = Some (a, b).
Proof. revert m. induction l as [|x l IH]; intros m i a b H1 H2; [destruct i; discriminate|]. destruct m as [|y m]; [destruct i; discriminate|]. destruct i; [cbn in *; congruence|]. cbn in *. now apply IH. Qed.
Lemma nth_error_combine_inv {A B} (l : list A) (m : list B) : forall i a b, nth_error (combine l m) i = Some (a, b) -> nth_error l i = Some a /\ nth_error m i = Some b.
Proof. revert m. induction l as [|x l IH]; intros m i a b H; [destruct i; discriminate|]. destruct m as [|y m]; [destruct i; discriminate|]. destruct i; [cbn in *; injection H as -> ->; auto|]. cbn in *. now apply IH. Qed.
Lemma split_at {A} (l : list A) i a : nth_error l i = Some a -> exists l1 l2, l = l1 ++ a :: l2 /\ forall b, In b l2 -> exists j, i < j /\ nth_error l j = Some b.
Proof.
  intros H. destruct (nth_error_split l i H) as (l1 & l2 & -> & L). exists l1, l2. split; [reflexivity|]. intros b I. apply In_nth_error in I as (k & I). exists (S (i + k)). split; [lia|].
  rewrite nth_error_app2 by lia. replace (S (i + k) - List.length l1) with (S k) by lia. exact I.
Qed.

(** C248: a sheet of options in which the columns of problems, switches and engines have one length, and those of characteristics and
    options another, is read; in the end every problem has the switch and the engine of the last row that names it, every
    characteristic the last option, and all other options are as before. *)
Theorem C248_options : forall sh ts opts ps acts es cs vs,
  titled sh ts -> one_column sh ts "problem" ps -> one_column sh ts "active" acts -> one_column sh ts "engine" es ->
  one_column sh ts "characteristics" cs -> one_column sh ts "options" vs -> (forall t, In t ts -> low_title t <> "paths") ->
  List.length ps = List.length acts -> List.length ps = List.length es -> List.length cs = List.length vs ->
  (forall v, In v (ps ++ es ++ cs) -> exists s, v = CStr s) ->
  exists opts', read_model_options opts sh = Ok (opts', []) /\
  (forall i p a e n, nth_error ps i = Some p -> nth_error acts i = Some a -> nth_error es i = Some e -> meaning problem_names p = Some n ->
     (forall j q, i < j -> nth_error ps j = Some q -> meaning problem_names q <> Some n) ->
     exists b, (b = true <-> switched a) /\ option_of opts' n = Some (mkOpt (Some n) (CBool b) (meaning engine_names e))) /\
  (forall i c v n, nth_error cs i = Some c -> nth_error vs i = Some v -> meaning characteristic_names c = Some n ->
     (forall j q, i < j -> nth_error cs j = Some q -> meaning characteristic_names q <> Some n) ->
     option_map mo_value (option_of opts' n) = Some v) /\
  (forall n, (forall p, In p ps -> meaning problem_names p <> Some n) -> (forall c, In c cs -> meaning characteristic_names c <> Some n) ->
     option_of opts' n = option_of opts n).
Proof.
  intros sh ts opts ps acts es cs vs T P A E C V F L1 L2 L3 S.
  eexists. split; [rewrite (read_options_ok sh ts opts ps acts es cs vs [] T P A E C V); auto; apply named_column_none; intros I; apply in_map_iff in I as (t & I1 & I2); exact (F t I2 I1)|].
  assert (PI : forall x, In x (combine (combine (map (meaning problem_names) ps) (map bool_of acts)) (map (meaning engine_names) es)) -> exists p, In p ps /\ fst (fst x) = meaning problem_names p).
  { intros ((k & b) & e) I. apply in_combine_l in I. apply in_combine_l in I. apply in_map_iff in I as (p & <- & I). exists p. auto. }
  assert (CI : forall x, In x (combine (map (meaning characteristic_names) cs) vs) -> exists c, In c cs /\ fst x = meaning characteristic_names c).
  { intros (k & v) I. apply in_combine_l in I. apply in_map_iff in I as (c & <- & I). exists c. auto. }
  assert (MM : forall p c n, meaning problem_names p = Some n -> meaning characteristic_names c = Some n -> False).
  { intros p c n Hp Hc. destruct p, c; try discriminate. exact (names_apart _ _ _ Hp Hc). }
  sp.
  - intros i p a e n Hp Ha He M U. exists (bool_of a). split; [apply bool_of_switched|].
    rewrite characteristics_other by (intros x I; destruct (CI x I) as (c & _ & ->); intros Hc; exact (MM p c n M Hc)).
    assert (X : nth_error (combine (combine (map (meaning problem_names) ps) (map bool_of acts)) (map (meaning engine_names) es)) i = Some (Some n, bool_of a, meaning engine_names e)).
    { apply nth_error_combine; [apply nth_error_combine|]; rewrite nth_error_map; [rewrite Hp|rewrite Ha|rewrite He]; cbn; congruence. }
    destruct (split_at _ _ _ X) as (l1 & l2 & EQ & LT). rewrite EQ. apply problems_last. intros ((k & b) & e') I. destruct (LT _ I) as (j & Hj & N). apply nth_error_combine_inv in N as (N & _). apply nth_error_combine_inv in N as (N & _). rewrite nth_error_map in N. destruct (nth_error ps j) as [q|] eqn:Q; [|discriminate]. cbn in N. injection N as <-. cbn [fst]. exact (U j q Hj Q).
  - intros i c v n Hc Hv M U.
    assert (X : nth_error (combine (map (meaning characteristic_names) cs) vs) i = Some (Some n, v)).
    { apply nth_error_combine; auto. rewrite nth_error_map, Hc. cbn. congruence. }
    destruct (split_at _ _ _ X) as (l1 & l2 & EQ & LT). rewrite EQ. apply characteristics_last. intros (k & w) I. destruct (LT _ I) as (j & Hj & N). apply nth_error_combine_inv in N as (N & _). rewrite nth_error_map in N. destruct (nth_error cs j) as [q|] eqn:Q; [|discriminate]. cbn in N. injection N as <-. cbn [fst]. exact (U j q Hj Q).
  - intros n HP HC. rewrite characteristics_other by (intros x I; destruct (CI x I) as (c & I2 & ->); auto). apply problems_other. intros x I. destruct (PI x I) as (p & I2 & ->). auto.
Qed.
Print Assumptions C248_options.

(** A sheet with two problems, of which one is given twice, and a solver. *)
Definition ex_opts : sheet :=
  [[Some (CStr "model")];
   [Some (CStr "Problem"); Some (CStr "Active"); Some (CStr "Engine"); Some (CStr "Characteristics"); Some (CStr "Options")];
   [Some (CStr "DC OPF"); Some (CBool true); Some (CStr "pyene"); Some (CStr "Solver"); Some (CStr "CLP")];
   [Some (CStr "BT"); Some (CInt 1); Some (CStr "pyene")];
   [Some (CStr "Optimal power flow"); Some (CStr "False"); Some (CStr "fdif")]].
Example C248_witness : titled ex_opts ["Problem"; "Active"; "Engine"; "Characteristics"; "Options"] /\
  one_column ex_opts ["Problem"; "Active"; "Engine"; "Characteristics"; "Options"] "problem" [CStr "DC OPF"; CStr "BT"; CStr "Optimal power flow"] /\
  read_model_options [] ex_opts = Ok ([mkOpt (Some "DC OPF") (CBool false) (Some "fdif"); mkOpt (Some "BT") (CBool true) (Some "pyene"); mkOpt (Some "solver") (CStr "CLP") None], []).
Proof.
  unfold titled, one_column, below. sp; try reflexivity; try discriminate.
  - intros c s H. do 6 (destruct c as [|c]; [now injection H as <- || discriminate H|]). destruct c; discriminate H.
  - exists 0, "Problem". sp; try reflexivity.
    + intros i v H. do 3 (destruct i as [|i]; [now injection H as <-|]). destruct i; discriminate H.
    + intros c' t' H L. do 5 (destruct c' as [|c']; [injection H as <-; (reflexivity || discriminate L)|]). destruct c'; discriminate H.
Qed.

(* ------------------------------------------------------------------ *)
(** ** C249 *)

(** The column of the IDs is the last one titled so; [ids] are the IDs from the third row on up to the first that is empty or not true
    in Python (an empty string or 0). *)
Definition id_column (ts : list string) (k : nat) : Prop :=
  exists t, nth_error ts k = Some t /\ low_title t = "id" /\ forall j t', k < j -> nth_error ts j = Some t' -> low_title t' <> "id".
Definition ids_of (sh : sheet) (k : nat) (ids : list cell) : Prop :=
  (forall i id, nth_error ids i = Some id -> cell_at sh (3 + i) (S k) = Some id /\ truthy id = true) /\
  (forall id, cell_at sh (3 + List.length ids) (S k) = Some id -> truthy id = false).
(** The parameters of elements are doubles or booleans. *)
Definition parameter (n : string) : Prop := In n (double_parameters ++ bool_parameters).

Lemma map_combine {A B C} (f : A -> B -> C) l m : List.length l = List.length m -> forall i b, nth_error m i = Some b -> exists a, nth_error l i = Some a /\ nth_error (map (fun p => f (fst p) (snd p)) (combine l m)) i = Some (f a b).
Proof. revert m. induction l as [|x l IH]; intros [|y m] L i b H; try discriminate; [destruct i; discriminate|]. destruct i; [cbn in *; injection H as ->; eauto|]. cbn in *. injection L as L. exact (IH m L i b H). Qed.
Lemma nth_error_seq a n : forall i, i < n -> nth_error (seq a n) i = Some (a + i).
Proof. revert a. induction n as [|n IH]; intros a i H; [lia|]. destruct i; [cbn; f_equal; lia|]. cbn. rewrite IH by lia. f_equal. lia. Qed.
Lemma char_get cs n : get_char cs n = match char_named cs n with Some c => ch_value c | None => VCell (CStr "N/A") end.
Proof. reflexivity. Qed.
Lemma is_param_iff n : is_param n = true <-> parameter n.
Proof. unfold is_param, parameter. rewrite orb_true_iff, !member_In, in_app_iff. reflexivity. Qed.

(** C249: a sheet of elements with a column of IDs is read.  Every element gives one piece of information for each of its cells below
    the title of a parameter, in order, with the value of the cell and the type of the parameter; each piece has the name of the
    parameter, the ID and the type of the element, the numbers and texts of the row (of two columns with one meaning the first) and the
    list of all its subtypes. *)
Theorem C249_elements : forall fstr names typ sh ts k ids, titled sh ts -> id_column ts k -> ids_of sh k ids ->
  exists infos, read_info_network fstr names typ sh = Ok (List.concat infos) /\ List.length infos = List.length ids /\
  forall i id, nth_error ids i = Some id -> exists is, nth_error infos i = Some is /\
  let es := entries names ts (S k) (cell_at sh (3 + i)) in
  map (fun x => (get x "name", in_value x, in_type x)) is = map (fun e => (VCell (CStr (fst e)), snd e, param_type (fst e))) (filter (fun e => is_param (fst e)) es) /\
  forall x, In x is ->
    get x "ID" = VCell id /\ get x "type" = VCell (CStr typ) /\
    (forall n v, In n integer_characteristics -> find (fun e => (fst e =? n)%string) es = Some (n, v) -> get x n = VCell v) /\
    (forall n v, In n ["name_bus"; "zone"; "group"] -> find (fun e => (fst e =? n)%string) es = Some (n, v) -> get x n = VCell (CStr (str_cell fstr v))) /\
    (forall n, In n (integer_characteristics ++ ["name_bus"; "zone"; "group"]) -> (forall v, ~ In (n, v) es) -> has x n = false) /\
    (if existsb (fun e => (fst e =? "subtype")%string) es then get x "subtype" = VList (subtypes fstr es) else has x "subtype" = false) /\
    has x "pt" = false /\ has x "hour" = false.
Proof.
  intros fstr names typ sh ts k ids T (t & K & KI & KU) (I & IN).
  unfold read_info_network, parameter_names. rewrite (titles_ok sh ts) by apply T. cbn [rbind].
  rewrite (last_id_spec (map low_title ts) 1 k).
  2:{ rewrite nth_error_map, K. cbn. now rewrite KI. }
  2:{ intros j J E. rewrite nth_error_map in E. destruct (nth_error ts j) as [t'|] eqn:TJ; [|discriminate]. cbn in E. injection E as E. exact (KU j t' J TJ E). }
  cbn [rbind fst snd]. change (1 + k) with (S k).
  assert (CA : forall i c, in_row (nth i (skipn 2 sh) []) c = cell_at sh (3 + i) c) by (intros i c; unfold cell_at; rewrite nth_skipn; do 2 f_equal; lia).
  rewrite (element_rows_concat fstr typ _ (S k) (skipn 2 sh) ids).
  2:{ intros i id H. rewrite CA. apply I. exact H. }
  2:{ intros id H. rewrite CA in H. now apply IN. }
  eexists. split; [reflexivity|]. split; [rewrite map_length, combine_length, seq_length; lia|].
  intros i id H. assert (Hi : i < List.length ids) by (apply nth_error_Some; congruence).
  destruct (map_combine (fun j d => element_row fstr typ (map (dget names) (map low_title ts)) (S k) d (nth j (skipn 2 sh) [])) (seq 0 (List.length ids)) ids (seq_length _ _) i id H) as (a & A & N).
  rewrite nth_error_seq in A by exact Hi. injection A as <-. exists (element_row fstr typ (map (dget names) (map low_title ts)) (S k) id (nth i (skipn 2 sh) [])). split; [exact N|]. clear N.
  set (es := entries names ts (S k) (cell_at sh (3 + i))).
  unfold element_row. rewrite element_row_fold.
  replace (flat_map _ (combine (seq 1 (List.length ts)) ts)) with es.
  2:{ unfold es, entries. apply flat_map_ext. intros (c & t0). cbn [fst snd]. change (0 + i) with i. now rewrite CA. }
  set (st0 := [mkChar "ID" (VCell id) "string"; mkChar "type" (VCell (CStr typ)) "string"]).
  pose proof (row_params fstr es st0 []) as PS.
  pose proof (fun n A B => row_char fstr n A B es st0 []) as RC.
  pose proof (row_subtype fstr es st0 [] [] eq_refl) as RS.
  assert (PH : char_named (fst (row_fold fstr es (st0, []))) "pt" = None /\ char_named (fst (row_fold fstr es (st0, []))) "hour" = None).
  { split; apply row_none; reflexivity. }
  pose proof (row_type fstr es st0 [] _ eq_refl) as RT.
  destruct (row_fold fstr es (st0, [])) as (cs & ps). cbn [fst snd app] in PS, RC, RS, PH, RT. subst ps.
  assert (PN : forall n, n <> "name" -> forall m v t, get (mkInfo (mkChar "name" (VCell (CStr m)) "string" :: cs) v t) n = get_char cs n /\ has (mkInfo (mkChar "name" (VCell (CStr m)) "string" :: cs) v t) n = has_char cs n).
  { intros n E m v t0. unfold get, has, get_char, has_char. cbn [in_chars find existsb ch_name]. destruct (String.eqb_spec "name" n); [congruence|]. auto. }
  split.
  - rewrite !map_map. apply map_ext. intros e. reflexivity.
  - intros x X. apply in_map_iff in X as (((m & v) & ty) & <- & _).
    assert (G : forall n, n <> "name" -> n <> "subtype" -> member integer_characteristics n || member string_characteristics n = true -> get (mkInfo (mkChar "name" (VCell (CStr m)) "string" :: cs) v ty) n =
        match char_named st0 n with Some c => ch_value c | None => match find (fun e => (fst e =? n)%string) es with Some e => ch_value (kept fstr n (snd e)) | None => VCell (CStr "N/A") end end).
    { intros n E1 E2 E3. destruct (PN n E1 m v ty) as (-> & _). rewrite char_get, RC by auto. destruct (char_named st0 n); [reflexivity|]. destruct (find _ es); reflexivity. }
    sp.
    + rewrite G by (reflexivity || discriminate). reflexivity.
    + destruct (PN "type" ltac:(discriminate) m v ty) as (-> & _). rewrite char_get, RT. reflexivity.
    + intros n w IN' F. rewrite G.
      * rewrite F. cbn [snd]. unfold kept. rewrite (proj2 (member_In _ _) IN'). cbn [ch_value]. destruct IN' as [<-|[<-|[<-|[<-|[]]]]]; reflexivity.
      * destruct IN' as [<-|[<-|[<-|[<-|[]]]]]; discriminate.
      * destruct IN' as [<-|[<-|[<-|[<-|[]]]]]; discriminate.
      * now rewrite (proj2 (member_In _ _) IN').
    + intros n w IN' F. rewrite G; [rewrite F|..]; destruct IN' as [<-|[<-|[<-|[]]]]; (reflexivity || discriminate).
    + intros n IN' F. assert (n <> "name" /\ n <> "subtype" /\ member integer_characteristics n || member string_characteristics n = true /\ char_named st0 n = None) as (E1 & E2 & E3 & E4) by (cbn in IN'; repeat destruct IN' as [<-|IN']; try (repeat split; (reflexivity || discriminate)); destruct IN').
      destruct (PN n E1 m v ty) as (_ & ->). rewrite has_named, RC by auto. rewrite E4. destruct (find _ es) as [(q & w)|] eqn:FF; [|reflexivity]. apply find_some in FF as (FF1 & FF2). cbn in FF2. apply String.eqb_eq in FF2. subst q. exfalso. exact (F w FF1).
    + destruct (PN "subtype" ltac:(discriminate) m v ty) as (-> & ->). rewrite has_named, char_get, RS.
      assert (SU : existsb (fun e => (fst e =? "subtype")%string) es = match subtypes fstr es with [] => false | _ => true end).
      { unfold subtypes. clear. induction es as [|e es IH]; [reflexivity|]. cbn. destruct (fst e =? "subtype")%string; [reflexivity|exact IH]. }
      rewrite SU. destruct (subtypes fstr es); reflexivity.
    + destruct (PN "pt" ltac:(discriminate) m v ty) as (_ & ->). now rewrite has_named, (proj1 PH).
    + destruct (PN "hour" ltac:(discriminate) m v ty) as (_ & ->). now rewrite has_named, (proj2 PH).
Qed.
Print Assumptions C249_elements.

(** Two generators, the first with two subtypes. *)
Definition ex_gens : sheet :=
  [[Some (CStr "generator")];
   [Some (CStr "ID"); Some (CStr "Pmax"); Some (CStr "Number"); Some (CStr "Subtype"); Some (CStr "Subtype"); Some (CStr "Status")];
   [Some (CStr "g1"); Some (CInt 20); Some (CInt 4); Some (CStr "hydro"); Some (CStr "run of river"); Some (CBool true)];
   [Some (CInt 7); Some (CInt 30); Some (CInt 5); Some (CStr "solar")]].
Definition ex_fstr (q : Q) : string := "1.5".
Example C249_witness : id_column ["ID"; "Pmax"; "Number"; "Subtype"; "Subtype"; "Status"] 0 /\ ids_of ex_gens 0 [CStr "g1"; CInt 7] /\
  match read_info_network ex_fstr generator_names "generator" ex_gens with
  | Ok l => map (fun x => (get x "name", in_value x, get x "ID", get x "subtype")) l =
      [(VCell (CStr "active power max limit"), CInt 20, VCell (CStr "g1"), VList [CStr "hydro"; CStr "run of river"]);
       (VCell (CStr "status"), CBool true, VCell (CStr "g1"), VList [CStr "hydro"; CStr "run of river"]);
       (VCell (CStr "active power max limit"), CInt 30, VCell (CInt 7), VList [CStr "solar"])]
  | Err _ => False
  end.
Proof.
  sp; [|split|reflexivity].
  - exists "ID". sp; try reflexivity. intros j t' J H. do 6 (destruct j as [|j]; [try lia; injection H as <-; discriminate|]). destruct j; discriminate H.
  - intros i id H. do 2 (destruct i as [|i]; [injection H as <-; split; reflexivity|]). destruct i; discriminate H.
  - intros id H. discriminate H.
Qed.

(* ------------------------------------------------------------------ *)
(** ** C250 *)

(** C250 (refuted): not every element with an ID is in the data: an element whose cells give no parameter (such as a bus with a number
    and a name only) leaves nothing. *)
Theorem C250_element_refuted : forall fstr names typ sh ts k ids i id, titled sh ts -> id_column ts k -> ids_of sh k ids -> nth_error ids i = Some id ->
  (forall j id', nth_error ids j = Some id' -> j <> i -> id' <> id) ->
  (forall n v, In (n, v) (entries names ts (S k) (cell_at sh (3 + i))) -> ~ parameter n) ->
  exists l, read_info_network fstr names typ sh = Ok l /\ forall x, In x l -> get x "ID" <> VCell id.
Proof.
  intros fstr names typ sh ts k ids i id T K I H U N. destruct (C249_elements fstr names typ sh ts k ids T K I) as (infos & R & L & P). exists (List.concat infos). split; [exact R|].
  intros x X. apply in_concat in X as (is & X1 & X2). apply In_nth_error in X1 as (j & X1). assert (J : j < List.length ids) by (rewrite <- L; apply nth_error_Some; congruence).
  destruct (nth_error ids j) as [id'|] eqn:E; [|apply nth_error_None in E; lia]. destruct (P j id' E) as (is' & Y1 & Y2 & Y3). assert (is' = is) by congruence. subst is'.
  destruct (Y3 x X2) as (-> & _). intros C. injection C as C. destruct (Nat.eq_dec j i) as [->|D]; [|exact (U j id' E D C)].
  assert (F : filter (fun e => is_param (fst e)) (entries names ts (S k) (cell_at sh (3 + i))) = []).
  { clear - N. induction (entries names ts (S k) (cell_at sh (3 + i))) as [|(n & v) es IH]; [reflexivity|]. cbn [filter fst]. destruct (is_param n) eqn:E; [exfalso; apply (N n v (or_introl eq_refl)), is_param_iff, E|]. apply IH. intros m w M. apply (N m w). now right. }
  cbv zeta in Y2. rewrite F in Y2. apply map_eq_nil in Y2. subst is. destruct X2.
Qed.
Print Assumptions C250_element_refuted.
(** The second bus has a number and a name only. *)
Definition ex_buses : sheet :=
  [[Some (CStr "bus")];
   [Some (CStr "ID"); Some (CStr "Number"); Some (CStr "Name"); Some (CStr "Pd")];
   [Some (CStr "b1"); Some (CInt 1); Some (CStr "North"); Some (CInt 5)];
   [Some (CStr "b2"); Some (CInt 2); Some (CStr "South")]].
Example C250_witness : titled ex_buses ["ID"; "Number"; "Name"; "Pd"] /\ ids_of ex_buses 0 [CStr "b1"; CStr "b2"] /\
  (forall n v, In (n, v) (entries node_names ["ID"; "Number"; "Name"; "Pd"] 1 (cell_at ex_buses 4)) -> ~ parameter n).
Proof.
  unfold titled, ids_of. sp; try reflexivity.
  - intros c s H. do 4 (destruct c as [|c]; [now injection H as <-|]). destruct c; discriminate H.
  - intros i id H. do 2 (destruct i as [|i]; [injection H as <-; split; reflexivity|]). destruct i; discriminate H.
  - intros id H. discriminate H.
  - intros n v [H|[H|[]]]; injection H as <- <-; intros P; apply is_param_iff in P; discriminate P.
Qed.

(* ------------------------------------------------------------------ *)
(** ** C251 *)

(** Names of three accepted columns. *)
Definition dropped (n : string) : Prop := n = "length" \/ n = "pieces" \/ n = "model".
(** C251 (refuted): not all columns with accepted titles reach the data: the length of a branch and the pieces and the model of the cost
    of a generator are read (with no warning) and left out. *)
Theorem C251_columns_refuted : forall n, dropped n -> dget (branch_names ++ generator_names) n = Some n /\
  forall fstr names typ sh l, read_info_network fstr names typ sh = Ok l -> forall x, In x l -> get x "name" <> VCell (CStr n) /\ has x n = false.
Proof.
  intros n D. split; [destruct D as [->|[->| ->]]; reflexivity|]. intros fstr names typ sh l R x X.
  unfold read_info_network in R. destruct (parameter_names names sh) as [(ns & k)|] eqn:PN; [|discriminate R]. cbn [rbind fst snd] in R. assert (EL : l = element_rows fstr typ ns k (skipn 2 sh)) by congruence. subst l. clear R.
  revert X. generalize (skipn 2 sh). intros rows. induction rows as [|row rows IH]; cbn [element_rows]; [intros X; destruct X|]. destruct (in_row row k) as [id|]; [|intros X; destruct X]. destruct (truthy id); [|intros X; destruct X].
  intros X. apply in_app_iff in X as [X|X]; [|exact (IH X)]. clear IH.
  unfold parameter_names in PN. destruct (titles sh) as [ts|] eqn:TS; [|discriminate PN]. cbn [rbind] in PN. destruct (last_id ts 1); [|discriminate PN]. injection PN as <- <-.
  unfold element_row in X. cbv zeta in X.
  set (st0 := ([mkChar "ID" (VCell id) "string"; mkChar "type" (VCell (CStr typ)) "string"], [])) in X.
  assert (G : forall cns (st : list charac * list (string * cell * string)), char_named (fst st) n = None -> (forall p, In p (snd st) -> fst (fst p) <> n) ->
     let st' := fold_left (fun st cn => let '(c, name) := cn in match name, in_row row c with Some m, Some v => if c =? n0 then st else element_cell fstr st m v | _, _ => st end) cns st in
     char_named (fst st') n = None /\ (forall p, In p (snd st') -> fst (fst p) <> n)).
  { clear X. induction cns as [|(c & name) cns IH]; intros st A B; [split; auto|]. cbn [fold_left]. destruct name as [m|]; [|apply IH; auto]. destruct (in_row row c) as [v|]; [|apply IH; auto]. destruct (c =? n0); [apply IH; auto|].
    destruct st as (cs & ps). cbn [fst snd] in A, B.
    assert (NP : is_param n = false) by (destruct D as [->|[->| ->]]; reflexivity).
    assert (NC : member integer_characteristics n = false /\ member string_characteristics n = false) by (destruct D as [->|[->| ->]]; split; reflexivity).
    pose proof (row_none fstr n (proj1 NC) (proj2 NC) [(m, v)] cs ps A) as R1. pose proof (row_params fstr [(m, v)] cs ps) as R2. unfold row_fold in R1, R2. cbn [fold_left fst snd] in R1, R2.
    apply IH; [exact R1|]. rewrite R2. intros p P. apply in_app_iff in P as [P|P]; [auto|]. cbn [filter fst] in P. destruct (is_param m) eqn:E; [|destruct P]. destruct P as [<-|[]]. cbn [fst]. intros ->. congruence. }
  specialize (G (combine (seq 1 (List.length (map (dget names) ts))) (map (dget names) ts)) st0).
  destruct G as (G1 & G2); [destruct D as [->|[->| ->]]; reflexivity|intros p []|]. cbv zeta in G1, G2. 
  match type of G1 with char_named (fst ?F) n = None => remember F as ff eqn:EF in * end. destruct ff as (cs & ps).
  rename X into X'.
  apply in_map_iff in X' as (((m & v) & t) & <- & M). cbn [fst snd] in G1, G2. specialize (G2 _ M). cbn [fst] in G2. split.
  - unfold get, get_char. cbn. intros C. injection C as C. congruence.
  - unfold has. rewrite has_named. cbn [in_chars]. unfold char_named. cbn [find ch_name]. destruct (String.eqb_spec "name" n) as [C|_]; [destruct D as [->|[->| ->]]; discriminate C|]. unfold char_named in G1. now rewrite G1.
Qed.
Print Assumptions C251_columns_refuted.
Example C251_witness : dropped "length" /\ match read_info_network ex_fstr branch_names "branch"
  [[Some (CStr "branch")]; [Some (CStr "ID"); Some (CStr "Length"); Some (CStr "R")]; [Some (CStr "l1"); Some (CInt 80); Some (CNum (1 # 10))]] with
  | Ok l => map in_value l = [CNum (1 # 10)] | Err _ => False end.
Proof. split; [now left|reflexivity]. Qed.

(* ------------------------------------------------------------------ *)
(** ** C252 *)

(** The titles of blocks and the parameters they stand for. *)
Definition block_titles : list (string * string) := [("names", "name"); ("inputs", "input"); ("outputs", "output"); ("weights", "weight")].
Definition title_row (row : list (option cell)) (n : string) : Prop := exists s, in_row row 1 = Some (CStr s) /\ In (lower s, n) block_titles.
Definition no_title (row : list (option cell)) : Prop := forall s, in_row row 1 = Some (CStr s) -> ~ In (lower s) (map fst block_titles).
(** The rows have these blocks: a title, its levels and a row whose first cell is empty; at most 19 rows lie before a title, and no
    title comes in the 20 rows after the last block. *)
Inductive laid : sheet -> list block -> Prop :=
| laid_none rows : (forall row, In row (firstn 20 rows) -> no_title row) -> laid rows []
| laid_block gap row lrows rest n lvs bs : Forall no_title gap -> List.length gap < 20 -> title_row row n -> Forall2 level_row lrows lvs ->
    (forall r rs, rest = r :: rs -> in_row r 1 = None) -> laid rest bs -> laid (gap ++ row :: lrows ++ rest) ((n, lvs) :: bs).
(** The name at a place of a level, in lower case; an empty string if there is none. *)
Definition node_name (bs : list block) (level : cell) (i : nat) : cell :=
  match find (fun lv => cell_eqb (fst lv) level) (flat_map snd (filter (fun b => (fst b =? "name")%string) bs)) with
  | Some lv => match nth_error (snd lv) i with Some v => tree_value v | None => CStr "" end
  | None => CStr ""
  end.
(** The parameters of a tree. *)
Definition tree_of_blocks (bs : list block) : list treepar :=
  flat_map (fun b => flat_map (fun lv => map (fun iv => mkPar (fst b) (fst lv) (node_name bs (fst lv) (fst iv)) (tree_value (snd iv))) (combine (seq 0 (List.length (snd lv))) (snd lv))) (snd b))
    (filter (fun b => negb (fst b =? "name")%string) bs).

Lemma title_block row n : title_row row n -> block_name (in_row row 1) = Some n.
Proof. intros (s & -> & H). unfold block_name. destruct H as [H|[H|[H|[H|[]]]]]; injection H as <- <-; reflexivity. Qed.
Lemma no_title_block row : no_title row -> untitled row.
Proof.
  intros H. unfold untitled, block_name. destruct (in_row row 1) as [[s| | |]|] eqn:E; try reflexivity. specialize (H s E). destruct (dget _ (lower s)) as [m|] eqn:D; [|reflexivity].
  exfalso. apply H. apply dget_In in D. apply (in_map fst) in D. exact D.
Qed.
Lemma no_title_empty row : in_row row 1 = None -> no_title row.
Proof. intros E s H. congruence. Qed.
Lemma laid_rows rows bs : laid rows bs -> forall l, ForallOrdPairs differ (keys bs) -> (forall n v, In (n, v) (keys bs) -> free n v l) -> tree_rows rows (Looking 0) l = l ++ flat_map block_info bs.
Proof.
  induction 1 as [rows H|gap row lrows rest n lvs bs G GL T L E LD IH]; intros l F FR.
  - rewrite app_nil_r. apply looking_over. intros i I1 I2. apply no_title_block, H. cbn [Nat.add] in I1. apply nth_error_In with (n := i). rewrite ReaderProofs.nth_error_firstn_lt by exact I1. now apply nth_error_nth'.
  - rewrite gap_rows; [|eapply Forall_impl; [|exact G]; intros r; apply no_title_block|cbn; lia]. cbn [Nat.add tree_rows]. rewrite (proj2 (Nat.ltb_lt _ 20) GL), (title_block _ _ T).
    unfold keys in F. cbn [flat_map fst snd] in F. apply fop_app in F as (F1 & F2 & F3).
    rewrite (level_rows n lrows lvs L).
    2:{ apply fresh_of; [exact F1|]. intros lv LV. apply FR. unfold keys. cbn [flat_map fst snd]. apply in_or_app. left. apply (in_map (fun lv => (n, fst lv))), LV. }
    assert (IH' : tree_rows rest (Looking 0) (l ++ block_info (n, lvs)) = (l ++ block_info (n, lvs)) ++ flat_map block_info bs).
    { apply IH; [exact F2|]. intros m v I t T' N. apply in_app_iff in T' as [T'|T'].
      - refine (FR m v _ t T' N). unfold keys. cbn [flat_map fst snd]. apply in_or_app. right. exact I.
      - unfold block_info in T'. cbn [fst snd] in T'. apply in_flat_map in T' as (lv & LV & T'). apply row_info_in in T' as (N' & -> & _). refine (F3 (n, fst lv) (m, v) _ I _); [apply (in_map (fun lv => (n, fst lv))), LV|cbn; congruence]. }
    cbn [flat_map]. rewrite app_assoc, <- IH'. destruct rest as [|r rest]; [reflexivity|]. apply leave_block. now apply (E r rest).
Qed.

Lemma filter_flat_map {A B} (f : B -> bool) (g : A -> list B) l : filter f (flat_map g l) = flat_map (fun a => filter f (g a)) l.
Proof. induction l as [|a l IH]; [reflexivity|]. cbn [flat_map]. now rewrite filter_app, IH. Qed.
Lemma filter_all {A} (f : A -> bool) l b : (forall a, In a l -> f a = b) -> filter f l = if b then l else [].
Proof. intros H. induction l as [|a l IH]; [now destruct b|]. cbn [filter]. rewrite (H a (or_introl eq_refl)), IH by (intros; apply H; now right). now destruct b. Qed.
Lemma block_info_name b t : In t (block_info b) -> ti_name t = fst b.
Proof. unfold block_info. intros H. apply in_flat_map in H as (lv & _ & H). now apply row_info_in in H. Qed.
Lemma filter_blocks (f : string -> bool) bs : filter (fun t => f (ti_name t)) (flat_map block_info bs) = flat_map block_info (filter (fun b => f (fst b)) bs).
Proof.
  rewrite filter_flat_map. induction bs as [|b bs IH]; [reflexivity|]. cbn [flat_map filter]. rewrite IH.
  rewrite (filter_all (fun t => f (ti_name t)) (block_info b) (f (fst b))) by (intros t T; now rewrite (block_info_name _ _ T)). destruct (f (fst b)); reflexivity.
Qed.
Lemma names_levels bs : (forall b, In b bs -> fst b = "name") -> flat_map block_info bs = flat_map (fun lv => row_info "name" (fst lv) 1 (snd lv)) (flat_map snd bs).
Proof.
  induction bs as [|b bs IH]; intros H; [reflexivity|]. cbn [flat_map]. rewrite flat_map_app, IH by (intros; apply H; now right). f_equal. unfold block_info. now rewrite (H b (or_introl eq_refl)).
Qed.
Lemma keys_names bs : apart bs -> ForallOrdPairs differ (map (fun lv => ("name", fst lv)) (flat_map snd (filter (fun b => (fst b =? "name")%string) bs))).
Proof.
  unfold apart. induction bs as [|b bs IH]; intros H; [constructor|]. unfold keys in H. cbn [flat_map] in H. apply fop_app in H as (H1 & H2 & H3). cbn [filter]. destruct (String.eqb_spec (fst b) "name") as [E|E]; [|apply IH, H2].
  cbn [flat_map]. rewrite map_app. rewrite E in H1, H3.
  assert (M : forall y, In y (map (fun lv => ("name", fst lv)) (flat_map snd (filter (fun b => (fst b =? "name")%string) bs))) -> In y (flat_map (fun b => map (fun lv => (fst b, fst lv)) (snd b)) bs)).
  { intros y Y. apply in_map_iff in Y as (lv & <- & Y). apply in_flat_map in Y as (c & C & Y). apply filter_In in C as (C & N). apply String.eqb_eq in N. apply in_flat_map. exists c. split; [exact C|]. rewrite N. apply (in_map (fun lv => ("name", fst lv))), Y. }
  specialize (IH H2). revert H1 H3. generalize (snd b). intros lvs. induction lvs as [|lv lvs IL]; intros H1 H3; [exact IH|]. cbn [map app] in *. inversion H1 as [|? ? G1 G2]; subst. constructor.
  - apply Forall_app. split; [exact G1|]. apply Forall_forall. intros y Y. apply H3; [now left|auto].
  - apply IL; [exact G2|]. intros; apply H3; auto. now right.
Qed.
Lemma node_name_find bs level i : apart bs ->
  match find (place level (S i)) (flat_map block_info (filter (fun b => (fst b =? "name")%string) bs)) with Some n => ti_value n | None => CStr "" end = node_name bs level i.
Proof.
  intros A. unfold node_name. rewrite names_levels by (intros b B; apply filter_In in B as (_ & B); now apply String.eqb_eq in B).
  pose proof (find_levels "name" level i _ (keys_names bs A)) as G. destruct (find (place level (S i)) _) as [t|]; cbn [option_map] in G.
  - destruct (find _ (flat_map snd _)) as [lv|]; [|discriminate]. destruct (nth_error (snd lv) i); [|discriminate]. cbn [option_map] in G. now injection G.
  - destruct (find _ (flat_map snd _)) as [lv|]; [|reflexivity]. destruct (nth_error (snd lv) i); [discriminate|reflexivity].
Qed.
Lemma map_row_info {A} (f : treeinfo -> A) n level vs : map f (row_info n level 1 vs) = map (fun iv => f (mkTree n level (S (fst iv)) (tree_value (snd iv)))) (combine (seq 0 (List.length vs)) vs).
Proof.
  unfold row_info. rewrite map_map. assert (G : forall k, map (fun iv => f (mkTree n level (fst iv) (tree_value (snd iv)))) (combine (seq (S k) (List.length vs)) vs) = map (fun iv => f (mkTree n level (S (fst iv)) (tree_value (snd iv)))) (combine (seq k (List.length vs)) vs)); [|apply G].
  induction vs as [|v vs IH]; intros k; [reflexivity|]. cbn [List.length seq combine map fst snd]. f_equal. apply IH.
Qed.
Lemma load_blocks bs : apart bs -> load_balance_tree (flat_map block_info bs) = tree_of_blocks bs.
Proof.
  intros A. unfold load_balance_tree. rewrite (filter_blocks (fun s => (s =? "name")%string) bs), (filter_blocks (fun s => negb (s =? "name")%string) bs).
  unfold tree_of_blocks. induction (filter (fun b => negb (fst b =? "name")%string) bs) as [|b cs IH]; [reflexivity|]. cbn [flat_map]. rewrite map_app, IH. f_equal. clear IH.
  unfold block_info at 2. destruct b as (n & lvs). cbn [fst snd]. induction lvs as [|lv lvs IH]; [reflexivity|]. cbn [flat_map]. rewrite map_app, IH. f_equal.
  rewrite map_row_info. apply map_ext. intros (i & v). cbn [ti_name ti_level ti_pos ti_value fst snd]. f_equal. apply (node_name_find bs (fst lv) i A).
Qed.

(** C252: from a sheet with the blocks of a tree, where no block has a level twice, exactly the inputs, outputs and weights of the
    blocks reach the model, in order, each at its level with the name that stands at its place in the block of names. *)
Theorem C252_tree : forall first rows bs, laid rows bs -> apart bs -> load_balance_tree (read_info_tree [] (first :: rows)) = tree_of_blocks bs.
Proof.
  intros first rows bs L A. unfold read_info_tree. cbn [skipn]. rewrite (laid_rows rows bs L []); [|exact A|intros n v _ t []]. cbn [app]. now apply load_blocks.
Qed.
Print Assumptions C252_tree.
(** A tree with a year of two seasons. *)
Definition ex_blocks : list block :=
  [("name", [(CInt 1, [CStr "Year"]); (CInt 2, [CStr "Winter"; CStr "Summer"])]); ("weight", [(CInt 1, [CInt 1]); (CInt 2, [CNum (1 # 3); CNum (2 # 3)])]); ("input", [(CInt 2, [CInt 5; CInt 6])])].
Definition ex_tree : sheet :=
  [[Some (CStr "Names")]; [Some (CInt 1); Some (CStr "Year")]; [Some (CInt 2); Some (CStr "Winter"); Some (CStr "Summer")]; []; [None; Some (CInt 3)];
   [Some (CStr "WEIGHTS")]; [Some (CInt 1); Some (CInt 1)]; [Some (CInt 2); Some (CNum (1 # 3)); Some (CNum (2 # 3))]; [];
   [Some (CStr "Inputs")]; [Some (CInt 2); Some (CInt 5); Some (CInt 6)]].
Example C252_witness : laid ex_tree ex_blocks /\ apart ex_blocks /\
  map (fun t => (tp_name t, tp_node t, tp_value t)) (tree_of_blocks ex_blocks) =
  [("weight", CStr "year", CInt 1); ("weight", CStr "winter", CNum (1 # 3)); ("weight", CStr "summer", CNum (2 # 3)); ("input", CStr "winter", CInt 5); ("input", CStr "summer", CInt 6)].
Proof.
  assert (LR : forall row lv, across row 2 = snd lv -> in_row row 1 = Some (fst lv) -> level_row row lv).
  { intros row lv A B. split; [exact B|]. unfold across in A. cbn [Nat.sub] in A. split.
    - intros i v H. rewrite <- A in H. pose proof (until_empty_some _ i eq_refl v H) as G. rewrite nth_skipn in G. exact G.
    - rewrite <- A. pose proof (until_empty_end (skipn 1 row)) as G. rewrite nth_skipn in G. exact G. }
  sp; [| |reflexivity].
  - apply (laid_block [] [Some (CStr "Names")] [[Some (CInt 1); Some (CStr "Year")]; [Some (CInt 2); Some (CStr "Winter"); Some (CStr "Summer")]]); [constructor|cbn; lia|exists "Names"; split; [reflexivity|vm_compute; tauto]|repeat constructor; apply LR; reflexivity|intros r rs H; now injection H as <- _|].
    apply (laid_block [[]; [None; Some (CInt 3)]] [Some (CStr "WEIGHTS")] [[Some (CInt 1); Some (CInt 1)]; [Some (CInt 2); Some (CNum (1 # 3)); Some (CNum (2 # 3))]]); [repeat constructor; intros s H; discriminate H|cbn; lia|exists "WEIGHTS"; split; [reflexivity|vm_compute; tauto]|repeat constructor; apply LR; reflexivity|intros r rs H; now injection H as <- _|].
    apply (laid_block [[]] [Some (CStr "Inputs")] [[Some (CInt 2); Some (CInt 5); Some (CInt 6)]] []); [repeat constructor; intros s H; discriminate H|cbn; lia|exists "Inputs"; split; [reflexivity|vm_compute; tauto]|repeat constructor; apply LR; reflexivity|intros r rs H; discriminate H|].
    apply laid_none. intros row [].
  - unfold apart, keys, differ. cbn. repeat constructor; cbn; intros; (reflexivity || discriminate).
Qed.

(* ------------------------------------------------------------------ *)
(** ** C253 *)

Lemma revise_first n level v l t r : same_place n level (ti_pos t) t = true -> ti_pos t = 1 -> l = t :: r -> revise n level 1 v l = mkTree (ti_name t) (ti_level t) 1 v :: r.
Proof. intros S P ->. cbn [revise]. rewrite P in S. now rewrite S, P. Qed.
Lemma last_cons {A} (v : A) vs d : last (v :: vs) d = last vs v.
Proof. revert v d. induction vs as [|w vs IH]; intros v d; [reflexivity|]. change (last (v :: w :: vs) d) with (last (w :: vs) d). now rewrite !IH. Qed.
Lemma again n level row vs v0 ws : across row 2 = vs -> tree_row n (row_info n level 1 (v0 :: ws)) level row = row_info n level 1 (last vs v0 :: ws).
Proof.
  intros A. unfold tree_row. rewrite A, !row_info_S. generalize (row_info n level 2 ws). clear. intros r. revert v0. induction vs as [|v vs IH]; intros v0; [reflexivity|]. cbn [fold_left]. unfold tree_cell at 2.
  assert (S : same_place n level 1 (mkTree n level 1 (tree_value v0)) = true) by (unfold same_place; cbn; now rewrite String.eqb_refl, cell_eqb_refl).
  cbn [existsb]. rewrite S. cbn [orb]. rewrite (revise_first n level (tree_value v) _ (mkTree n level 1 (tree_value v0)) r) by auto. cbn [ti_name ti_level]. rewrite IH, last_cons. reflexivity.
Qed.
Lemma laid_one rows n level vs l : laid rows [(n, [(level, vs)])] -> exists row, across row 2 = vs /\ tree_rows rows (Looking 0) l = tree_row n l level row.
Proof.
  intros L. inversion L as [|gap row lrows rest n' lvs bs G GL T LR E LD EQ1 EQ2]; subst. inversion LR as [|lrow lv ? ? R RS]; subst. inversion RS; subst. exists lrow. split; [exact (level_row_across _ _ R)|].
  rewrite gap_rows; [|eapply Forall_impl; [|exact G]; intros r; apply no_title_block|cbn; lia]. cbn [Nat.add tree_rows app]. rewrite (proj2 (Nat.ltb_lt _ 20) GL), (title_block _ _ T). destruct R as (R & _). rewrite R. cbn [fst].
  inversion LD as [rows0 H|]; subst. assert (LO : forall l, tree_rows rest (Looking 0) l = l).
  { intros k. rewrite (laid_rows rest [] LD k); [apply app_nil_r|constructor|intros m v []]. }
  destruct rest as [|r rest]; [reflexivity|]. rewrite leave_block by (now apply (E r rest)). apply LO.
Qed.

(** C253 (refuted): parameters of the tree that are read again are not replaced: of the new values of a level the last one is written at
    the first place, and all other places keep what they had. *)
Theorem C253_update_refuted : forall first rows first' rows' n level v0 ws v1 vs, laid rows [(n, [(level, v0 :: ws)])] -> laid rows' [(n, [(level, v1 :: vs)])] ->
  read_info_tree (read_info_tree [] (first :: rows)) (first' :: rows') = row_info n level 1 (last vs v1 :: ws).
Proof.
  intros first rows first' rows' n level v0 ws v1 vs L L'. unfold read_info_tree. cbn [skipn]. rewrite (laid_rows rows _ L []); [|repeat constructor|intros m v _ t []].
  destruct (laid_one rows' n level (v1 :: vs) ([] ++ flat_map block_info [(n, [(level, v0 :: ws)])]) L') as (row & A & ->).
  change ([] ++ flat_map block_info [(n, [(level, v0 :: ws)])]) with ((row_info n level 1 (v0 :: ws) ++ []) ++ []). rewrite !app_nil_r, (again n level row _ v0 ws A). now rewrite last_cons.
Qed.
Print Assumptions C253_update_refuted.
(** Weights 1/3 and 2/3 that become 1/4 and 3/4: the model has 3/4 and 2/3. *)
Definition ex_weights (a b : Q) : sheet := [[Some (CStr "weights")]; [Some (CInt 1); Some (CNum a); Some (CNum b)]].
Lemma ex_weights_laid a b : laid (ex_weights a b) [("weight", [(CInt 1, [CNum a; CNum b])])].
Proof.
  apply (laid_block [] [Some (CStr "weights")] [[Some (CInt 1); Some (CNum a); Some (CNum b)]] []); [constructor|cbn; lia|exists "weights"; split; [reflexivity|vm_compute; tauto]| |intros r rs H; discriminate H|apply laid_none; intros r []].
  repeat constructor. cbn [snd]. intros i v H. destruct i as [|[|i]]; [now injection H as <-|now injection H as <-|destruct i; discriminate H].
Qed.
Example C253_witness : map ti_value (read_info_tree (read_info_tree [] ([] :: ex_weights (1 # 3) (2 # 3))) ([] :: ex_weights (1 # 4) (3 # 4))) = [CNum (3 # 4); CNum (2 # 3)].
Proof. rewrite (C253_update_refuted [] _ [] _ "weight" (CInt 1) (CNum (1 # 3)) [CNum (2 # 3)] (CNum (1 # 4)) [CNum (3 # 4)] (ex_weights_laid _ _) (ex_weights_laid _ _)). reflexivity. Qed.

(* ------------------------------------------------------------------ *)
(** ** C254 *)

(** C254 (refuted): a block of the tree does not end with the title of the next one: without an empty cell between them the title and
    all levels below belong to the first block. *)
Theorem C254_blocks_refuted : forall first gap row lrows n lvs row' n' lrows' lvs' l, Forall no_title gap -> List.length gap < 20 -> title_row row n -> Forall2 level_row lrows lvs ->
  title_row row' n' -> Forall2 level_row lrows' lvs' -> n <> n' ->
  (forall t, In t (read_info_tree l (first :: gap ++ row :: lrows ++ row' :: lrows')) -> ti_name t = n' -> In (ti_name t, ti_level t, ti_pos t) (map (fun t => (ti_name t, ti_level t, ti_pos t)) l)) /\
  (forall lv, In lv lvs' -> snd lv <> [] -> exists t, In t (read_info_tree l (first :: gap ++ row :: lrows ++ row' :: lrows')) /\ ti_name t = n /\ cell_eqb (ti_level t) (fst lv) = true).
Proof.
  intros first gap row lrows n lvs row' n' lrows' lvs' l G GL T L T' L' NE.
  assert (EQ : read_info_tree l (first :: gap ++ row :: lrows ++ row' :: lrows') = tree_rows (lrows ++ row' :: lrows') (Within n) l).
  { unfold read_info_tree. cbn [skipn]. rewrite gap_rows; [|eapply Forall_impl; [|exact G]; intros r; apply no_title_block|cbn; lia]. cbn [Nat.add tree_rows app]. now rewrite (proj2 (Nat.ltb_lt _ 20) GL), (title_block _ _ T). }
  rewrite EQ. clear EQ.
  assert (RV : forall p level v k, map (fun t => (ti_name t, ti_level t, ti_pos t)) (revise n level p v k) = map (fun t => (ti_name t, ti_level t, ti_pos t)) k).
  { intros p level v. induction k as [|t k IH]; [reflexivity|]. cbn [revise]. destruct (same_place n level p t); cbn [map ti_name ti_level ti_pos]; [reflexivity|now rewrite IH]. }
  assert (KEEP : forall level vs k p, (forall key, In key (map (fun t => (ti_name t, ti_level t, ti_pos t)) k) -> In key (map (fun t => (ti_name t, ti_level t, ti_pos t)) (fst (fold_left (tree_cell n level) vs (k, p))))) /\
     (forall t, In t (fst (fold_left (tree_cell n level) vs (k, p))) -> ti_name t <> n -> In (ti_name t, ti_level t, ti_pos t) (map (fun t => (ti_name t, ti_level t, ti_pos t)) k)) /\
     (vs <> [] -> exists t, In t (fst (fold_left (tree_cell n level) vs (k, p))) /\ ti_name t = n /\ cell_eqb (ti_level t) level = true)).
  { intros level. induction vs as [|v vs IH]; intros k p.
    - sp; [auto|intros t I _; apply in_map_iff; exists t; auto|congruence].
    - cbn [fold_left]. unfold tree_cell at 2 4 6. destruct (existsb (same_place n level p) k) eqn:E.
      + destruct (IH (revise n level p (tree_value v) k) p) as (A & B & C). rewrite RV in A, B. sp; auto. intros _.
        apply existsb_exists in E as (t & I & S). unfold same_place in S. apply andb_true_iff in S as (S & _). apply andb_true_iff in S as (S1 & S2). apply String.eqb_eq in S1.
        assert (K : In (ti_name t, ti_level t, ti_pos t) (map (fun t => (ti_name t, ti_level t, ti_pos t)) k)) by (apply in_map_iff; exists t; auto). apply A, in_map_iff in K as (t' & K1 & K2). injection K1 as K1 K3 _. exists t'. sp; auto; congruence.
      + destruct (IH (k ++ [mkTree n level p (tree_value v)]) (S p)) as (A & B & C). rewrite map_app in A, B. sp.
        * intros key K. apply A, in_or_app. auto.
        * intros t I N. specialize (B t I N). apply in_app_iff in B as [B|[B|[]]]; [exact B|]. cbn in B. injection B as B _ _. congruence.
        * intros _. assert (K : In (n, level, p) (map (fun t => (ti_name t, ti_level t, ti_pos t)) k ++ map (fun t => (ti_name t, ti_level t, ti_pos t)) [mkTree n level p (tree_value v)])) by (apply in_or_app; right; now left).
          apply A, in_map_iff in K as (t' & K1 & K2). injection K1 as K1 K3 _. exists t'. sp; auto. rewrite K3. apply cell_eqb_refl. }
  assert (ROWS : forall rows lw, Forall2 level_row rows lw -> forall k, (forall key, In key (map (fun t => (ti_name t, ti_level t, ti_pos t)) k) -> In key (map (fun t => (ti_name t, ti_level t, ti_pos t)) (tree_rows rows (Within n) k))) /\
     (forall t, In t (tree_rows rows (Within n) k) -> ti_name t <> n -> In (ti_name t, ti_level t, ti_pos t) (map (fun t => (ti_name t, ti_level t, ti_pos t)) k)) /\
     (forall lv, In lv lw -> snd lv <> [] -> exists t, In t (tree_rows rows (Within n) k) /\ ti_name t = n /\ cell_eqb (ti_level t) (fst lv) = true)).
  { induction 1 as [|r lv rows lw R RS IH]; intros k.
    - sp; [auto|intros t I _; apply in_map_iff; exists t; auto|intros lv []].
    - cbn [tree_rows]. pose proof (level_row_across _ _ R) as AC. destruct R as (R & _). rewrite R. unfold tree_row. rewrite AC. destruct (KEEP (fst lv) (snd lv) k 1) as (A & B & C). destruct (IH (fst (fold_left (tree_cell n (fst lv)) (snd lv) (k, 1)))) as (A2 & B2 & C2). sp.
      + auto.
      + intros t I N. specialize (B2 t I N). apply in_map_iff in B2 as (t' & K1 & K2). rewrite <- K1. apply B; [exact K2|]. injection K1 as K1 _ _. congruence.
      + intros lu [<-|U] V; [|auto]. destruct (C V) as (t & I & N & E). assert (K : In (ti_name t, ti_level t, ti_pos t) (map (fun t => (ti_name t, ti_level t, ti_pos t)) (fst (fold_left (tree_cell n (fst lv)) (snd lv) (k, 1))))) by (apply in_map_iff; exists t; auto).
        apply A2, in_map_iff in K as (t' & K1 & K2). injection K1 as K1 K3 _. exists t'. sp; auto; congruence. }
  destruct T' as (s' & T' & _).
  assert (ALL : exists lw, Forall2 level_row (lrows ++ row' :: lrows') lw /\ forall lv, In lv lvs' -> In lv lw).
  { exists (lvs ++ (CStr s', across row' 2) :: lvs'). split; [|intros lv I; apply in_or_app; right; now right]. apply Forall2_app; [exact L|]. constructor; [|exact L'].
    split; [exact T'|]. cbn [snd]. unfold across. cbn [Nat.sub]. split.
    - intros i v H. pose proof (until_empty_some _ i eq_refl v H) as G'. rewrite nth_skipn in G'. exact G'.
    - pose proof (until_empty_end (skipn 1 row')) as G'. rewrite nth_skipn in G'. exact G'. }
  destruct ALL as (lw & FL & SUB). destruct (ROWS _ _ FL l) as (_ & B & C). split.
  - intros t I N. apply B; [exact I|congruence].
  - intros lv I V. apply C; auto.
Qed.
Print Assumptions C254_blocks_refuted.
(** Weights that are read as further levels of the inputs. *)
Example C254_witness : title_row [Some (CStr "inputs")] "input" /\ title_row [Some (CStr "weights")] "weight" /\
  map (fun t => (ti_name t, ti_level t)) (read_info_tree [] ([] :: [[Some (CStr "inputs")]; [Some (CInt 1); Some (CInt 5)]; [Some (CStr "weights")]; [Some (CInt 1); Some (CInt 2)]; [Some (CInt 2); Some (CInt 3)]])) =
  [("input", CInt 1); ("input", CInt 2)].
Proof. sp; [exists "inputs"; split; [reflexivity|vm_compute; tauto]|exists "weights"; split; [reflexivity|vm_compute; tauto]|reflexivity]. Qed.
