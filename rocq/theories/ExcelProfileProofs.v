(** Lemmas about the reader of workbooks: profiles. *)
From Coq Require Import List String Ascii Bool Arith ZArith QArith Lia.
From Verif Require Import Base GraphDataProofs ExcelSheet ExcelProfiles ExcelProofs ExcelTreeProofs.
Import ListNotations.
Open Scope string_scope.
Open Scope nat_scope.
Open Scope list_scope.

Local Ltac sp := repeat match goal with |- _ /\ _ => split end.

(** ** Sheets *)

Lemma data_cells_spec h n id hours vs : forall t, data_cells h n id hours t vs =
  map (fun tv => mkProf n (hd_tree h) (match in_row hours (2 + fst tv) with Some c => c | None => CInt (Z.of_nat (fst tv)) end) id (hd_type h) (hd_subtype h) (hd_group h) (hd_zone h) (snd tv)) (combine (seq t (List.length vs)) vs).
Proof. induction vs as [|v vs IH]; intros t; [reflexivity|]. cbn [data_cells List.length seq combine map fst snd]. rewrite IH, (Nat.add_comm 2 t). reflexivity. Qed.
Definition row_profiles (h : head) (n : string) (hours : list (option cell)) (d : cell * list cell) : list profile :=
  map (fun tv => mkProf n (hd_tree h) (match in_row hours (2 + fst tv) with Some c => c | None => CInt (Z.of_nat (fst tv)) end) (fst d) (hd_type h) (hd_subtype h) (hd_group h) (hd_zone h) (snd tv)) (combine (seq 0 (List.length (snd d))) (snd d)).
Lemma data_rows h n hours : hd_name h = Some n -> forall rows ds, Forall2 level_row rows ds -> forall rest acc,
  profile_rows (rows ++ rest) (InData hours) h acc = profile_rows rest (InData hours) h (acc ++ flat_map (row_profiles h n hours) ds).
Proof.
  intros H. induction 1 as [|row d rows ds R RS IH]; intros rest acc; [cbn [app flat_map]; now rewrite app_nil_r|].
  cbn [app profile_rows]. pose proof (level_row_across _ _ R) as A. destruct R as (R & _). rewrite R, H, A, IH, data_cells_spec. cbn [flat_map]. now rewrite app_assoc.
Qed.
Lemma leave_data h hours row rest acc : in_row row 1 = None -> profile_rows (row :: rest) (InData hours) h acc = profile_rows (row :: rest) (Top 0) no_head acc.
Proof. intros E. cbn [profile_rows]. now rewrite E. Qed.
Lemma empty_rows : forall rows, Forall (fun row => in_row row 1 = None) rows -> forall rest t h acc, t + List.length rows <= 20 ->
  profile_rows (rows ++ rest) (Top t) h acc = profile_rows rest (Top (t + List.length rows)) h acc.
Proof.
  induction 1 as [|row rows U US IH]; intros rest t h acc L; [cbn; now rewrite Nat.add_0_r|]. cbn [List.length] in L. cbn [app profile_rows]. rewrite (proj2 (Nat.ltb_lt t 20)) by lia. unfold head_row. rewrite U. cbn [rbind]. rewrite IH by lia. cbn [List.length]. f_equal. f_equal. lia.
Qed.
Lemma all_empty : forall rows, Forall (fun row => in_row row 1 = None) rows -> forall t h acc, profile_rows rows (Top t) h acc = Ok acc.
Proof. induction 1 as [|row rows U US IH]; intros t h acc; [reflexivity|]. cbn [profile_rows]. destruct (t <? 20); [|reflexivity]. unfold head_row. rewrite U. cbn [rbind]. apply IH. Qed.

(** Lines at the top of a block. *)
Inductive line := LSubtype (s : string) | LTree (l : list string) | LName (n : string) | LGroup (v : cell) | LZone (v : cell).
Definition set_line (h : head) (l : line) : head :=
  match l with
  | LSubtype s => mkHead (hd_type h) (Some s) (hd_tree h) (hd_name h) (hd_group h) (hd_zone h)
  | LTree l => mkHead (hd_type h) (hd_subtype h) l (hd_name h) (hd_group h) (hd_zone h)
  | LName n => mkHead (hd_type h) (hd_subtype h) (hd_tree h) (Some n) (hd_group h) (hd_zone h)
  | LGroup v => mkHead (hd_type h) (hd_subtype h) (hd_tree h) (hd_name h) (Some v) (hd_zone h)
  | LZone v => mkHead (hd_type h) (hd_subtype h) (hd_tree h) (hd_name h) (hd_group h) (Some v)
  end.
(** The first cell of the row has one of the titles, the second cell and those behind it the value. *)
Definition first_is (row : list (option cell)) (ks : list string) : Prop := exists s, in_row row 1 = Some (CStr s) /\ In (low_title s) ks.
Definition type_row (row : list (option cell)) (t : string) : Prop := first_is row ["type"] /\ In t ["bus"; "branch"; "generator"] /\ exists s, in_row row 2 = Some (CStr s) /\ lower s = t.
Definition line_row (typ : string) (row : list (option cell)) (l : line) : Prop :=
  match l with
  | LSubtype s => typ <> "bus" /\ first_is row ["subtype"] /\ exists v, in_row row 2 = Some (CStr v) /\ lower v = s
  | LTree l => first_is row ["position tree"; "representative day"; "pt"] /\ exists vs, map lower vs = l /\ (forall i v, nth_error vs i = Some v -> in_row row (2 + i) = Some (CStr v)) /\ in_row row (2 + List.length vs) = None
  | LName n => first_is row ["name"] /\ exists v, in_row row 2 = Some (CStr v) /\ dget all_element_names (lower v) = Some n
  | LGroup v => first_is row ["group"] /\ in_row row 2 = Some v
  | LZone v => first_is row ["zone"] /\ in_row row 2 = Some v
  end.
Definition is_tree (l : line) : bool := match l with LTree _ => true | _ => false end.
Lemma type_line h row next t : type_row row t -> head_row h row next = Ok (Sets (mkHead (Some t) (hd_subtype h) (hd_tree h) (hd_name h) (hd_group h) (hd_zone h))).
Proof.
  intros ((s & S & K) & T & v & V & L). unfold head_row. rewrite S, V. change (lower (plain s)) with (low_title s). destruct K as [<-|[]]. cbn [dget profile_names String.eqb Ascii.eqb Bool.eqb ostr_is]. cbv zeta. rewrite L.
  replace (member ["bus"; "branch"; "generator"] t) with true by (symmetry; now apply member_In). reflexivity.
Qed.
Lemma low_all vs : mapM low (map CStr vs) = Ok (map lower vs).
Proof. induction vs as [|v vs IH]; [reflexivity|]. cbn [map mapM low rbind]. now rewrite IH. Qed.
Lemma head_line typ h row next l : In typ ["bus"; "branch"; "generator"] -> hd_type h = Some typ -> line_row typ row l -> (is_tree l = true -> hd_tree h = []) -> head_row h row next = Ok (Sets (set_line h l)).
Proof.
  intros TY HT R TR. destruct l as [s|l|n|v|v]; cbn [line_row] in R; cbn [set_line].
  - destruct R as (NB & (k & S & K) & v & V & L). unfold head_row. rewrite S, V. change (lower (plain k)) with (low_title k). destruct K as [<-|[]]. cbv zeta. rewrite HT. cbn [ostr_is]. rewrite L. destruct TY as [<-|[<-|[<-|[]]]]; [congruence|reflexivity|reflexivity].
  - destruct R as ((k & S & K) & vs & E & V & N). unfold head_row. rewrite S. change (lower (plain k)) with (low_title k).
    rewrite (across_spec row 2 (map CStr vs)), low_all; [|lia|intros i v Hi; rewrite nth_error_map in Hi; destruct (nth_error vs i) as [w|] eqn:W; [|discriminate]; injection Hi as <-; exact (V i w W)|now rewrite map_length].
    cbv zeta. rewrite E, HT. cbn [rbind]. replace (put_tree (hd_tree h) l) with l; [|unfold put_tree; rewrite (TR eq_refl), skipn_nil, app_nil_r; reflexivity].
    destruct TY as [<-|[<-|[<-|[]]]]; destruct K as [<-|[<-|[<-|[]]]]; reflexivity.
  - destruct R as ((k & S & K) & v & V & L). unfold head_row. rewrite S, V. change (lower (plain k)) with (low_title k). cbv zeta. rewrite L, HT. destruct TY as [<-|[<-|[<-|[]]]]; destruct K as [<-|[]]; reflexivity.
  - destruct R as ((k & S & K) & V). unfold head_row. rewrite S, V. change (lower (plain k)) with (low_title k). cbv zeta. rewrite HT. destruct TY as [<-|[<-|[<-|[]]]]; destruct K as [<-|[]]; reflexivity.
  - destruct R as ((k & S & K) & V). unfold head_row. rewrite S, V. change (lower (plain k)) with (low_title k). cbv zeta. rewrite HT. destruct TY as [<-|[<-|[<-|[]]]]; destruct K as [<-|[]]; reflexivity.
Qed.
Lemma set_line_type h l : hd_type (set_line h l) = hd_type h.
Proof. destruct l; reflexivity. Qed.
Lemma head_lines typ t : In typ ["bus"; "branch"; "generator"] -> t < 20 -> forall rows ls, Forall2 (line_row typ) rows ls -> forall rest h acc, hd_type h = Some typ ->
  (hd_tree h = [] /\ List.length (filter is_tree ls) <= 1 \/ filter is_tree ls = []) ->
  profile_rows (rows ++ rest) (Top t) h acc = profile_rows rest (Top t) (fold_left set_line ls h) acc.
Proof.
  intros TY T. induction 1 as [|row l rows ls R RS IH]; intros rest h acc HT TR; [reflexivity|]. cbn [app profile_rows fold_left]. rewrite (proj2 (Nat.ltb_lt t 20) T).
  rewrite (head_line typ h row _ l TY HT R).
  - cbn [rbind]. apply IH; [now rewrite set_line_type|]. cbn [filter] in TR. destruct l; cbn [is_tree set_line hd_tree List.length] in TR |- *; try exact TR. destruct TR as [(_ & TR)|TR]; [|discriminate]. right. destruct (filter is_tree ls); [reflexivity|cbn in TR; lia].
  - intros I. cbn [filter] in TR. rewrite I in TR. destruct TR as [(TR & _)|TR]; [exact TR|discriminate].
Qed.
Definition start_row (row hours : list (option cell)) : Prop :=
  (exists s, in_row row 1 = Some (CStr s) /\ low_title s = "dataset") /\ (exists s, in_row row 2 = Some (CStr s) /\ lower s = "hour") /\ (exists s, in_row hours 1 = Some (CStr s) /\ lower s = "id").
Lemma start_line h row hours typ : In typ ["bus"; "branch"; "generator"] -> hd_type h = Some typ -> start_row row hours -> head_row h row hours = Ok Starts.
Proof.
  intros TY HT ((s & S & K) & (s2 & S2 & K2) & (s3 & S3 & K3)). unfold head_row, reads. rewrite S, S2, S3. change (lower (plain s)) with (low_title s). rewrite K, K2, K3, HT. destruct TY as [<-|[<-|[<-|[]]]]; reflexivity.
Qed.

(** ** Profiles and parameters *)
From Coq Require Import Permutation.

Lemma filterM_ok {A} (f : A -> res bool) (g : A -> bool) l : (forall a, In a l -> f a = Ok (g a)) -> filterM f l = Ok (filter g l).
Proof. induction l as [|a l IH]; intros H; [reflexivity|]. cbn [filterM filter]. rewrite (H a (or_introl eq_refl)). cbn [rbind]. rewrite IH by (intros; apply H; now right). cbn [rbind]. destruct (g a); reflexivity. Qed.
Lemma filter_false {A} (f : A -> bool) l : (forall a, In a l -> f a = false) -> filter f l = [].
Proof. induction l as [|a l IH]; intros H; [reflexivity|]. cbn [filter]. rewrite (H a (or_introl eq_refl)). apply IH. intros; apply H; now right. Qed.
Lemma filter_true {A} (f : A -> bool) l : (forall a, In a l -> f a = true) -> filter f l = l.
Proof. induction l as [|a l IH]; intros H; [reflexivity|]. cbn [filter]. rewrite (H a (or_introl eq_refl)). f_equal. apply IH. intros; apply H; now right. Qed.
Lemma filter_filter {A} (f g : A -> bool) l : filter f (filter g l) = filter (fun a => g a && f a) l.
Proof. induction l as [|a l IH]; [reflexivity|]. cbn [filter]. destruct (g a); cbn [filter andb]; [destruct (f a); now rewrite IH|exact IH]. Qed.
Lemma delete_first_one {A} (f : A -> bool) l a : filter f l = [a] -> delete_first f l = Some (filter (fun x => negb (f x)) l).
Proof.
  induction l as [|x l IH]; [discriminate|]. cbn [filter delete_first]. destruct (f x) eqn:E; cbn [negb].
  - intros H. injection H as _ H. f_equal. symmetry. apply filter_true. intros y Y. destruct (f y) eqn:F; [|reflexivity]. assert (In y (filter f l)) as I by (apply filter_In; auto). rewrite H in I. destruct I.
  - intros H. now rewrite (IH H).
Qed.
Lemma find_filter {A} (f : A -> bool) l a : filter f l = [a] -> find f l = Some a.
Proof. induction l as [|x l IH]; [discriminate|]. cbn. destruct (f x); [intros H; injection H as -> _; reflexivity|exact IH]. Qed.
Lemma flat_map_swap {A B C} (f : A -> B -> C) xs ys : Permutation (flat_map (fun a => map (f a) ys) xs) (flat_map (fun b => map (fun a => f a b) xs) ys).
Proof.
  revert ys. induction xs as [|x xs IH]; intros ys.
  - cbn. induction ys as [|y ys IH]; [constructor|exact IH].
  - cbn [flat_map]. eapply perm_trans; [apply Permutation_app_head, IH|]. clear. induction ys as [|y ys IH]; [constructor|]. cbn [map flat_map app]. constructor.
    eapply perm_trans; [apply Permutation_app_swap_app|]. apply Permutation_app_head, IH.
Qed.

Lemma together_iff p q : together p q = true <-> pr_type p = pr_type q /\ pr_subtype p = pr_subtype q /\ pr_name p = pr_name q /\ cell_eqb (pr_id p) (pr_id q) = true.
Proof. unfold together. rewrite !andb_true_iff, !ostr_eqb_eq, String.eqb_eq. tauto. Qed.
Lemma together_refl p : together p p = true.
Proof. apply together_iff. repeat split; auto. apply cell_eqb_refl. Qed.
Lemma together_sym p q : together p q = together q p.
Proof.
  assert (G : forall p q, together p q = true -> together q p = true) by (intros a b; rewrite !together_iff; intros (H1 & H2 & H3 & H4); rewrite cell_eqb_sym; auto).
  destruct (together p q) eqn:E; [symmetry; auto|]. destruct (together q p) eqn:F; auto. apply G in F. congruence.
Qed.
Lemma together_trans p q r : together p q = true -> together q r = true -> together p r = true.
Proof. rewrite !together_iff. intros (A1 & A2 & A3 & A4) (B1 & B2 & B3 & B4). repeat split; try congruence. eapply cell_eqb_trans; eauto. Qed.
Lemma cell_eqb_subst a b c : cell_eqb b c = true -> cell_eqb a b = cell_eqb a c.
Proof.
  intros E. destruct (cell_eqb a b) eqn:F; [symmetry; eapply cell_eqb_trans; eauto|]. destruct (cell_eqb a c) eqn:G; auto. rewrite cell_eqb_sym in E. rewrite (cell_eqb_trans _ _ _ G E) in F. discriminate.
Qed.

(** Which parameters a profile is about: those of the name, and for profiles of all elements those without a subtype or with the one
    of the profile, and without a group and zone or with ones in whose texts that of the profile occurs. *)
Definition fits (n : string) (o : option string) (i : info) : bool :=
  match o with
  | None => true
  | Some s => negb (has i n) || match get i n with VList l => existsb (cell_eqb (CStr s)) l | VCell (CStr t) => occurs s t | VCell _ => false end
  end.
Definition text_of (o : option cell) : option string := match o with Some (CStr s) => Some s | _ => None end.
Definition concerns (p : profile) (i : info) : bool :=
  is_cell (get i "name") (CStr (pr_name p)) &&
  (if for_all p then fits "subtype" (pr_subtype p) i && fits "group" (text_of (pr_group p)) i && fits "zone" (text_of (pr_zone p)) i else is_cell (get i "ID") (pr_id p)).
(** Parameters as they are read from sheets of elements. *)
Definition as_read (i : info) : Prop :=
  has i "pt" = false /\ has i "hour" = false /\ (forall n, In n ["subtype"; "group"; "zone"] -> has i n = true -> (exists l, get i n = VList l) \/ exists t, get i n = VCell (CStr t)).
Definition texts (p : profile) : Prop := (forall v, pr_group p = Some v -> exists s, v = CStr s) /\ (forall v, pr_zone p = Some v -> exists s, v = CStr s).

Lemma stays_ok n o i : as_read i -> In n ["subtype"; "group"; "zone"] -> stays n (option_map CStr o) i = Ok (fits n o i).
Proof.
  intros (A & B & C) I. unfold stays, fits. destruct o as [s|]; [|reflexivity]. cbn [option_map]. destruct (has i n) eqn:H; [|reflexivity]. cbn [negb orb]. destruct (C n I H) as [(l & ->)|(t & ->)]; cbn [isin rbind]; rewrite A, B; cbn [negb]; now rewrite !andb_true_r.
Qed.
Lemma texts_map o : (forall v : cell, o = Some v -> exists s, v = CStr s) -> o = option_map CStr (text_of o).
Proof. destruct o as [v|]; [|reflexivity]. intros H. destruct (H v eq_refl) as (s & ->). reflexivity. Qed.
Lemma selected_ok p i : as_read i -> texts p -> for_all p = true -> selected p i = Ok (concerns p i).
Proof.
  intros A (T1 & T2) F. unfold selected, concerns. rewrite F. destruct (is_cell (get i "name") (CStr (pr_name p))); [|reflexivity]. cbn [andb].
  rewrite (texts_map _ T1), (texts_map _ T2). rewrite !stays_ok by (auto; cbn; auto). cbn [rbind].
  assert (TT : forall o, text_of (option_map CStr o) = o) by (intros [o|]; reflexivity). rewrite !TT.
  destruct (fits "subtype" (pr_subtype p) i); [|reflexivity]. cbn [rbind andb]. destruct (fits "group" _ i); reflexivity.
Qed.
Lemma selected_other p i : is_cell (get i "name") (CStr (pr_name p)) = false -> selected p i = Ok false.
Proof. intros E. unfold selected. now rewrite E. Qed.
Lemma concerns_named p i : for_all p = false -> concerns p i = named p i.
Proof. intros F. unfold concerns, named. rewrite F. apply andb_comm. Qed.
Lemma is_cell_subst x a b : cell_eqb a b = true -> is_cell x a = is_cell x b.
Proof. intros E. unfold is_cell. destruct x as [v|l]; [|reflexivity]. cbn [cval_eqb]. now apply cell_eqb_subst. Qed.
Lemma concerns_together p q i : together p q = true -> pr_group p = pr_group q -> pr_zone p = pr_zone q -> concerns p i = concerns q i.
Proof.
  intros T G Z. apply together_iff in T as (_ & S & N & I). unfold concerns, for_all. rewrite S, N, G, Z.
  replace (cell_eqb (pr_id p) (CStr "all")) with (cell_eqb (pr_id q) (CStr "all")); [|rewrite !(cell_eqb_sym _ (CStr "all")); symmetry; now apply cell_eqb_subst].
  rewrite (is_cell_subst (get i "ID") _ _ I). reflexivity.
Qed.

(** A parameter with a value of a profile. *)
Definition amount (v : cell) : Q := match number v with Some q => q | None => 0%Q end.
Definition mult (a b : cell) : cell := match whole a, whole b with Some x, Some y => CInt (x * y) | _, _ => CNum (amount a * amount b)%Q end.
Definition scaled (i : info) (p : profile) : info :=
  mkInfo (in_chars i ++ [mkChar "pt" (VList (map CStr (pr_tree p))) "v_string"; mkChar "hour" (VCell (pr_hour p)) "double"]) (mult (in_value i) (pr_value p)) (in_type i).
Lemma profiled_ok i p : number (in_value i) <> None -> number (pr_value p) <> None -> profiled i p = Ok (scaled i p).
Proof.
  intros A B. unfold profiled, scaled. assert (E : times (in_value i) (pr_value p) = Ok (mult (in_value i) (pr_value p))); [|now rewrite E].
  destruct (in_value i) as [s|z|q|b]; [cbn in A; congruence|..]; destruct (pr_value p) as [s'|z'|q'|b']; try (cbn in B; congruence); reflexivity.
Qed.
Lemma scaled_has i p n : has i n = true -> has (scaled i p) n = true.
Proof. unfold has, has_char, scaled. cbn [in_chars]. rewrite existsb_app. intros ->. reflexivity. Qed.
Lemma scaled_pt i p : has (scaled i p) "pt" = true.
Proof. unfold has, has_char, scaled. cbn [in_chars]. rewrite existsb_app. cbn. apply orb_true_r. Qed.
Lemma scaled_get i p n : has i n = true -> get (scaled i p) n = get i n.
Proof.
  unfold has, get, scaled. cbn [in_chars]. rewrite has_named. intros H. unfold get_char. fold (char_named (in_chars i) n). fold (char_named (in_chars i ++ [mkChar "pt" (VList (map CStr (pr_tree p))) "v_string"; mkChar "hour" (VCell (pr_hour p)) "double"]) n). rewrite char_named_app. now destruct (char_named (in_chars i) n).
Qed.

Lemma sget_sput d t l t' : sget (sput d t l) (Some t') = if (t =? t')%string then Ok l else sget d (Some t').
Proof.
  unfold sget. induction d as [|e d IH]; cbn [sput find fst snd].
  - cbn. destruct (t =? t')%string; reflexivity.
  - destruct (String.eqb_spec (fst e) t) as [E|E]; cbn [find fst snd].
    + rewrite E. destruct (t =? t')%string; reflexivity.
    + destruct (String.eqb_spec (fst e) t') as [F|F]; [|exact IH]. destruct (String.eqb_spec t t'); [congruence|reflexivity].
Qed.
