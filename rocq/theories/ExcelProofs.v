(** Lemmas about the reader of workbooks: cells, options and elements. *)
From Coq Require Import List String Ascii Bool Arith ZArith QArith Lia.
From Verif Require Import Base GraphDataProofs ExcelSheet.
Import ListNotations.
Open Scope string_scope.
Open Scope nat_scope.
Open Scope list_scope.

Local Ltac sp := repeat match goal with |- _ /\ _ => split end.

Lemma cell_eqb_refl v : cell_eqb v v = true.
Proof. destruct v; cbn; try apply String.eqb_refl; apply Qeq_bool_iff; reflexivity. Qed.
Lemma cell_eqb_sym a b : cell_eqb a b = cell_eqb b a.
Proof.
  unfold cell_eqb. destruct a, b; cbn; auto; try apply String.eqb_sym;
  (match goal with |- Qeq_bool ?p ?q = _ => destruct (Qeq_bool p q) eqn:E; symmetry; [apply Qeq_bool_iff; apply Qeq_bool_iff in E; now symmetry|apply not_true_is_false; intros E2; apply Qeq_bool_iff in E2; assert (Qeq_bool p q = true) by (apply Qeq_bool_iff; now symmetry); congruence] end).
Qed.
Lemma cell_eqb_trans a b c : cell_eqb a b = true -> cell_eqb b c = true -> cell_eqb a c = true.
Proof.
  destruct a, b, c; cbn; intros H1 H2; try discriminate; try (apply Qeq_bool_iff; apply Qeq_bool_iff in H1, H2; etransitivity; eassumption).
  apply String.eqb_eq in H1, H2. subst. apply String.eqb_refl.
Qed.
Lemma ostr_eqb_eq a b : ostr_eqb a b = true <-> a = b.
Proof. destruct a, b; cbn; split; try discriminate; auto; intros H; [apply String.eqb_eq in H; congruence|injection H as ->; apply String.eqb_refl]. Qed.

Lemma until_empty_spec l : forall vs, (forall i v, nth_error vs i = Some v -> nth i l None = Some v) -> nth (List.length vs) l None = None -> until_empty l = vs.
Proof.
  induction l as [|o l IH]; intros vs H N.
  - destruct vs as [|v vs]; [reflexivity|]. specialize (H 0 v eq_refl). discriminate.
  - destruct vs as [|v vs].
    + cbn in N. now rewrite N.
    + pose proof (H 0 v eq_refl) as H0. cbn in H0. subst o. cbn [until_empty]. f_equal. apply IH; [|exact N]. intros i w Hi. exact (H (S i) w Hi).
Qed.
Lemma until_empty_some l i : nth_error (until_empty l) i = nth_error (until_empty l) i -> forall v, nth_error (until_empty l) i = Some v -> nth i l None = Some v.
Proof.
  intros _. revert i. induction l as [|o l IH]; intros i v H; [destruct i; discriminate|]. destruct o as [w|]; [|destruct i; discriminate]. destruct i; [cbn in H; now injection H as ->|]. apply (IH i v H).
Qed.
Lemma until_empty_end l : nth (List.length (until_empty l)) l None = None.
Proof. induction l as [|[w|] l IH]; auto. Qed.

Lemma nth_skipn {A} (l : list A) k i d : nth i (skipn k l) d = nth (k + i) l d.
Proof. revert l. induction k; intros l; [reflexivity|]. destruct l; [destruct i; reflexivity|]. apply IHk. Qed.

Lemma down_nth sh r c i : 1 <= r -> nth i (map (fun row => in_row row c) (skipn (r - 1) sh)) None = cell_at sh (r + i) c.
Proof.
  intros R. unfold cell_at. replace (@None cell) with (in_row [] c) at 1 by (unfold in_row; now destruct (c - 1)).
  rewrite (map_nth (fun row => in_row row c)). rewrite nth_skipn. do 2 f_equal. lia.
Qed.
Lemma down_spec sh r c vs : 1 <= r -> (forall i v, nth_error vs i = Some v -> cell_at sh (r + i) c = Some v) -> cell_at sh (r + List.length vs) c = None -> down sh r c = vs.
Proof. intros R H N. apply until_empty_spec; intros; rewrite down_nth by exact R; auto. Qed.
Lemma across_nth row c i : 1 <= c -> nth i (skipn (c - 1) row) None = in_row row (c + i).
Proof. intros C. rewrite nth_skipn. unfold in_row. f_equal. lia. Qed.
Lemma across_spec row c vs : 1 <= c -> (forall i v, nth_error vs i = Some v -> in_row row (c + i) = Some v) -> in_row row (c + List.length vs) = None -> across row c = vs.
Proof. intros C H N. apply until_empty_spec; intros; rewrite across_nth by exact C; auto. Qed.

(** Titles. *)
Definition low_title (s : string) : string := lower (plain s).
Lemma titles_ok sh ts : (forall c s, nth_error ts c = Some s -> cell_at sh 2 (S c) = Some (CStr s)) -> cell_at sh 2 (S (List.length ts)) = None ->
  titles sh = Ok (map low_title ts).
Proof.
  intros H N. unfold titles. rewrite (across_spec _ 1 (map CStr ts)); [|lia| |].
  - clear. induction ts as [|t ts IH]; [reflexivity|]. cbn [map mapM title rbind]. now rewrite IH.
  - intros i v Hi. rewrite nth_error_map in Hi. destruct (nth_error ts i) eqn:E; [|discriminate]. cbn in Hi. injection Hi as <-. exact (H i s E).
  - rewrite map_length. exact N.
Qed.

Lemma named_column_one sh name vs : forall ts c0 c, nth_error ts c = Some name -> (forall c', nth_error ts c' = Some name -> c' = c) -> vs <> [] -> down sh 3 (c0 + c) = vs ->
  named_column ts c0 sh name = vs.
Proof.
  induction ts as [|t ts IH]; intros c0 c H U V D; [destruct c; discriminate|]. cbn [named_column]. destruct c as [|c].
  - cbn in H. injection H as ->. rewrite String.eqb_refl. rewrite Nat.add_0_r in D. rewrite D. now destruct vs.
  - destruct (String.eqb_spec t name) as [->|E]; [specialize (U 0 eq_refl); discriminate|].
    apply (IH (S c0) c); auto; [|now rewrite <- D, Nat.add_succ_comm]. intros c' H'. specialize (U (S c') H'). now injection U.
Qed.
Lemma named_column_none sh name : forall ts c0, ~ In name ts -> named_column ts c0 sh name = [].
Proof. induction ts as [|t ts IH]; intros c0 H; [reflexivity|]. cbn [named_column]. destruct (String.eqb_spec t name) as [->|E]; [exfalso; apply H; now left|]. apply IH. intros I. apply H. now right. Qed.
Lemma named_column_in sh name v : forall ts c0 c, nth_error ts c = Some name -> cell_at sh 3 (c0 + c) = Some v -> named_column ts c0 sh name <> [].
Proof.
  induction ts as [|t ts IH]; intros c0 c H V; [destruct c; discriminate|]. cbn [named_column]. destruct c as [|c].
  - cbn in H. injection H as ->. rewrite String.eqb_refl. rewrite Nat.add_0_r in V.
    assert (D : down sh 3 c0 <> []).
    { intros D. pose proof (until_empty_end (map (fun row => in_row row c0) (skipn 2 sh))) as E. change (until_empty (map (fun row => in_row row c0) (skipn 2 sh))) with (down sh 3 c0) in E. rewrite D in E. cbn [List.length] in E.
      pose proof (down_nth sh 3 c0 0 ltac:(lia)) as E2. change (3 - 1) with 2 in E2. rewrite E2 in E. change (3 + 0) with 3 in E. congruence. }
    destruct (down sh 3 c0); congruence.
  - destruct (if (t =? name)%string then down sh 3 c0 else []) eqn:D; [|congruence]. apply (IH (S c0) c H). now rewrite Nat.add_succ_comm.
Qed.

(** Options. *)
Definition option_of (l : list mopt) (n : string) : option mopt := find (fun o => ostr_eqb (mo_name o) (Some n)) l.
Lemma put_other k f new l n : k <> Some n -> mo_name new = k -> (forall o, mo_name (f o) = mo_name o) -> option_of (put k f new l) n = option_of l n.
Proof.
  intros K N F. induction l as [|o l IH]; cbn [put option_of find].
  - rewrite N. destruct (ostr_eqb k (Some n)) eqn:E; [apply ostr_eqb_eq in E; congruence|reflexivity].
  - destruct (ostr_eqb (mo_name o) k) eqn:E.
    + apply ostr_eqb_eq in E. cbn [option_of find]. rewrite F, E. destruct (ostr_eqb k (Some n)) eqn:E2; [apply ostr_eqb_eq in E2; congruence|reflexivity].
    + cbn [option_of find]. destruct (ostr_eqb (mo_name o) (Some n)); [reflexivity|exact IH].
Qed.
Lemma put_same n f new l : mo_name new = Some n -> (forall o, mo_name (f o) = mo_name o) ->
  option_of (put (Some n) f new l) n = Some (match option_of l n with Some o => f o | None => new end).
Proof.
  intros N F. induction l as [|o l IH]; cbn [put option_of find].
  - rewrite N. cbn. now rewrite String.eqb_refl.
  - destruct (ostr_eqb (mo_name o) (Some n)) eqn:E; cbn [option_of find]; [rewrite F, E; reflexivity|]. rewrite E. exact IH.
Qed.
Lemma problems_other n rows : forall l, (forall r, In r rows -> fst (fst r) <> Some n) -> option_of (fold_left put_problem rows l) n = option_of l n.
Proof.
  induction rows as [|((k & b) & e) rows IH]; intros l H; [reflexivity|]. cbn [fold_left]. rewrite IH by (intros r Hr; apply H; now right). cbn [put_problem]. apply put_other; auto. exact (H _ (or_introl eq_refl)).
Qed.
Lemma characteristics_other n rows : forall l, (forall r, In r rows -> fst r <> Some n) -> option_of (fold_left put_characteristic rows l) n = option_of l n.
Proof.
  induction rows as [|(k & v) rows IH]; intros l H; [reflexivity|]. cbn [fold_left]. rewrite IH by (intros r Hr; apply H; now right). cbn [put_characteristic]. apply put_other; auto. exact (H _ (or_introl eq_refl)).
Qed.
Lemma problems_last n b e rows1 rows2 l : (forall r, In r rows2 -> fst (fst r) <> Some n) ->
  option_of (fold_left put_problem (rows1 ++ (Some n, b, e) :: rows2) l) n = Some (mkOpt (Some n) (CBool b) e).
Proof.
  intros H. rewrite fold_left_app. cbn [fold_left]. rewrite problems_other by exact H. cbn [put_problem]. rewrite put_same by auto. destruct (option_of _ n) eqn:E; [|reflexivity].
  apply find_some in E. destruct E as (_ & E). apply ostr_eqb_eq in E. now rewrite E.
Qed.
Lemma characteristics_last n v rows1 rows2 l : (forall r, In r rows2 -> fst r <> Some n) ->
  option_map mo_value (option_of (fold_left put_characteristic (rows1 ++ (Some n, v) :: rows2) l) n) = Some v.
Proof.
  intros H. rewrite fold_left_app. cbn [fold_left]. rewrite characteristics_other by exact H. cbn [put_characteristic]. rewrite put_same by auto. now destruct (option_of _ n).
Qed.
Lemma dget_In d k v : dget d k = Some v -> In (k, v) d.
Proof.
  induction d as [|(k' & w) d IH]; [discriminate|]. cbn [dget]. destruct (dget d k) as [x|]; [intros H; right; auto|]. destruct (String.eqb_spec k k') as [->|]; [|discriminate]. intros H. injection H as ->. now left.
Qed.
Lemma names_apart k k' n : dget problem_names k = Some n -> dget characteristic_names k' = Some n -> False.
Proof.
  intros H1 H2. apply dget_In in H1, H2. apply (in_map snd) in H1, H2. cbn [snd] in H1, H2.
  assert (T : forallb (fun a => negb (member (map snd characteristic_names) a)) (map snd problem_names) = true) by reflexivity.
  rewrite forallb_forall in T. specialize (T n H1). unfold member in T. apply negb_true_iff in T. assert (existsb (String.eqb n) (map snd characteristic_names) = true) by (apply existsb_exists; exists n; split; [exact H2|apply String.eqb_refl]). congruence.
Qed.
Definition text (v : cell) : option string := match v with CStr s => Some s | _ => None end.
Definition meaning (d : dict) (v : cell) : option string := match v with CStr s => dget d (plain (lower s)) | _ => None end.
Lemma known_ok d vs : (forall v, In v vs -> exists s, v = CStr s) -> mapM (fun v => do s <- low v; Ok (dget d (plain s))) vs = Ok (map (meaning d) vs).
Proof.
  induction vs as [|v vs IH]; intros H; [reflexivity|]. destruct (H v (or_introl eq_refl)) as (s & ->). cbn [mapM low rbind map meaning]. rewrite IH by (intros; apply H; now right). reflexivity.
Qed.

(** Elements. *)
Definition is_param (n : string) : bool := member double_parameters n || member bool_parameters n.
Definition param_type (n : string) : string := if member double_parameters n then "double" else "bool".
Definition row_fold (fstr : Q -> string) (es : list (string * cell)) (st : list charac * list (string * cell * string)) :=
  fold_left (fun st e => element_cell fstr st (fst e) (snd e)) es st.
Lemma member_In l s : member l s = true <-> In s l.
Proof. unfold member. rewrite existsb_exists. split; [intros (x & H & E); apply String.eqb_eq in E; now subst|intros H; exists s; split; [exact H|apply String.eqb_refl]]. Qed.
Lemma param_no_char n : is_param n = true -> member integer_characteristics n = false /\ member string_characteristics n = false.
Proof.
  intros H. assert (In n (double_parameters ++ bool_parameters)) as I by (unfold is_param in H; apply orb_true_iff in H; rewrite !member_In in H; apply in_or_app; exact H).
  assert (T : forallb (fun n => negb (member integer_characteristics n) && negb (member string_characteristics n)) (double_parameters ++ bool_parameters) = true) by reflexivity.
  rewrite forallb_forall in T. specialize (T n I). apply andb_true_iff in T as (A & B). apply negb_true_iff in A, B. auto.
Qed.
Lemma row_params fstr es : forall cs ps, snd (row_fold fstr es (cs, ps)) = ps ++ map (fun e => (fst e, snd e, param_type (fst e))) (filter (fun e => is_param (fst e)) es).
Proof.
  induction es as [|(n & v) es IH]; intros cs ps; [symmetry; apply app_nil_r|]. unfold row_fold in *. cbn [fold_left fst snd filter].
  destruct (is_param n) eqn:P.
  - destruct (param_no_char n P) as (A & B). unfold element_cell. rewrite A, B. unfold is_param in P. destruct (member double_parameters n) eqn:D.
    + rewrite IH, <- app_assoc. unfold param_type at 2. cbn [map fst snd app]. unfold param_type. now rewrite D.
    + cbn [orb] in P. rewrite P, IH, <- app_assoc. cbn [map fst snd app]. unfold param_type at 2. now rewrite D.
  - unfold is_param in P. apply orb_false_iff in P as (P1 & P2). unfold element_cell. rewrite P1, P2. destruct (member integer_characteristics n); [apply IH|]. destruct (member string_characteristics n); [|apply IH]. destruct (negb (n =? "subtype")%string); [apply IH|]. destruct (has_char cs "subtype"); apply IH.
Qed.
Definition char_named (cs : list charac) (n : string) : option charac := find (fun c => (ch_name c =? n)%string) cs.
Lemma find_app' {A} (f : A -> bool) l m : find f (l ++ m) = match find f l with Some a => Some a | None => find f m end.
Proof. induction l as [|a l IH]; [reflexivity|]. cbn. destruct (f a); auto. Qed.
Lemma char_named_app cs ds n : char_named (cs ++ ds) n = match char_named cs n with Some c => Some c | None => char_named ds n end.
Proof. apply find_app'. Qed.
Lemma add_subtype_other s cs n : n <> "subtype" -> char_named (add_subtype s cs) n = char_named cs n.
Proof.
  intros N. unfold char_named. induction cs as [|c cs IH]; [reflexivity|]. cbn [add_subtype]. destruct (String.eqb_spec (ch_name c) "subtype") as [E|E].
  - cbn [find ch_name]. rewrite E. destruct (String.eqb_spec "subtype" n); [congruence|reflexivity].
  - cbn [find]. destruct (ch_name c =? n)%string; auto.
Qed.
(** A characteristic as it is kept: numbers of nodes as they are, all others as strings. *)
Definition kept (fstr : Q -> string) (n : string) (v : cell) : charac :=
  if member integer_characteristics n then mkChar n (VCell v) "integer" else mkChar n (VCell (CStr (str_cell fstr v))) "string".
Lemma row_char fstr n : n <> "subtype" -> member integer_characteristics n || member string_characteristics n = true -> forall es cs ps,
  char_named (fst (row_fold fstr es (cs, ps))) n = match char_named cs n with Some c => Some c | None => option_map (fun e => kept fstr n (snd e)) (find (fun e => (fst e =? n)%string) es) end.
Proof.
  intros NS C. induction es as [|(m & v) es IH]; intros cs ps; [change (fst (row_fold fstr [] (cs, ps))) with cs; cbn [find option_map]; now destruct (char_named cs n)|].
  unfold row_fold in *. cbn [fold_left fst snd find].
  assert (ONE : forall ds qs, element_cell fstr (cs, ps) m v = (ds, qs) -> char_named ds n = match char_named cs n with Some c => Some c | None => if (m =? n)%string then Some (kept fstr n v) else None end).
  { unfold element_cell. intros ds qs. destruct (String.eqb_spec m n) as [->|E].
    - destruct (member integer_characteristics n) eqn:I.
      + intros H. injection H as <- _. rewrite char_named_app. destruct (char_named cs n); [reflexivity|]. unfold char_named, kept. cbn [find ch_name]. now rewrite String.eqb_refl, I.
      + cbn [orb] in C. rewrite C. destruct (String.eqb_spec n "subtype"); [congruence|]. cbn [negb]. intros H. injection H as <- _. rewrite char_named_app. destruct (char_named cs n); [reflexivity|]. unfold char_named, kept. cbn [find ch_name]. now rewrite String.eqb_refl, I.
    - assert (X : char_named cs n = match char_named cs n with Some c => Some c | None => None end) by (now destruct (char_named cs n)). rewrite <- X.
      assert (Y : forall x t, char_named (cs ++ [mkChar m x t]) n = char_named cs n).
      { intros x t. rewrite char_named_app. destruct (char_named cs n); [reflexivity|]. unfold char_named. cbn [find ch_name]. destruct (String.eqb_spec m n); [congruence|reflexivity]. }
      destruct (member integer_characteristics m); [intros H; injection H as <- _; apply Y|]. destruct (member string_characteristics m).
      + destruct (negb (m =? "subtype")%string); [intros H; injection H as <- _; apply Y|]. destruct (has_char cs "subtype"); intros H; injection H as <- _; [now apply add_subtype_other|apply Y].
      + destruct (member double_parameters m); [intros H; now injection H as <- _|]. destruct (member bool_parameters m); intros H; now injection H as <- _. }
  destruct (element_cell fstr (cs, ps) m v) as (ds & qs) eqn:EC. rewrite IH, (ONE ds qs eq_refl). destruct (char_named cs n); [reflexivity|]. destruct (m =? n)%string; reflexivity.
Qed.
Definition subtypes (fstr : Q -> string) (es : list (string * cell)) : list cell := map (fun e => CStr (str_cell fstr (snd e))) (filter (fun e => (fst e =? "subtype")%string) es).
Lemma has_named cs n : has_char cs n = match char_named cs n with Some _ => true | None => false end.
Proof. unfold has_char, char_named. induction cs as [|c cs IH]; [reflexivity|]. cbn. destruct (ch_name c =? n)%string; auto. Qed.
Lemma add_subtype_same s cs l t : char_named cs "subtype" = Some (mkChar "subtype" (VList l) t) -> char_named (add_subtype s cs) "subtype" = Some (mkChar "subtype" (VList (l ++ [CStr s])) t).
Proof.
  unfold char_named. induction cs as [|c cs IH]; [discriminate|]. cbn [find add_subtype]. destruct (ch_name c =? "subtype")%string eqn:E.
  - intros H. injection H as ->. cbn. reflexivity.
  - cbn [find]. rewrite E. exact IH.
Qed.
Lemma row_subtype fstr : forall es cs ps l0, char_named cs "subtype" = match l0 with [] => None | _ => Some (mkChar "subtype" (VList l0) "v_string") end ->
  char_named (fst (row_fold fstr es (cs, ps))) "subtype" = match l0 ++ subtypes fstr es with [] => None | l => Some (mkChar "subtype" (VList l) "v_string") end.
Proof.
  induction es as [|(m & v) es IH]; intros cs ps l0 H; [change (fst (row_fold fstr [] (cs, ps))) with cs; change (subtypes fstr []) with (@nil cell); rewrite app_nil_r; now destruct l0|].
  unfold row_fold in *. cbn [fold_left fst snd]. unfold subtypes in *. cbn [filter fst].
  destruct (String.eqb_spec m "subtype") as [->|E].
  - unfold element_cell. cbn [member integer_characteristics string_characteristics existsb String.eqb orb negb Ascii.eqb Bool.eqb]. rewrite has_named, H.
    destruct l0 as [|x l0].
    + cbn. rewrite (IH _ _ [CStr (str_cell fstr v)]); [reflexivity|]. rewrite char_named_app, H. reflexivity.
    + cbn. rewrite (IH _ _ ((x :: l0) ++ [CStr (str_cell fstr v)])); [|apply add_subtype_same; exact H]. rewrite <- app_assoc. reflexivity.
  - assert (Y : forall x t, char_named (cs ++ [mkChar m x t]) "subtype" = char_named cs "subtype").
    { intros x t. rewrite char_named_app. destruct (char_named cs "subtype"); [reflexivity|]. unfold char_named. cbn [find ch_name]. destruct (String.eqb_spec m "subtype"); [congruence|reflexivity]. }
    unfold element_cell. destruct (member integer_characteristics m); [apply IH; rewrite Y; exact H|]. destruct (member string_characteristics m).
    + destruct (String.eqb_spec m "subtype"); [congruence|]. cbn [negb]. apply IH. rewrite Y. exact H.
    + destruct (member double_parameters m); [now apply IH|]. destruct (member bool_parameters m); now apply IH.
Qed.

(** The cells of a row below titles with a meaning, but for the column of the ID. *)
Definition entries (names : dict) (ts : list string) (k : nat) (row : nat -> option cell) : list (string * cell) :=
  flat_map (fun ct => match dget names (low_title (snd ct)), row (fst ct) with Some n, Some v => if fst ct =? k then [] else [(n, v)] | _, _ => [] end) (combine (seq 1 (List.length ts)) ts).
Lemma element_row_fold fstr names ts k row : forall c0 st,
  fold_left (fun st cn => let '(c, name) := cn in match name, in_row row c with Some n, Some v => if c =? k then st else element_cell fstr st n v | _, _ => st end)
    (combine (seq c0 (List.length (map (dget names) (map low_title ts)))) (map (dget names) (map low_title ts))) st =
  row_fold fstr (flat_map (fun ct => match dget names (low_title (snd ct)), in_row row (fst ct) with Some n, Some v => if fst ct =? k then [] else [(n, v)] | _, _ => [] end) (combine (seq c0 (List.length ts)) ts)) st.
Proof.
  induction ts as [|t ts IH]; intros c0 st; [reflexivity|]. cbn [map List.length seq combine fold_left flat_map fst snd]. rewrite IH. unfold row_fold. rewrite fold_left_app. f_equal.
  destruct (dget names (low_title t)) as [n|]; [|reflexivity]. destruct (in_row row c0) as [v|]; [|reflexivity]. destruct (c0 =? k); reflexivity.
Qed.
Lemma last_id_spec : forall ts c0 k, nth_error ts k = Some "id" -> (forall j, k < j -> nth_error ts j <> Some "id") -> last_id ts c0 = Some (c0 + k).
Proof.
  induction ts as [|t ts IH]; intros c0 k H U; [destruct k; discriminate|]. cbn [last_id]. destruct k as [|k].
  - cbn in H. injection H as ->. assert (N : last_id ts (S c0) = None).
    { clear IH. assert (G : forall j, nth_error ts j <> Some "id") by (intros j; apply (U (S j)); lia). clear U. revert c0. induction ts as [|t ts IH]; intros c0; [reflexivity|]. cbn [last_id]. rewrite IH by (intros j; apply (G (S j))). destruct (String.eqb_spec t "id") as [->|]; [exfalso; apply (G 0); reflexivity|reflexivity]. }
    rewrite N, String.eqb_refl. f_equal. lia.
  - rewrite (IH (S c0) k H) by (intros j J; apply (U (S j)); lia). f_equal. lia.
Qed.
Lemma last_id_none : forall ts c0, ~ In "id" ts -> last_id ts c0 = None.
Proof. induction ts as [|t ts IH]; intros c0 H; [reflexivity|]. cbn [last_id]. rewrite IH by (intros I; apply H; now right). destruct (String.eqb_spec t "id") as [->|]; [exfalso; apply H; now left|reflexivity]. Qed.

Lemma element_rows_concat fstr typ ns k : forall rows ids, (forall i id, nth_error ids i = Some id -> in_row (nth i rows []) k = Some id /\ truthy id = true) ->
  (forall id, in_row (nth (List.length ids) rows []) k = Some id -> truthy id = false) ->
  element_rows fstr typ ns k rows = List.concat (map (fun p => element_row fstr typ ns k (snd p) (nth (fst p) rows [])) (combine (seq 0 (List.length ids)) ids)).
Proof.
  induction rows as [|row rows IH]; intros ids H N.
  - destruct ids as [|id ids]; [reflexivity|]. destruct (H 0 id eq_refl) as (H0 & _). unfold in_row in H0. cbn in H0. destruct (k - 1); discriminate.
  - destruct ids as [|id ids]; cbn [element_rows].
    + cbn [List.length nth] in N. destruct (in_row row k) as [x|] eqn:E; [|reflexivity]. now rewrite (N x eq_refl).
    + destruct (H 0 id eq_refl) as (H0 & H1). cbn [nth] in H0. rewrite H0, H1. cbn [List.length seq combine map List.concat fst snd nth]. f_equal.
      rewrite (IH ids); [|intros i x Hi; exact (H (S i) x Hi)|exact N]. rewrite <- seq_shift. f_equal. generalize (seq 0 (List.length ids)). intros l. revert ids H N. clear. intros ids _ _. revert ids. induction l as [|a l IH]; intros ids; [reflexivity|]. destruct ids; [reflexivity|]. cbn. f_equal. apply IH.
Qed.

Lemma row_type fstr : forall es cs ps c, char_named cs "type" = Some c -> char_named (fst (row_fold fstr es (cs, ps))) "type" = Some c.
Proof.
  induction es as [|(q & w) es IH]; intros cs ps c H; [exact H|]. unfold row_fold in *. cbn [fold_left fst snd].
  assert (Y : forall x t, char_named (cs ++ [mkChar q x t]) "type" = Some c) by (intros; now rewrite char_named_app, H).
  unfold element_cell. destruct (member integer_characteristics q); [apply IH; auto|]. destruct (member string_characteristics q).
  - destruct (negb (q =? "subtype")%string); [apply IH; auto|]. destruct (has_char cs "subtype"); apply IH; auto. rewrite add_subtype_other; auto. discriminate.
  - destruct (member double_parameters q); [now apply IH|]. destruct (member bool_parameters q); now apply IH.
Qed.
Lemma row_none fstr n : member integer_characteristics n = false -> member string_characteristics n = false -> forall es cs ps, char_named cs n = None -> char_named (fst (row_fold fstr es (cs, ps))) n = None.
Proof.
  intros A B. induction es as [|(m & v) es IH]; intros cs ps C; [exact C|]. unfold row_fold in *. cbn [fold_left fst snd].
  assert (SB : n <> "subtype") by (intros ->; discriminate B).
  assert (Y : forall x t, m <> n -> char_named (cs ++ [mkChar m x t]) n = None) by (intros x t0 E; rewrite char_named_app, C; unfold char_named; cbn [find ch_name]; destruct (String.eqb_spec m n); [congruence|reflexivity]).
  unfold element_cell. destruct (member integer_characteristics m) eqn:M1; [apply IH; auto; apply Y; congruence|]. destruct (member string_characteristics m) eqn:M2.
  - destruct (negb (m =? "subtype")%string); [apply IH; auto; apply Y; congruence|]. destruct (has_char cs "subtype"); apply IH; auto; [rewrite add_subtype_other; auto|apply Y; congruence].
  - destruct (member double_parameters m); [now apply IH|]. destruct (member bool_parameters m); now apply IH.
Qed.
