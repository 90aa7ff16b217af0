(** Lemmas about the settings reader. *)
From Coq Require Import List String Ascii Bool Arith ZArith QArith Lia.
From Verif Require Import Base Container ContainerProofs Graph GraphData GraphDataProofs Reader ReaderProofs Settings SettingsSpec.
Import ListNotations.
Open Scope string_scope.
Open Scope nat_scope.
Open Scope list_scope.

Local Ltac sp := repeat match goal with |- _ /\ _ => split end.

(** ** decimal names *)

Lemma str_nat_no_sign n s : str_nat n <> ("-" ++ s)%string.
Proof. unfold str_nat. destruct (Nat.to_uint n); cbn; intros H; discriminate. Qed.

Lemma str_Z_inj a b : str_Z a = str_Z b -> a = b.
Proof.
  unfold str_Z. destruct (Z.ltb_spec a 0), (Z.ltb_spec b 0); intros E.
  - injection E as E. apply str_nat_inj in E. lia.
  - symmetry in E. now apply str_nat_no_sign in E.
  - now apply str_nat_no_sign in E.
  - apply str_nat_inj in E. lia.
Qed.

(** ** groups *)

Lemma NoDup_snoc {A} (l : list A) a : NoDup l -> ~ In a l -> NoDup (l ++ [a]).
Proof.
  induction l as [|b l IH]; intros N I; cbn [app]; [constructor; auto|]. inversion N as [|? ? N1 N2]; subst. constructor.
  - rewrite in_app_iff. intros [X|[X|[]]]; auto. apply I. now left.
  - apply IH; auto. intros X. apply I. now right.
Qed.

Definition describes (done : list srow) (gs : list (string * list (list json))) : Prop :=
  NoDup (map fst gs) /\ (forall ty, In ty (map fst gs) <-> In ty (map sr_type done)) /\
  (forall ty rs, In (ty, rs) gs -> rs = map cells (of_type ty done)) /\
  hd_error (map fst gs) = hd_error (map sr_type done).

Lemma group_add_in ty r gs : forall ty' rs', In (ty', rs') (group_add ty r gs) ->
  NoDup (map fst gs) ->
  (ty' <> ty /\ In (ty', rs') gs) \/ (ty' = ty /\ ((exists rs, In (ty, rs) gs /\ rs' = rs ++ [r]) \/ (~ In ty (map fst gs) /\ rs' = [r]))).
Proof.
  induction gs as [|(a, b) gs IH]; cbn [group_add]; intros ty' rs' I ND.
  - destruct I as [I|[]]. injection I as <- <-. right. split; auto.
  - cbn [map fst] in ND. inversion ND as [|? ? N1 N2]; subst. destruct (String.eqb_spec a ty) as [->|NE].
    + destruct I as [I|I].
      * injection I as <- <-. right. split; auto. left. exists b. split; [now left|auto].
      * left. split; [|now right]. intros ->. apply N1. now apply (in_map fst) in I.
    + destruct I as [I|I].
      * injection I as <- <-. left. split; auto. now left.
      * destruct (IH _ _ I N2) as [(A & B)|(A & [(rs & B & C)|(B & C)])]; subst.
        -- left. split; auto. now right.
        -- right. split; auto. left. exists rs. split; auto. now right.
        -- right. split; auto. right. split; auto. intros [X|X]; auto.
Qed.

Lemma group_add_keys ty r gs : map fst (group_add ty r gs) = if in_dec string_dec ty (map fst gs) then map fst gs else map fst gs ++ [ty].
Proof.
  induction gs as [|(a, b) gs IH]; cbn [group_add map fst]; auto. destruct (String.eqb_spec a ty) as [->|NE].
  - cbn [map fst]. destruct (in_dec string_dec ty (ty :: map fst gs)) as [I|I]; auto. exfalso. apply I. now left.
  - cbn [map fst]. rewrite IH. destruct (in_dec string_dec ty (map fst gs)) as [I|I], (in_dec string_dec ty (a :: map fst gs)) as [J|J]; auto.
    + exfalso. apply J. now right.
    + destruct J as [J|J]; contradiction.
Qed.

Lemma of_type_app ty a b : of_type ty (a ++ b) = of_type ty a ++ of_type ty b.
Proof. apply filter_app. Qed.

Lemma of_type_none ty rows : ~ In ty (map sr_type rows) -> of_type ty rows = [].
Proof.
  unfold of_type. induction rows as [|r rows IH]; cbn; intros N; auto. destruct (String.eqb_spec (sr_type r) ty); [exfalso; auto|]. apply IH. auto.
Qed.

Lemma describes_add done gs r : describes done gs -> describes (done ++ [r]) (group_add (sr_type r) (cells r) gs).
Proof.
  intros (A & B & C & D). unfold describes. rewrite group_add_keys, map_app. cbn [map]. sp.
  - destruct (in_dec string_dec (sr_type r) (map fst gs)); auto. now apply NoDup_snoc.
  - intros ty. rewrite in_app_iff. cbn [In]. destruct (in_dec string_dec (sr_type r) (map fst gs)) as [I|I].
    + rewrite B. split; auto. intros [X|[<-|[]]]; auto. now apply B.
    + rewrite in_app_iff, B. reflexivity.
  - intros ty rs I. rewrite of_type_app, map_app. apply group_add_in in I as [(N & I)|(-> & [(rs0 & I & ->)|(N & ->)])]; auto.
    + rewrite (C _ _ I). unfold of_type at 3. cbn [filter]. destruct (String.eqb_spec (sr_type r) ty); [congruence|]. cbn. now rewrite List.app_nil_r.
    + rewrite (C _ _ I). unfold of_type at 3. cbn [filter]. rewrite String.eqb_refl. reflexivity.
    + rewrite of_type_none by (rewrite <- B; auto). unfold of_type. cbn [filter]. rewrite String.eqb_refl. reflexivity.
  - destruct (in_dec string_dec (sr_type r) (map fst gs)) as [I|I].
    + rewrite D. destruct (map sr_type done) eqn:E; auto. exfalso. apply (proj1 (B _)) in I. destruct I.
    + destruct (map fst gs) as [|k ks] eqn:E; cbn [app hd_error] in *.
      * destruct (map sr_type done); cbn in *; auto. discriminate.
      * destruct (map sr_type done); cbn in *; auto. discriminate.
Qed.

Lemma divide_gen rows : forall done gs, describes done gs -> exists gs',
  foldM (fun gs r => do ty <- cell_type r; Ok (group_add ty r gs)) (map cells rows) gs = Ok gs' /\ describes (done ++ rows) gs'.
Proof.
  induction rows as [|r rows IH]; intros done gs D; cbn [map foldM].
  - exists gs. split; auto. now rewrite List.app_nil_r.
  - cbn [cell_type cells nth_error rbind]. destruct (IH (done ++ [r]) (group_add (sr_type r) (cells r) gs)) as (gs' & E & D').
    + now apply describes_add.
    + exists gs'. split; auto. now rewrite <- app_assoc in D'.
Qed.

Lemma divide_ok rows : rows <> [] -> exists gs, divide (map cells rows) = Ok gs /\ describes rows gs.
Proof.
  intros N. unfold divide. destruct (map cells rows) eqn:E; [now destruct rows|]. rewrite <- E. apply (divide_gen rows [] []).
  unfold describes. cbn. sp; auto; try tauto; constructor.
Qed.

(** ** one profile *)

Lemma components_ok rows : mapM component (map cells rows) = Ok (map (fun r => sr_id r - 1)%Z rows).
Proof. induction rows as [|r rows IH]; auto. cbn [map mapM]. cbn [component cells nth_error rbind]. rewrite IH. reflexivity. Qed.

Lemma column_names_length ty ixs : ixs <> [] -> (List.length (column_names ty ixs) =? List.length ixs) = match prefix_of ty with Some _ => true | None => false end.
Proof. intros N. unfold column_names. destruct (prefix_of ty); [rewrite map_length; apply Nat.eqb_refl|]. now destruct ixs. Qed.

Lemma nth_cells r j : nth (2 + j) (cells r) JNull = nth j (sr_vals r) JNull.
Proof. reflexivity. Qed.

Lemma transpose_rows rows W : rows <> [] -> Forall (fun r => List.length (sr_vals r) = W) rows ->
  transpose (map cells rows) = map (fun j => map (fun r => nth j (sr_vals r) JNull) rows) (seq 0 W).
Proof.
  intros N F. unfold transpose. destruct rows as [|r rows]; [now destruct N|]. inversion F as [|? ? H _]; subst. cbn [map hd cells List.length].
  change (cells r :: map cells rows) with (map cells (r :: rows)). replace (S (S (List.length (sr_vals r))) - 2) with (List.length (sr_vals r)) by lia.
  rewrite <- (seq_shift (List.length (sr_vals r)) 1), <- (seq_shift (List.length (sr_vals r)) 0), !map_map. apply map_ext. intros j. rewrite map_map. reflexivity.
Qed.

Definition names_of (ty : string) (rs : list srow) : list json := column_names ty (map (fun r => sr_id r - 1)%Z rs).

Lemma attest_profile_ok d ty rs W : rs <> [] -> Forall (fun r => List.length (sr_vals r) = W) rs -> prefix_of ty <> None ->
  attest_profile d (ty, map cells rs) =
  Ok (mkPD (jget "element_type" JNull d) (variable_of ty) (JList (map JInt (map (fun r => sr_id r - 1)%Z rs))) (JBool false)
        (Some (mkJF (names_of ty rs) (map (fun j => map (fun r => nth j (sr_vals r) JNull) rs) (seq 0 W))))
        (if present "active_columns_names" d then jget "active_columns_names" JNull d else JList (names_of ty rs)),
      if present "active_columns_names" d then d_remove "active_columns_names" d else d).
Proof.
  intros N F P. unfold attest_profile. cbn [fst snd]. rewrite components_ok. cbn [rbind].
  assert (L : List.length (map cells rs) = List.length (map (fun r => sr_id r - 1)%Z rs)) by now rewrite !map_length.
  rewrite L, column_names_length by now destruct rs. destruct (prefix_of ty) eqn:E; [|now destruct P].
  rewrite (transpose_rows rs W N F). fold (names_of ty rs). unfold jpop. destruct (present "active_columns_names" d); reflexivity.
Qed.

Lemma attest_profile_unknown d ty rs : rs <> [] -> prefix_of ty = None -> attest_profile d (ty, map cells rs) = Err ValueError.
Proof.
  intros N P. unfold attest_profile. cbn [fst snd]. rewrite components_ok. cbn [rbind].
  assert (L : List.length (map cells rs) = List.length (map (fun r => sr_id r - 1)%Z rs)) by now rewrite !map_length.
  rewrite L, column_names_length by now destruct rs. now rewrite P.
Qed.

Lemma jget_remove k k' dflt d : k <> k' -> jget k dflt (d_remove k' d) = jget k dflt d.
Proof.
  intros N. unfold jget, d_get. replace (l_get k (d_remove k' d)) with (l_get k d); auto. induction d as [|(a, v) d IH]; auto. cbn [d_remove l_get].
  destruct (String.eqb_spec a k').
  - subst. destruct (String.eqb_spec k' k); [congruence|auto].
  - cbn [l_get]. destruct (String.eqb a k); auto.
Qed.

Lemma present_remove k k' d : k <> k' -> present k (d_remove k' d) = present k d.
Proof. intros N. unfold present. now rewrite jget_remove. Qed.

Lemma present_removed k d : NoDup (map fst d) -> present k (d_remove k d) = false.
Proof.
  intros ND. unfold present, jget. replace (d_get k (d_remove k d)) with (@None json); auto. unfold d_get. induction d as [|(a, v) d IH]; auto.
  cbn [map fst] in ND. inversion ND as [|? ? N1 N2]; subst. cbn [d_remove]. destruct (String.eqb_spec a k) as [->|NE].
  - clear - N1. induction d as [|(b, w) d IH]; auto. cbn in *. destruct (String.eqb_spec b k); [exfalso; auto|]. apply IH. auto.
  - cbn [l_get]. destruct (String.eqb_spec a k); [contradiction|]. auto.
Qed.

Lemma d_remove_nodup k (d : obj) : NoDup (map fst d) -> NoDup (map fst (d_remove k d)).
Proof.
  induction d as [|(a, v) d IH]; intros N; auto. cbn [map fst] in N. inversion N as [|? ? N1 N2]; subst. cbn [d_remove]. destruct (String.eqb a k); auto.
  cbn [map fst]. constructor; auto. intros I. apply N1. clear - I. induction d as [|(b, w) d IH]; auto. cbn [d_remove] in I. destruct (String.eqb b k); [now right|].
  destruct I as [I|I]; [now left|right; auto].
Qed.

(** ** the profiles of a sheet *)

Definition steps (acc : list pdata * obj) (g : string * list (list json)) : res (list pdata * obj) :=
  do pd <- attest_profile (snd acc) g; Ok (fst acc ++ [fst pd], snd pd).

Definition made (element : json) (W : nat) (rows : list srow) (ty : string) (act : option json) (p : pdata) : Prop :=
  p = mkPD element (variable_of ty) (JList (map JInt (map (fun r => sr_id r - 1)%Z (of_type ty rows)))) (JBool false)
        (Some (mkJF (names_of ty (of_type ty rows)) (map (fun j => map (fun r => nth j (sr_vals r) JNull) (of_type ty rows)) (seq 0 W))))
        (match act with Some a => a | None => JList (names_of ty (of_type ty rows)) end).

Definition chosen (d : obj) : option json := if present "active_columns_names" d then Some (jget "active_columns_names" JNull d) else None.

Lemma of_type_in ty rows r : In r (of_type ty rows) <-> In r rows /\ sr_type r = ty.
Proof. unfold of_type. rewrite filter_In, String.eqb_eq. reflexivity. Qed.

Lemma steps_gen W rows element : forall gs acc d, (forall ty rs, In (ty, rs) gs -> rs = map cells (of_type ty rows)) ->
  (forall ty, In ty (map fst gs) -> In ty (map sr_type rows) /\ prefix_of ty <> None) ->
  Forall (fun r => List.length (sr_vals r) = W) rows -> jget "element_type" JNull d = element -> NoDup (map fst d) ->
  exists ps d', foldM steps gs (acc, d) = Ok (acc ++ ps, d') /\
    match gs, ps with
    | [], [] => True
    | g :: gs', p :: ps' => made element W rows (fst g) (chosen d) p /\ Forall2 (fun g p => made element W rows (fst g) None p) gs' ps'
    | _, _ => False
    end.
Proof.
  assert (ST : forall d ty, In ty (map sr_type rows) -> prefix_of ty <> None -> Forall (fun r => List.length (sr_vals r) = W) rows ->
    exists p d', attest_profile d (ty, map cells (of_type ty rows)) = Ok (p, d') /\ made (jget "element_type" JNull d) W rows ty (chosen d) p /\
      d' = if present "active_columns_names" d then d_remove "active_columns_names" d else d).
  { intros d ty I P F. assert (NE : of_type ty rows <> []).
    { apply in_map_iff in I as (r & E & I). intros X. assert (J : In r (of_type ty rows)) by (apply of_type_in; auto). rewrite X in J. destruct J. }
    rewrite (attest_profile_ok d ty _ W NE); auto.
    - eexists. eexists. split; [reflexivity|]. split; auto. unfold made, chosen. destruct (present "active_columns_names" d); reflexivity.
    - apply Forall_forall. intros r Ir. apply of_type_in in Ir as (Ir & _). rewrite Forall_forall in F. auto. }
  assert (G : forall gs acc d, (forall ty rs, In (ty, rs) gs -> rs = map cells (of_type ty rows)) ->
    (forall ty, In ty (map fst gs) -> In ty (map sr_type rows) /\ prefix_of ty <> None) ->
    Forall (fun r => List.length (sr_vals r) = W) rows -> jget "element_type" JNull d = element -> chosen d = None ->
    exists ps d', foldM steps gs (acc, d) = Ok (acc ++ ps, d') /\ Forall2 (fun g p => made element W rows (fst g) None p) gs ps).
  { induction gs as [|(ty, rs) gs IH]; intros acc d H1 H2 F E C; cbn [foldM].
    - exists [], d. rewrite List.app_nil_r. auto.
    - destruct (H2 ty) as (A & B); [now left|]. rewrite (H1 ty rs) by now left. unfold steps at 1. cbn [fst snd].
      destruct (ST d ty A B F) as (p & d' & Ep & Mp & Ed). rewrite Ep. cbn [rbind fst snd].
      assert (d' = d) as -> by (unfold chosen in C; rewrite Ed; destruct (present "active_columns_names" d); [discriminate|auto]).
      destruct (IH (acc ++ [p]) d) as (ps & d'' & E' & M'); auto.
      { intros ty' rs' I. apply H1. now right. } { intros ty' I. apply H2. now right. }
      exists (p :: ps), d''. rewrite E', <- app_assoc. split; auto. constructor; auto. rewrite E, C in Mp. exact Mp. }
  intros [|(ty, rs) gs] acc d H1 H2 F E ND; cbn [foldM].
  - exists [], d. rewrite List.app_nil_r. auto.
  - destruct (H2 ty) as (A & B); [now left|]. rewrite (H1 ty rs) by now left. unfold steps at 1. cbn [fst snd].
    destruct (ST d ty A B F) as (p & d' & Ep & Mp & Ed). rewrite Ep. cbn [rbind fst snd].
    destruct (G gs (acc ++ [p]) d') as (ps & d'' & E' & M'); auto.
    + intros ty' rs' I. apply H1. now right.
    + intros ty' I. apply H2. now right.
    + rewrite Ed. destruct (present "active_columns_names" d); auto. now rewrite jget_remove.
    + unfold chosen. rewrite Ed. destruct (present "active_columns_names" d) eqn:X; [now rewrite present_removed|now rewrite X].
    + exists (p :: ps), d''. rewrite E', <- app_assoc. split; auto. split; auto. now rewrite E in Mp.
Qed.

Lemma present_some k d v : d_get k d = Some v -> v <> JNull -> present k d = true.
Proof. unfold present, jget. intros -> N. destruct v; auto. Qed.

Lemma read_file_attest excel d path name t : attest_entry d path name -> NoDup (map fst d) -> excel path name false = Ok t ->
  exists d', read_file excel (JStr path) (d_remove "data_path" d) false = Ok (Some t, d') /\
    jget "element_type" JNull d' = jget "element_type" JNull d /\ chosen d' = chosen d /\ NoDup (map fst d').
Proof.
  intros (E1 & E2 & E3 & E4 & E5) ND X. unfold read_file. rewrite present_remove by discriminate. rewrite (present_some _ _ _ E4 E5). rewrite E3, String.eqb_refl. unfold jpop.
  rewrite jget_remove by discriminate. unfold jget at 1. rewrite E4. rewrite X. cbn [rbind].
  eexists. split; [reflexivity|]. sp.
  - now rewrite !jget_remove.
  - unfold chosen. rewrite !present_remove, !jget_remove by discriminate. reflexivity.
  - now apply d_remove_nodup, d_remove_nodup.
Qed.

Lemma load_attest_unfold excel d path name : attest_entry d path name ->
  load_profile excel d = do ps <- (do td <- read_file excel (JStr path) (d_remove "data_path" d) false;
    match fst td with
    | None => Err AttributeError
    | Some t => do gs <- divide (jf_rows t); do r <- foldM steps gs ([], snd td); Ok (fst r)
    end); Ok (Some ps).
Proof.
  intros (E1 & E2 & E3 & E4 & E5). unfold load_profile, jget at 1. rewrite E1. replace (String.eqb "attest" "original") with false by reflexivity.
  replace (String.eqb "attest" "attest") with true by reflexivity. rewrite (present_some _ _ _ E2) by discriminate. unfold read_attest, jpop, jget at 1. rewrite E2. reflexivity.
Qed.

Lemma load_attest excel d path name cols rows W : attest_entry d path name -> NoDup (map fst d) -> excel path name false = Ok (mkJF cols (map cells rows)) ->
  rows <> [] -> Forall (fun r => List.length (sr_vals r) = W) rows -> (forall r, In r rows -> prefix_of (sr_type r) <> None) ->
  exists tys ps, load_profile excel d = Ok (Some ps) /\ NoDup tys /\ (forall ty, In ty tys <-> In ty (map sr_type rows)) /\
    hd_error tys = hd_error (map sr_type rows) /\
    match tys, ps with
    | ty :: tys', p :: ps' => made (jget "element_type" JNull d) W rows ty (chosen d) p /\ Forall2 (fun ty p => made (jget "element_type" JNull d) W rows ty None p) tys' ps'
    | _, _ => False
    end.
Proof.
  intros A ND X N F P. rewrite (load_attest_unfold _ _ _ _ A). destruct (read_file_attest _ _ _ _ _ A ND X) as (d' & E & J & C & ND'). rewrite E. cbn [rbind fst snd jf_rows].
  destruct (divide_ok rows N) as (gs & Eg & D1 & D2 & D3 & D4). rewrite Eg. cbn [rbind].
  destruct (steps_gen W rows (jget "element_type" JNull d') gs [] d' D3) as (ps & d'' & Es & M); auto.
  - intros ty I. apply D2 in I. split; auto. apply in_map_iff in I as (r & <- & I). now apply P.
  - rewrite Es. cbn [rbind fst app]. exists (map fst gs), ps. sp; auto; try apply D2.
    rewrite J, C in M. destruct gs as [|g gs], ps as [|p ps]; cbn [map]; try destruct M; auto.
    + exfalso. destruct rows; [now destruct N|]. cbn in D4. discriminate.
    + split; auto. clear - H0. induction H0; cbn [map]; constructor; auto.
Qed.

Lemma load_attest_unknown excel d path name cols rows : attest_entry d path name -> NoDup (map fst d) -> excel path name false = Ok (mkJF cols (map cells rows)) ->
  (forall r r', In r rows -> In r' rows -> List.length (sr_vals r) = List.length (sr_vals r')) -> (exists r, In r rows /\ prefix_of (sr_type r) = None) -> load_profile excel d = Err ValueError.
Proof.
  intros A ND X F (r & I & P). rewrite (load_attest_unfold _ _ _ _ A). destruct (read_file_attest _ _ _ _ _ A ND X) as (d' & E & J & C & ND'). rewrite E. cbn [rbind fst snd jf_rows].
  assert (N : rows <> []) by (intros ->; destruct I). destruct (divide_ok rows N) as (gs & Eg & D1 & D2 & D3 & D4). rewrite Eg. cbn [rbind].
  assert (G : forall gs acc, (forall ty rs, In (ty, rs) gs -> rs = map cells (of_type ty rows)) -> (forall ty, In ty (map fst gs) -> In ty (map sr_type rows)) ->
    (exists ty, In ty (map fst gs) /\ prefix_of ty = None) -> foldM steps gs acc = Err ValueError).
  { clear gs Eg D1 D2 D3 D4. induction gs as [|(ty, rs) gs IH]; intros acc H1 H2 (ty0 & I0 & P0); [destruct I0|]. cbn [foldM]. rewrite (H1 ty rs) by now left.
    assert (NE : of_type ty rows <> []).
    { destruct (proj1 (in_map_iff _ _ _) (H2 ty (or_introl eq_refl))) as (r0 & E0 & I1). intros Y. assert (K : In r0 (of_type ty rows)) by (apply of_type_in; auto). rewrite Y in K. destruct K. }
    unfold steps at 1. destruct (prefix_of ty) eqn:Pt.
    - rewrite (attest_profile_ok (snd acc) ty _ (List.length (sr_vals r)) NE); [|apply Forall_forall; intros r' Ir'; apply of_type_in in Ir' as (Ir' & _); auto|congruence].
      cbn [rbind]. apply IH.
      + intros ty' rs' I'. apply H1. now right.
      + intros ty' I'. apply H2. now right.
      + exists ty0. split; auto. destruct I0 as [<-|I0]; auto. cbn [fst] in P0. congruence.
    - rewrite attest_profile_unknown; auto. }
  rewrite (G gs ([], d')); auto.
  - intros ty It. now apply D2.
  - exists (sr_type r). split; auto. apply D2. now apply in_map.
Qed.

Lemma made_profile_of element W rows ty act p : prefix_of ty <> None -> Forall (fun r => List.length (sr_vals r) = W) rows -> made element W rows ty act p -> profile_of element W rows ty p.
Proof.
  intros P F ->. unfold profile_of. cbn [pd_element pd_variable pd_indexes pd_data].
  assert (K : exists var pre, In (ty, (var, pre)) kinds /\ variable_of ty = JStr var /\ prefix_of ty = Some pre).
  { unfold prefix_of, variable_of in *. destruct (String.eqb_spec ty "P") as [->|]; [exists "p_mw", "pd_"; cbn; auto|]. destruct (String.eqb_spec ty "Q") as [->|]; [exists "q_mvar", "qd_"; cbn; auto|]. now destruct P. }
  destruct K as (var & pre & K1 & K2 & K3). exists var, pre. eexists. sp; try exact K1; try exact K2; try reflexivity.
  - now rewrite map_map.
  - cbn [jf_cols]. unfold names_of, column_names. rewrite K3, map_map. reflexivity.
  - cbn [jf_rows]. now rewrite map_length, seq_length.
  - cbn [jf_rows]. intros j row E. rewrite nth_error_map in E. destruct (nth_error (seq 0 W) j) as [j'|] eqn:Ej; [|discriminate]. injection E as <-.
    assert (L : j < W) by (rewrite <- (seq_length W 0); apply nth_error_Some; congruence).
    assert (j' = j) as ->. { rewrite (nth_error_nth' _ 0) in Ej by now rewrite seq_length. rewrite seq_nth in Ej by auto. now injection Ej. }
    split; [now rewrite map_length|]. intros k r Ek. rewrite nth_error_map, Ek. cbn [option_map]. symmetry. apply nth_error_nth'.
    apply nth_error_In, of_type_in in Ek as (Ik & _). rewrite Forall_forall in F. rewrite (F r Ik). exact L.
Qed.

(** ** frames *)

Lemma create_frame_rect cols rows : rows <> [] -> Forall (fun r => List.length r = List.length cols) rows ->
  create_frame (JList (map JList rows)) (JList cols) = Ok (mkJF cols rows).
Proof.
  intros N F. unfold create_frame.
  assert (M : mapM (fun r => match r with JList l => Ok l | _ => Err ValueError end) (map JList rows) = Ok rows).
  { clear. induction rows as [|r rows IH]; auto. cbn [map mapM rbind]. rewrite IH. reflexivity. }
  rewrite M. cbn [rbind].
  assert (W : fold_right Nat.max 0 (map (@List.length json) rows) = List.length cols).
  { clear M. induction F as [|r rows H F IH]; [now destruct N|]. cbn [map fold_right]. rewrite H. destruct rows as [|r' rows]; [cbn; lia|]. rewrite IH by discriminate. lia. }
  rewrite W. destruct rows as [|r rows]; [now destruct N|]. rewrite Nat.eqb_refl. do 2 f_equal. clear N M W.
  induction F as [|a l H F IH]; auto. cbn [map]. rewrite IH. f_equal. unfold pad. rewrite H, Nat.sub_diag. apply List.app_nil_r.
Qed.

Lemma adjust_profile_rows size p p' : adjust_profile size p = Ok p' -> exists t, pd_data p' = Some t /\ List.length (jf_rows t) = size.
Proof.
  unfold adjust_profile. destruct (pd_data p) as [t|] eqn:E; [|discriminate]. destruct (Nat.ltb_spec size (List.length (jf_rows t))).
  - destruct (mapM _ _) as [rows|]; [|discriminate]. cbn [rbind]. unfold recalculate. destruct size as [|size]; [discriminate|].
    destruct (List.length (pp_rows _) mod S size =? 0); [|discriminate]. cbn [rbind]. intros X. injection X as <-. eexists. split; [reflexivity|].
    cbn [jf_rows pp_rows]. cbn [map List.length]. now rewrite !map_length, seq_length.
  - destruct (Nat.ltb_spec (List.length (jf_rows t)) size); [discriminate|]. intros X. injection X as <-. exists t. split; auto. lia.
Qed.

Lemma create_frame_width cols rows : rows <> [] -> fold_right Nat.max 0 (map (@List.length json) rows) <> List.length cols ->
  create_frame (JList (map JList rows)) (JList cols) = Err ValueError.
Proof.
  intros N W. unfold create_frame.
  assert (M : mapM (fun r => match r with JList l => Ok l | _ => Err ValueError end) (map JList rows) = Ok rows).
  { clear. induction rows as [|r rows IH]; auto. cbn [map mapM rbind]. rewrite IH. reflexivity. }
  rewrite M. cbn [rbind]. destruct rows as [|r rows]; [now destruct N|]. now apply Nat.eqb_neq in W as ->.
Qed.

Lemma max_bound rows n : (exists r : list json, In r rows /\ n < List.length r) -> n < fold_right Nat.max 0 (map (@List.length json) rows).
Proof. induction rows as [|a rows IH]; intros (r & I & L); [destruct I|]. cbn. destruct I as [->|I]; [lia|]. assert (n < fold_right Nat.max 0 (map (@List.length json) rows)) by (apply IH; eauto). lia. Qed.

Lemma max_small rows n : rows <> [] -> (forall r : list json, In r rows -> List.length r < n) -> fold_right Nat.max 0 (map (@List.length json) rows) < n.
Proof.
  induction rows as [|a rows IH]; intros N H; [now destruct N|]. cbn. specialize (H a (or_introl eq_refl)) as Ha. destruct rows as [|b rows]; [cbn; lia|].
  assert (fold_right Nat.max 0 (map (@List.length json) (b :: rows)) < n) by (apply IH; [discriminate|]; intros r I; apply H; now right). lia.
Qed.

Lemma get_remove k k' (d : obj) : k <> k' -> d_get k (d_remove k' d) = d_get k d.
Proof.
  intros N. unfold d_get. induction d as [|(a, v) d IH]; auto. cbn [d_remove l_get]. destruct (String.eqb_spec a k').
  - subst. destruct (String.eqb_spec k' k); [congruence|auto].
  - cbn [l_get]. destruct (String.eqb a k); auto.
Qed.

Lemma original_given excel d data cols el var : d_get "format_data" d = Some (JStr "original") ->
  d_get "data" d = Some data -> data <> JNull -> d_get "dataframe_columns_names" d = Some cols -> cols <> JNull ->
  d_get "element_type" d = Some el -> d_get "variable_name" d = Some var ->
  load_profile excel d = do t <- create_frame data cols;
    Ok (Some [mkPD el var (jget "indexes" (JList []) d) (jget "all_indexes" (JBool false) d) (Some t)
      (if present "active_columns_names" d then jget "active_columns_names" JNull d
       else if truthy (jget "all_active_columns_names" (JBool false) d) then JList (jf_cols t) else JNull)]).
Proof.
  intros E1 E2 N2 E3 N3 E4 E5. unfold load_profile, jget at 1. rewrite E1. replace (String.eqb "original" "original") with true by reflexivity.
  unfold read_original, read_dataframe. rewrite (present_some _ _ _ E2 N2), (present_some _ _ _ E3 N3). cbn [andb]. unfold jpop.
  assert (J1 : jget "data" JNull d = data) by (unfold jget; now rewrite E2).
  assert (J2 : jget "dataframe_columns_names" JNull (d_remove "data" d) = cols) by (rewrite jget_remove by discriminate; unfold jget; now rewrite E3).
  rewrite J1, J2. destruct (create_frame data cols) as [t|e]; cbn [rbind]; auto.
  unfold d_pop. cbn [fst snd]. rewrite !get_remove, E4 by discriminate. cbn [rbind fst snd]. rewrite !get_remove, E5 by discriminate. cbn [rbind fst snd].
  unfold read_active. rewrite !present_remove, !jget_remove by discriminate. destruct (present "active_columns_names" d); cbn [rbind]; auto.
  destruct (truthy _); reflexivity.
Qed.

Lemma from_last_dot_last l e : from_last_dot l = e -> e <> [] -> exists h, l = h ++ e.
Proof.
  revert e. induction l as [|a l IH]; cbn [from_last_dot]; intros e E N; [congruence|]. destruct (existsb (Ascii.eqb ".") l).
  - destruct (IH e E N) as (h & ->). now exists (a :: h).
  - destruct (Ascii.eqb a "."); [exists []; now subst|congruence].
Qed.
Lemma skip_dots_last l : exists h, l = h ++ skip_dots l.
Proof. induction l as [|a l (h & IH)]; [now exists []|]. cbn [skip_dots]. destruct (Ascii.eqb a "."); [exists (a :: h); cbn; now rewrite <- IH|now exists []]. Qed.
Lemma after_slash_last l : exists h, l = h ++ after_slash l.
Proof.
  induction l as [|a l (h & IH)]; [now exists []|]. cbn [after_slash]. destruct (existsb (Ascii.eqb "/") l); [exists (a :: h); cbn; now rewrite <- IH|].
  destruct (Ascii.eqb a "/"); [now exists [a]|now exists []].
Qed.

Lemma extension_suffix p : extension p <> "" -> exists h, list_ascii_of_string p = h ++ list_ascii_of_string (extension p).
Proof.
  unfold extension. intros N. rewrite list_ascii_of_string_of_list_ascii. set (l := list_ascii_of_string p) in *.
  destruct (after_slash_last l) as (h1 & H1). destruct (skip_dots_last (after_slash l)) as (h2 & H2).
  destruct (from_last_dot_last (skip_dots (after_slash l)) _ eq_refl) as (h3 & H3).
  - intros X. apply N. now rewrite X.
  - exists (h1 ++ h2 ++ h3). rewrite H1 at 1. rewrite H2 at 1. rewrite H3 at 1. now rewrite <- !app_assoc.
Qed.

(** ** tables *)

Definition table_entry (g : string) (data cols : json) : json := JObj [("group", JStr g); ("data", data); ("columns_names", cols)].

Lemma extract_step g data cols t acc : create_frame data cols = Ok t ->
  (do d <- as_obj (table_entry g data cols);
    do gd <- d_pop "group" d;
    match fst gd with
    | JStr g =>
      do dd <- d_pop "data" (snd gd);
      do cd <- d_pop "columns_names" (snd dd);
      do t <- create_frame (fst dd) (fst cd);
      Ok (d_set g t acc)
    | _ => Err TypeError
    end) = Ok (d_set g t acc).
Proof. intros E. cbn. now rewrite E. Qed.

Lemma extract_gen (es : list (string * (json * json))) ts acc : Forall2 (fun e t => create_frame (fst (snd e)) (snd (snd e)) = Ok t) es ts ->
  foldM (fun acc p =>
    do d <- as_obj p;
    do gd <- d_pop "group" d;
    match fst gd with
    | JStr g =>
      do dd <- d_pop "data" (snd gd);
      do cd <- d_pop "columns_names" (snd dd);
      do t <- create_frame (fst dd) (fst cd);
      Ok (d_set g t acc)
    | _ => Err TypeError
    end) (map (fun e => table_entry (fst e) (fst (snd e)) (snd (snd e))) es) acc =
  Ok (d_update acc (combine (map fst es) ts)).
Proof.
  intros F. revert acc. induction F as [|(g, (a, b)) t es ts E F IH]; intros acc; [reflexivity|]. cbn [map foldM fst snd]. cbn [fst snd] in E.
  rewrite (extract_step _ _ _ _ _ E). cbn [rbind]. rewrite IH. reflexivity.
Qed.
