(** Further properties of the reader of workbooks: letters, blanks, values that are not true and elements that are not there. *)
From Coq Require Import List String Ascii Bool Arith ZArith QArith Lia.
From Verif Require Import Base GraphDataProofs ExcelSheet ExcelProfiles ExcelProofs ExcelProfileProofs ExcelBook Properties_Excel Properties_ExcelUse.
Import ListNotations.
Open Scope string_scope.
Open Scope nat_scope.
Open Scope list_scope.

Local Ltac sp := repeat match goal with |- _ /\ _ => split end.

(** The same letter in any case, or any of the two spaces. *)
Definition alike_char (a b : ascii) : Prop :=
  a = b \/ (exists k, k < 26 /\ ((a = ascii_of_nat (65 + k) /\ b = ascii_of_nat (97 + k)) \/ (a = ascii_of_nat (97 + k) /\ b = ascii_of_nat (65 + k)))) \/
  (a = ascii_of_nat 160 /\ b = " "%char) \/ (a = " "%char /\ b = ascii_of_nat 160).
Inductive alike : string -> string -> Prop :=
| alike_nil : alike "" ""
| alike_cons a b s t : alike_char a b -> alike s t -> alike (String a s) (String b t).
Inductive alike_cell : option cell -> option cell -> Prop :=
| alike_text s t : alike s t -> alike_cell (Some (CStr s)) (Some (CStr t))
| alike_same v : alike_cell v v.
(** An empty text, 0 and False. *)
Definition nothing (v : cell) : Prop := v = CStr "" \/ v = CInt 0 \/ (exists q, v = CNum q /\ (q == 0)%Q) \/ v = CBool false.

Lemma letter_lower k : k < 26 -> lower_char (plain_char (ascii_of_nat (65 + k))) = lower_char (plain_char (ascii_of_nat (97 + k))).
Proof. intros L. do 26 (destruct k as [|k]; [reflexivity|]). lia. Qed.
Lemma alike_char_lower a b : alike_char a b -> lower_char (plain_char a) = lower_char (plain_char b).
Proof.
  intros [->|[(k & L & [(-> & ->)|(-> & ->)])|[(-> & ->)|(-> & ->)]]]; try reflexivity; [|symmetry]; now apply letter_lower.
Qed.
Lemma alike_lower s t : alike s t -> lower (plain s) = lower (plain t).
Proof. induction 1 as [|a b s t A _ IH]; [reflexivity|]. unfold lower, plain in *. cbn [smap]. now rewrite (alike_char_lower a b A), IH. Qed.
Lemma truthy_nothing v : truthy v = false <-> nothing v.
Proof.
  unfold truthy, nothing. destruct v as [s|z|q|b]; cbn [number].
  - rewrite negb_false_iff, String.eqb_eq. split; [intros ->; auto|]. intros [H|[H|[(q & H & _)|H]]]; congruence.
  - rewrite negb_false_iff, Qeq_bool_iff. split.
    + intros H. right. left. unfold Qeq in H. cbn in H. f_equal. lia.
    + intros [H|[H|[(q & H & _)|H]]]; try discriminate. injection H as ->. reflexivity.
  - rewrite negb_false_iff, Qeq_bool_iff. split; [intros H; right; right; left; eauto|]. intros [H|[H|[(q' & H & E)|H]]]; try discriminate. injection H as ->. exact E.
  - rewrite negb_false_iff, Qeq_bool_iff. split; [destruct b; [discriminate|auto]|]. intros [H|[H|[(q & H & _)|H]]]; try discriminate. injection H as ->. reflexivity.
Qed.

(* ------------------------------------------------------------------ *)
(** C249: titles are recognised in any case and with any spaces: sheets that differ in that only give the same elements. *)
Theorem C249_titles_in_any_case : forall fstr names typ first row row' rest, Forall2 alike_cell row row' ->
  read_info_network fstr names typ (first :: row :: rest) = read_info_network fstr names typ (first :: row' :: rest).
Proof.
  intros fstr names typ first row row' rest F. unfold read_info_network, parameter_names, titles. cbn [nth skipn]. assert (T : mapM title (across row 1) = mapM title (across row' 1)); [|now rewrite T].
  unfold across. cbn [Nat.sub skipn]. induction F as [|v w row row' A F IH]; [reflexivity|]. destruct A as [s t A|[v|]]; cbn [until_empty mapM title]; [rewrite (alike_lower s t A)| |reflexivity]; now rewrite IH.
Qed.
Print Assumptions C249_titles_in_any_case.
Example C249_titles_witness : exists row row', Forall2 alike_cell row row' /\ row <> row' /\ row = [Some (CStr "ZONE"); Some (CStr "Max Pflow")].
Proof.
  exists [Some (CStr "ZONE"); Some (CStr "Max Pflow")], [Some (CStr "zone"); Some (CStr (String "m" (String "a" (String "x" (String (ascii_of_nat 160) "pflow")))))].
  split; [|split; [discriminate|reflexivity]]. assert (U : forall k, k < 26 -> alike_char (ascii_of_nat (65 + k)) (ascii_of_nat (97 + k))) by (intros k L; right; left; exists k; auto).
  constructor; [|constructor; [|constructor]]; constructor.
  - apply alike_cons; [apply (U 25); lia|]. apply alike_cons; [apply (U 14); lia|]. apply alike_cons; [apply (U 13); lia|]. apply alike_cons; [apply (U 4); lia|]. constructor.
  - apply alike_cons; [apply (U 12); lia|]. apply alike_cons; [now left|]. apply alike_cons; [now left|]. apply alike_cons; [right; right; right; auto|]. apply alike_cons; [apply (U 15); lia|]. repeat (apply alike_cons; [now left|]). constructor.
Qed.
(** C249: the elements end above the first ID that is empty, 0 or False. *)
Theorem C249_ids : forall sh k ids, ids_of sh k ids <->
  (forall i id, nth_error ids i = Some id -> cell_at sh (3 + i) (S k) = Some id /\ ~ nothing id) /\ (forall id, cell_at sh (3 + List.length ids) (S k) = Some id -> nothing id).
Proof.
  intros sh k ids. unfold ids_of. split; intros (A & B); (split; [intros i id H; destruct (A i id H) as (C & D); split; [exact C|]|intros id H; apply truthy_nothing; now apply B]).
  - intros N. apply truthy_nothing in N. congruence.
  - destruct (truthy id) eqn:E; [reflexivity|]. apply truthy_nothing in E. contradiction.
Qed.
Print Assumptions C249_ids.
(** The ID of the second element is 0, so that it is not read. *)
Example C249_ids_witness : ids_of [[]; []; [Some (CStr "g1")]; [Some (CInt 0)]] 0 [CStr "g1"].
Proof. split; [intros i id H; destruct i as [|[|i]]; [injection H as <-; split; reflexivity|discriminate|discriminate]|intros id H; injection H as <-; reflexivity]. Qed.

(** C256: profiles are not used if the option for representative periods is missing, empty, 0 or False wherever it is given, and are
    otherwise. *)
Theorem C256_option : forall opts, wanted opts = false <-> (forall o, In o opts -> mo_name o = Some "representative periods" -> nothing (mo_value o)).
Proof.
  intros opts. unfold wanted. rewrite <- not_true_iff_false, existsb_exists. split.
  - intros N o I E. apply truthy_nothing. destruct (truthy (mo_value o)) eqn:T; [|reflexivity]. destruct N. exists o. rewrite E, T. split; [exact I|reflexivity].
  - intros A (o & I & H). apply andb_true_iff in H as (H1 & H2). unfold ostr_is in H1. destruct (mo_name o) as [s|] eqn:E; [|discriminate]. apply String.eqb_eq in H1. subst s. apply A in E; [|exact I]. apply truthy_nothing in E. congruence.
Qed.
Print Assumptions C256_option.
Theorem C256_not_wanted : forall opts d ps, (forall o, In o opts -> mo_name o = Some "representative periods" -> nothing (mo_value o)) -> use_profiles opts d ps = Ok d.
Proof. intros opts d ps H. apply C256_option in H. unfold use_profiles. now rewrite H. Qed.
Print Assumptions C256_not_wanted.
Example C256_option_witness : forall o, In o [mkOpt (Some "representative periods") (CBool false) None; mkOpt (Some "solver") (CStr "glpk") None] -> mo_name o = Some "representative periods" -> nothing (mo_value o).
Proof. intros o [<-|[<-|[]]] H; [unfold nothing; cbn; auto|discriminate H]. Qed.

(** C261: a profile of an element that is not there stops the reader with ValueError. *)
Theorem C261_no_element : forall opts d p ps t l, wanted opts = true -> pr_id p <> CStr "all" -> pr_type p = Some t -> sget d (Some t) = Ok l -> Forall as_read l ->
  (forall i, In i l -> named p i = false) -> use_profiles opts d (p :: ps) = Err ValueError.
Proof.
  intros opts d p ps t l W A T G R N. unfold use_profiles. rewrite W. cbn [List.length correlate]. unfold correlate_step. rewrite T, G. cbn [rbind].
  assert (FA : for_all p = false). { unfold for_all, cell_eqb. cbn [number]. destruct (pr_id p) as [s| | |]; cbn [number]; try reflexivity. apply String.eqb_neq. congruence. }
  unfold extract. rewrite FA. cbn [rbind]. unfold existing. assert (E : filter (there p) l = []).
  { clear -R. induction R as [|i l Hi R IH]; [reflexivity|]. cbn [filter]. rewrite IH. replace (there p i) with false; [reflexivity|]. symmetry. unfold there. destruct Hi as (H1 & H2 & _). rewrite ?H1, ?H2. cbn. rewrite !andb_false_r. reflexivity. }
  rewrite E. cbn [rbind fst snd]. unfold delete. rewrite FA. replace (delete_first (named p) l) with (@None (list info)); [reflexivity|].
  clear -N. induction l as [|i l IH]; [reflexivity|]. cbn [delete_first]. rewrite (N i) by now left. rewrite <- IH; [reflexivity|]. intros j I. apply N. now right.
Qed.
Print Assumptions C261_no_element.
Example C261_no_element_witness : Forall as_read [ex_bus "b1" "north" (CInt 10)] /\ (forall i, In i [ex_bus "b1" "north" (CInt 10)] -> named (ex_prof "b2" "north" 1 (CInt 1)) i = false) /\ pr_id (ex_prof "b2" "north" 1 (CInt 1)) <> CStr "all".
Proof. sp; [constructor; [apply ex_as_read|constructor]|intros i [<-|[]]; reflexivity|discriminate]. Qed.

(** C262: the names of variables in a list of a connection are read in any case and with any spaces. *)
Theorem C262_variables : forall s n, In n variable_names -> alike s n -> list_value (CStr s) = CStr n.
Proof.
  intros s n I A. unfold list_value. rewrite (alike_lower s n A). assert (X : forall n, In n variable_names -> lower (plain n) = n /\ dget all_names n = None /\ member variable_names n = true).
  { intros m J. repeat (destruct J as [<-|J]; [sp; reflexivity|]). destruct J. }
  destruct (X n I) as (X1 & X2 & X3). rewrite X1, X2. rewrite (alike_lower s n A), X1, X3. reflexivity.
Qed.
Print Assumptions C262_variables.
Example C262_variables_witness : In "flow" variable_names /\ alike "FLOW" "flow".
Proof.
  split; [cbn; auto|]. assert (U : forall k, k < 26 -> alike_char (ascii_of_nat (65 + k)) (ascii_of_nat (97 + k))) by (intros k L; right; left; exists k; auto).
  apply alike_cons; [apply (U 5); lia|]. apply alike_cons; [apply (U 11); lia|]. apply alike_cons; [apply (U 14); lia|]. apply alike_cons; [apply (U 22); lia|]. constructor.
Qed.
