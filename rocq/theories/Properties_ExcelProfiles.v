(** Properties of the reader of workbooks: profiles. *)
From Coq Require Import List String Ascii Bool Arith ZArith QArith Lia.
From Verif Require Import Base GraphDataProofs ExcelSheet ExcelProfiles ExcelProofs ExcelTreeProofs ExcelProfileProofs.
Import ListNotations.
Open Scope string_scope.
Open Scope nat_scope.
Open Scope list_scope.

Local Ltac sp := repeat match goal with |- _ /\ _ => split end.

(* ------------------------------------------------------------------ *)
(** ** C255 *)

(** A block of profiles: the type of the elements, the lines below it, the row of the hours and the values of each element. *)
Record pblock := mkBlock { pb_type : string; pb_lines : list line; pb_hours : list (option cell); pb_data : list (cell * list cell) }.
Definition pb_head (b : pblock) : head := fold_left set_line (pb_lines b) (mkHead (Some (pb_type b)) None [] None None None).
(** The rows have these blocks, with at most 19 rows before each whose first cells are empty. *)
Inductive plaid : sheet -> list pblock -> Prop :=
| plaid_none rows : Forall (fun row => in_row row 1 = None) rows -> plaid rows []
| plaid_block gap trow lrows srow drows rest b n bs : Forall (fun row => in_row row 1 = None) gap -> List.length gap < 20 -> type_row trow (pb_type b) ->
    Forall2 (line_row (pb_type b)) lrows (pb_lines b) -> List.length (filter is_tree (pb_lines b)) <= 1 -> hd_name (pb_head b) = Some n -> start_row srow (pb_hours b) ->
    Forall2 level_row drows (pb_data b) -> (forall r rs, rest = r :: rs -> in_row r 1 = None) -> plaid rest bs ->
    plaid (gap ++ trow :: lrows ++ srow :: pb_hours b :: drows ++ rest) (b :: bs).
(** What is known of the blocks: every value with its hour (or its number if the hour has no name), its element and the lines. *)
Definition block_profiles (b : pblock) : list profile :=
  match hd_name (pb_head b) with
  | Some n => flat_map (fun d => map (fun tv => mkProf n (hd_tree (pb_head b)) (match in_row (pb_hours b) (2 + fst tv) with Some c => c | None => CInt (Z.of_nat (fst tv)) end)
                (fst d) (Some (pb_type b)) (hd_subtype (pb_head b)) (hd_group (pb_head b)) (hd_zone (pb_head b)) (snd tv)) (combine (seq 0 (List.length (snd d))) (snd d))) (pb_data b)
  | None => []
  end.

Lemma pb_head_type b : hd_type (pb_head b) = Some (pb_type b).
Proof. unfold pb_head. assert (G : forall ls h, hd_type (fold_left set_line ls h) = hd_type h) by (induction ls as [|l ls IH]; intros h; [reflexivity|]; cbn [fold_left]; now rewrite IH, set_line_type). apply G. Qed.
Lemma plaid_rows rows bs : plaid rows bs -> forall acc, profile_rows rows (Top 0) no_head acc = Ok (acc ++ flat_map block_profiles bs).
Proof.
  induction 1 as [rows H|gap trow lrows srow drows rest b n bs G GL T L LT N S D E P IH]; intros acc; [rewrite app_nil_r; now apply all_empty|].
  rewrite empty_rows by (auto; cbn; lia). cbn [Nat.add profile_rows]. rewrite (proj2 (Nat.ltb_lt _ 20) GL), (type_line _ _ _ _ T). cbn [rbind].
  assert (TY : In (pb_type b) ["bus"; "branch"; "generator"]) by apply T.
  rewrite (head_lines (pb_type b) _ TY GL _ _ L); [|reflexivity|left; auto]. cbn [hd_subtype hd_tree hd_name hd_group hd_zone no_head]. fold (pb_head b).
  cbn [profile_rows app]. rewrite (proj2 (Nat.ltb_lt _ 20) GL). cbn [nth]. rewrite (start_line _ _ _ _ TY (pb_head_type b) S). cbn [rbind].
  rewrite (data_rows _ n _ N _ _ D). cbn [flat_map]. 
  assert (EB : flat_map (row_profiles (pb_head b) n (pb_hours b)) (pb_data b) = block_profiles b).
  { unfold block_profiles. rewrite N. apply flat_map_ext. intros d. unfold row_profiles. now rewrite pb_head_type. }
  rewrite EB, app_assoc, <- IH. destruct rest as [|r rest]; [reflexivity|]. apply leave_data. now apply (E r rest).
Qed.

(** C255: from a sheet with blocks of profiles every value is read, in order, with the lines of its block. *)
Theorem C255_profiles : forall first rows bs acc, plaid rows bs -> read_profile acc (first :: rows) = Ok (acc ++ flat_map block_profiles bs).
Proof. intros first rows bs acc P. unfold read_profile. cbn [skipn]. now apply plaid_rows. Qed.
Print Assumptions C255_profiles.

(** The demand of all buses of the north in two hours of a winter day. *)
Definition ex_block : pblock :=
  mkBlock "bus" [LName "Pd"; LTree ["winter"; "weekday"]; LGroup (CStr "north")] [Some (CStr "ID"); Some (CInt 8); None] [(CStr "all", [CNum (1 # 2); CInt 1])].
Definition ex_profile : sheet :=
  [[]; [Some (CStr "Type"); Some (CStr "Bus")]; [Some (CStr "Name"); Some (CStr "PD")]; [Some (CStr "Representative Day"); Some (CStr "Winter"); Some (CStr "weekday")];
   [Some (CStr "group"); Some (CStr "north")]; [Some (CStr "Dataset"); Some (CStr "Hour")]; [Some (CStr "ID"); Some (CInt 8); None]; [Some (CStr "all"); Some (CNum (1 # 2)); Some (CInt 1)]].
Example C255_witness : plaid ex_profile [ex_block] /\
  block_profiles ex_block = [mkProf "Pd" ["winter"; "weekday"] (CInt 8) (CStr "all") (Some "bus") None (Some (CStr "north")) None (CNum (1 # 2));
                             mkProf "Pd" ["winter"; "weekday"] (CInt 1) (CStr "all") (Some "bus") None (Some (CStr "north")) None (CInt 1)].
Proof.
  split; [|reflexivity].
  apply (plaid_block [[]] [Some (CStr "Type"); Some (CStr "Bus")]
    [[Some (CStr "Name"); Some (CStr "PD")]; [Some (CStr "Representative Day"); Some (CStr "Winter"); Some (CStr "weekday")]; [Some (CStr "group"); Some (CStr "north")]]
    [Some (CStr "Dataset"); Some (CStr "Hour")] [[Some (CStr "all"); Some (CNum (1 # 2)); Some (CInt 1)]] [] ex_block "Pd" []); try reflexivity; try (cbn; lia).
  - repeat constructor.
  - unfold type_row. sp; [exists "Type"; split; [reflexivity|vm_compute; auto]|cbn; auto|exists "Bus"; split; reflexivity].
  - cbn [pb_lines ex_block]. repeat constructor; cbn [line_row].
    + exists "Name". split; [reflexivity|vm_compute; auto].
    + exists "PD". split; reflexivity.
    + exists "Representative Day". split; [reflexivity|vm_compute; auto].
    + exists ["Winter"; "weekday"]. sp; try reflexivity. intros i v H. do 2 (destruct i as [|i]; [now injection H as <-|]). destruct i; discriminate H.
    + exists "group". split; [reflexivity|vm_compute; auto].
  - unfold start_row. sp; [exists "Dataset"|exists "Hour"|exists "ID"]; split; reflexivity.
  - repeat constructor. cbn [pb_data snd]. intros i v H. do 2 (destruct i as [|i]; [now injection H as <-|]). destruct i; discriminate H.
  - intros r rs H. discriminate H.
  - constructor. constructor.
Qed.
