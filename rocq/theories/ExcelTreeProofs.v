(** Lemmas about the reader of workbooks: the balance tree. *)
From Coq Require Import List String Bool Arith ZArith QArith Lia.
From Verif Require Import Base ExcelSheet ExcelTree ExcelProofs.
Import ListNotations.
Open Scope string_scope.
Open Scope nat_scope.
Open Scope list_scope.

(** Blocks: the name of the parameter, and the levels with their values. *)
Definition block := (string * list (cell * list cell))%type.
(** What a row of a level gives. *)
Definition row_info (n : string) (level : cell) (p0 : nat) (vs : list cell) : list treeinfo := map (fun iv => mkTree n level (fst iv) (tree_value (snd iv))) (combine (seq p0 (List.length vs)) vs).
Definition block_info (b : block) : list treeinfo := flat_map (fun lv => row_info (fst b) (fst lv) 1 (snd lv)) (snd b).
(** No parameter of this name and level. *)
Definition free (n : string) (level : cell) (l : list treeinfo) : Prop := forall t, In t l -> ti_name t = n -> cell_eqb (ti_level t) level = false.

Lemma row_info_S n level p0 v vs : row_info n level p0 (v :: vs) = mkTree n level p0 (tree_value v) :: row_info n level (S p0) vs.
Proof. reflexivity. Qed.
Lemma row_info_in n level p0 vs t : In t (row_info n level p0 vs) -> ti_name t = n /\ ti_level t = level /\ p0 <= ti_pos t < p0 + List.length vs.
Proof.
  revert p0. induction vs as [|v vs IH]; intros p0; [intros []|]. rewrite row_info_S. intros [<-|H]; [cbn; repeat split; lia|]. apply IH in H. cbn [List.length]. intuition lia.
Qed.
Lemma tree_cells n level vs : forall l p0, (forall t, In t l -> same_place n level (ti_pos t) t = true -> ti_pos t < p0) ->
  fold_left (tree_cell n level) vs (l, p0) = (l ++ row_info n level p0 vs, p0 + List.length vs).
Proof.
  induction vs as [|v vs IH]; intros l p0 H; [cbn; now rewrite app_nil_r, Nat.add_0_r|].
  cbn [fold_left]. unfold tree_cell at 2. destruct (existsb (same_place n level p0) l) eqn:E.
  - apply existsb_exists in E as (t & I & S). assert (P : ti_pos t = p0) by (unfold same_place in S; apply andb_true_iff in S as (_ & S); now apply Nat.eqb_eq in S). rewrite <- P in S. specialize (H t I S). lia.
  - rewrite IH.
    + rewrite row_info_S, <- app_assoc. cbn [List.length app]. f_equal. lia.
    + intros t I S. apply in_app_iff in I as [I|[<-|[]]]; [specialize (H t I S); lia|cbn; lia].
Qed.
Lemma free_cells n level l : free n level l -> forall t, In t l -> same_place n level (ti_pos t) t = true -> ti_pos t < 1.
Proof. intros F t I S. unfold same_place in S. apply andb_true_iff in S as (S & _). apply andb_true_iff in S as (S1 & S2). apply String.eqb_eq in S1. rewrite (F t I S1) in S2. discriminate. Qed.

(** A row of a level. *)
Definition level_row (row : list (option cell)) (lv : cell * list cell) : Prop :=
  in_row row 1 = Some (fst lv) /\ (forall i v, nth_error (snd lv) i = Some v -> in_row row (2 + i) = Some v) /\ in_row row (2 + List.length (snd lv)) = None.
Lemma level_row_across row lv : level_row row lv -> across row 2 = snd lv.
Proof. intros (_ & H & N). apply across_spec; auto. Qed.
Lemma tree_row_free row lv n l : level_row row lv -> free n (fst lv) l -> tree_row n l (fst lv) row = l ++ row_info n (fst lv) 1 (snd lv).
Proof. intros H F. unfold tree_row. rewrite (level_row_across _ _ H), tree_cells by (now apply free_cells). reflexivity. Qed.

(** The levels of a block that have not been read before. *)
Fixpoint fresh (n : string) (lvs : list (cell * list cell)) (l : list treeinfo) : Prop :=
  match lvs with [] => True | lv :: r => free n (fst lv) l /\ fresh n r (l ++ row_info n (fst lv) 1 (snd lv)) end.
Lemma level_rows n : forall rows lvs, Forall2 level_row rows lvs -> forall rest l, fresh n lvs l ->
  tree_rows (rows ++ rest) (Within n) l = tree_rows rest (Within n) (l ++ block_info (n, lvs)).
Proof.
  induction 1 as [|row lv rows lvs R RS IH]; intros rest l F; [cbn; now rewrite app_nil_r|].
  destruct F as (F1 & F2). cbn [app tree_rows]. destruct R as (R1 & R). rewrite R1. rewrite (tree_row_free row lv n l (conj R1 R) F1), IH by exact F2.
  unfold block_info. cbn [flat_map fst snd]. now rewrite <- app_assoc.
Qed.
(** Rows that are no titles. *)
Definition untitled (row : list (option cell)) : Prop := block_name (in_row row 1) = None.
Lemma gap_rows : forall rows, Forall untitled rows -> forall rest t l, t + List.length rows <= 20 -> tree_rows (rows ++ rest) (Looking t) l = tree_rows rest (Looking (t + List.length rows)) l.
Proof.
  induction 1 as [|row rows U US IH]; intros rest t l L; [cbn; now rewrite Nat.add_0_r|]. cbn [List.length] in L. cbn [app tree_rows]. rewrite (proj2 (Nat.ltb_lt t 20)) by lia. unfold untitled in U. rewrite U, IH by lia. cbn [List.length]. f_equal. f_equal. lia.
Qed.
Lemma looking_over : forall rows t l, (forall i, t + i < 20 -> i < List.length rows -> untitled (nth i rows [])) -> tree_rows rows (Looking t) l = l.
Proof.
  induction rows as [|row rows IH]; intros t l H; [reflexivity|]. cbn [tree_rows]. destruct (Nat.ltb_spec t 20) as [L|L]; [|reflexivity].
  pose proof (H 0 ltac:(lia) ltac:(cbn; lia)) as U. cbn in U. unfold untitled in U. rewrite U. apply IH. intros i I1 I2. apply (H (S i)); cbn; lia.
Qed.
Lemma leave_block n row rest l : in_row row 1 = None -> tree_rows (row :: rest) (Within n) l = tree_rows (row :: rest) (Looking 0) l.
Proof. intros E. cbn [tree_rows]. now rewrite E. Qed.

Definition keys (bs : list block) : list (string * cell) := flat_map (fun b => map (fun lv => (fst b, fst lv)) (snd b)) bs.
Definition differ (a b : string * cell) : Prop := fst a = fst b -> cell_eqb (snd a) (snd b) = false.
Definition apart (bs : list block) : Prop := ForallOrdPairs differ (keys bs).

Lemma fop_app {A} (R : A -> A -> Prop) l m : ForallOrdPairs R (l ++ m) -> ForallOrdPairs R l /\ ForallOrdPairs R m /\ forall a b, In a l -> In b m -> R a b.
Proof.
  induction l as [|x l IH]; cbn [app]; intros H; [repeat split; auto; [constructor|intros a b []]|].
  inversion H as [|? ? F G]; subst. destruct (IH G) as (A1 & A2 & A3). rewrite Forall_forall in F. repeat split; auto.
  - constructor; auto. apply Forall_forall. intros y Y. apply F, in_or_app. auto.
  - intros a b [<-|I] J; [apply F, in_or_app; auto|auto].
Qed.
Lemma info_key bs t : In t (flat_map block_info bs) -> In (ti_name t, ti_level t) (keys bs).
Proof.
  intros H. apply in_flat_map in H as (b & B & H). unfold block_info in H. apply in_flat_map in H as (lv & L & H). apply row_info_in in H as (-> & -> & _). apply in_flat_map. exists b. split; [exact B|]. apply in_map_iff. exists lv. auto.
Qed.
Lemma fresh_of n : forall lvs l, ForallOrdPairs differ (map (fun lv => (n, fst lv)) lvs) -> (forall lv, In lv lvs -> free n (fst lv) l) -> fresh n lvs l.
Proof.
  induction lvs as [|lv lvs IH]; intros l F H; [exact I|]. cbn [map] in F. inversion F as [|? ? F1 F2]; subst. cbn [fresh]. split; [apply H; now left|]. apply IH; [exact F2|].
  intros lw L t T N. apply in_app_iff in T as [T|T]; [apply (H lw (or_intror L) t T N)|]. apply row_info_in in T as (_ & -> & _). rewrite Forall_forall in F1. apply (F1 (n, fst lw)); [|reflexivity]. apply in_map_iff. exists lw. auto.
Qed.

(** Find a node in the names. *)
Definition place (level : cell) (pos : nat) (t : treeinfo) : bool := cell_eqb (ti_level t) level && (ti_pos t =? pos).
Lemma find_none_all {A} (f : A -> bool) l : (forall a, In a l -> f a = false) -> find f l = None.
Proof. induction l as [|a l IH]; intros H; [reflexivity|]. cbn. rewrite (H a (or_introl eq_refl)). apply IH. intros b B. apply H. now right. Qed.
Lemma find_row n level level' vs : cell_eqb level level' = true -> forall p0 i, option_map ti_value (find (place level' (p0 + i)) (row_info n level p0 vs)) = option_map tree_value (nth_error vs i).
Proof.
  intros E. induction vs as [|v vs IH]; intros p0 i; [destruct i; reflexivity|]. rewrite row_info_S. cbn [find]. unfold place at 1. cbn [ti_level ti_pos]. rewrite E. cbn [andb]. destruct i.
  - rewrite Nat.add_0_r, Nat.eqb_refl. reflexivity.
  - destruct (Nat.eqb_spec p0 (p0 + S i)); [lia|]. rewrite <- Nat.add_succ_comm. apply IH.
Qed.
Lemma find_other n level level' vs pos : cell_eqb level level' = false -> forall p0, find (place level' pos) (row_info n level p0 vs) = None.
Proof. intros E p0. apply find_none_all. intros t T. unfold place. apply row_info_in in T as (_ & -> & _). now rewrite E. Qed.
Lemma find_levels n level i : forall lvs, ForallOrdPairs differ (map (fun lv => (n, fst lv)) lvs) ->
  option_map ti_value (find (place level (S i)) (flat_map (fun lv => row_info n (fst lv) 1 (snd lv)) lvs)) =
  match find (fun lv : cell * list cell => cell_eqb (fst lv) level) lvs with Some lv => option_map tree_value (nth_error (snd lv) i) | None => None end.
Proof.
  induction lvs as [|lv lvs IH]; intros F; [reflexivity|]. cbn [map] in F. inversion F as [|? ? F1 F2]; subst. cbn [flat_map find]. rewrite find_app'. destruct (cell_eqb (fst lv) level) eqn:E.
  - pose proof (find_row n (fst lv) level (snd lv) E 1 i) as G. change (1 + i) with (S i) in G. rewrite <- G. destruct (find _ (row_info _ _ _ _)) eqn:FD; [reflexivity|]. cbn [option_map].
    rewrite find_none_all; [reflexivity|]. intros t T. apply in_flat_map in T as (lw & W & T). unfold place. apply row_info_in in T as (_ & -> & _).
    destruct (cell_eqb (fst lw) level) eqn:E2; [|reflexivity]. exfalso. rewrite Forall_forall in F1. specialize (F1 (n, fst lw) (in_map _ _ _ W) eq_refl). cbn in F1.
    rewrite cell_eqb_sym in E2. rewrite (cell_eqb_trans _ _ _ E E2) in F1. discriminate.
  - rewrite (find_other n (fst lv) level (snd lv) (S i) E 1). apply IH, F2.
Qed.
