(** The converter and the reader of MATPOWER case files on the same file. *)
From Coq Require Import List String Ascii Bool Arith ZArith QArith Lia.
From Verif Require Import Base Container GraphDataProofs NumeralSpec Reader MatFile MatFileSpec MatFileProofs Converter ConverterSpec ConverterProofs ConverterFile.
Import ListNotations.
Open Scope string_scope.
Open Scope nat_scope.
Open Scope list_scope.

Local Ltac sp := repeat match goal with |- _ /\ _ => split end.

(** The same lines, described for the converter and for the reader. *)
Definition cost_entries (r : cost) : list entry := Num (co_model r) :: co_startup r :: co_shutdown r :: Num (co_ncost r) :: co_first r ++ [co_last r].
Inductive both : section -> part -> Prop :=
| both_note l : both (Note l) (Other l)
| both_version n l : both (Note l) (Assign "version" n l)
| both_base n l : both (BaseMVA (Num n) l) (Assign "baseMVA" n l)
| both_table name h body cl rows : layout name <> None -> Forall2 (fun b r => fst b = Some (map Num (fst r)) /\ snd b = snd r) body rows ->
    both (ConverterSpec.Matrix name h body cl) (MatFileSpec.Matrix name h rows cl)
| both_costs h body cl rows : Forall2 (fun b r => (exists x, fst b = Some x /\ cost_entries x = map Num (fst r)) /\ snd b = snd r) body rows ->
    both (Costs h body cl) (MatFileSpec.Matrix "gencost" h rows cl).

(** The table [name] occurs at most once. *)
Definition once (name : string) (ss : list section) : Prop :=
  List.length (flat_map (fun s => match s with ConverterSpec.Matrix name' _ _ _ => if String.eqb name' name then [name'] else [] | _ => [] end) ss) <= 1.

(** The two readers hold the same number. *)
Definition agrees (k : kind) (q : Q) (v : value) : Prop :=
  match k, v with Whole, VI z => whole_part z q | Real, VF (Fin p) | Final, VF (Fin p) => (p == q)%Q | _, _ => False end.

Lemma both_lines s p : both s p -> section_lines s = lines_of p.
Proof.
  intros B. destruct B as [| | |name h body cl rows _ F|h body cl rows F]; try reflexivity; cbn [section_lines lines_of]; f_equal; f_equal; induction F as [|b r body rows (_ & E) F IH]; cbn [map]; congruence.
Qed.
Lemma all_lines ss ps : Forall2 both ss ps -> flat_map section_lines ss = flat_map lines_of ps.
Proof. induction 1 as [|s p ss ps B F IH]; [reflexivity|]. cbn [flat_map]. now rewrite (both_lines s p B), IH. Qed.

Lemma both_rows body rows : Forall2 (fun b r => fst b = Some (map Num (fst r)) /\ snd b = snd r) body rows -> @given (list entry) body = map (map Num) (map (@fst (list numeral) text) rows).
Proof. induction 1 as [|b r body rows (E & _) F IH]; [reflexivity|]. unfold given in *. cbn [flat_map map]. rewrite E, IH. reflexivity. Qed.

Definition tables (name : string) (ss : list section) : list string :=
  flat_map (fun s => match s with ConverterSpec.Matrix name' _ _ _ => if String.eqb name' name then [name'] else [] | _ => [] end) ss.
Lemma other_name name n : layout name <> None -> In n ["version"; "baseMVA"; "gencost"] -> String.eqb n name = false.
Proof. intros L I. apply String.eqb_neq. intros <-. cbn in I. decompose [or] I; subst; try contradiction; now apply L. Qed.
Lemma no_table name ss ps : layout name <> None -> Forall2 both ss ps -> tables name ss = [] -> rows_of name ss = [] /\ contents_of name ps = None.
Proof.
  intros L. induction 1 as [|s p ss ps B F IH]; [auto|]. unfold tables, rows_of. cbn [flat_map contents_of]. intros E. apply app_eq_nil in E as [A E]. destruct (IH E) as [IH1 IH2].
  fold (rows_of name ss). rewrite IH1, IH2. destruct B as [l|n l|n l|name' h body cl rows Ln FF|h body cl rows FF]; cbn [defines app]; auto.
  - rewrite other_name; cbn; auto.
  - rewrite other_name; cbn; auto.
  - destruct (String.eqb name' name); [discriminate|auto].
  - rewrite other_name; cbn; auto.
Qed.

Lemma rows_agree name ss ps : layout name <> None -> Forall2 both ss ps -> once name ss ->
  match contents_of name ps with None => rows_of name ss = [] | Some (Numbers rows) => rows_of name ss = map (map Num) rows | Some (Number _) => False end.
Proof.
  intros L F. induction F as [|s p ss ps B F IH]; intros O; [reflexivity|]. cbn [contents_of rows_of flat_map]. unfold once in O. cbn [flat_map] in O. rewrite app_length in O.
  specialize (IH ltac:(unfold once; lia)). fold (rows_of name ss). fold (tables name ss) in O.
  destruct B as [l|n l|n l|name' h body cl rows Ln FF|h body cl rows FF]; cbn [defines app].
  - destruct (contents_of name ps); auto.
  - rewrite other_name by (cbn; auto). destruct (contents_of name ps); auto.
  - rewrite other_name by (cbn; auto). destruct (contents_of name ps); auto.
  - destruct (String.eqb_spec name' name) as [->|NE]; [|destruct (contents_of name ps); auto].
    cbn [List.length] in O. destruct (no_table name ss ps L F) as [-> ->]; [apply length_zero_iff_nil; lia|]. rewrite List.app_nil_r. exact (both_rows body rows FF).
  - rewrite other_name by (cbn; auto). destruct (contents_of name ps); auto.
Qed.

Lemma base_last ss : forall acc, fold_left (fun acc s => match s with BaseMVA e _ => Some e | _ => acc end) ss acc = match base_of ss with Some e => Some e | None => acc end.
Proof.
  unfold base_of. induction ss as [|s ss IH]; intros acc; [reflexivity|]. cbn [fold_left]. rewrite IH. rewrite (IH (match s with BaseMVA e _ => Some e | _ => None end)).
  destruct (fold_left _ ss None); [reflexivity|]. destruct s; reflexivity.
Qed.
Lemma base_agree ss ps : Forall2 both ss ps -> match contents_of "baseMVA" ps with None => base_of ss = None | Some (Number n) => base_of ss = Some (Num n) | Some (Numbers _) => False end.
Proof.
  induction 1 as [|s p ss ps B F IH]; [reflexivity|]. cbn [contents_of]. unfold base_of. cbn [fold_left]. rewrite base_last.
  assert (R : match contents_of "baseMVA" ps with Some c => Some c | None => None end = contents_of "baseMVA" ps) by now destruct (contents_of "baseMVA" ps).
  destruct B as [l|n l|n l|name' h body cl rows Ln FF|h body cl rows FF]; cbn [defines].
  - rewrite R. destruct (contents_of "baseMVA" ps) as [[|]|]; try contradiction; now rewrite IH.
  - change (String.eqb "version" "baseMVA") with false. cbn match. rewrite R. destruct (contents_of "baseMVA" ps) as [[|]|]; try contradiction; now rewrite IH.
  - change (String.eqb "baseMVA" "baseMVA") with true. cbn match. destruct (contents_of "baseMVA" ps) as [[|]|]; try contradiction; now rewrite IH.
  - assert (X : String.eqb name' "baseMVA" = false) by (apply String.eqb_neq; intros ->; now apply Ln). rewrite X, R. destruct (contents_of "baseMVA" ps) as [[|]|]; try contradiction; now rewrite IH.
  - change (String.eqb "gencost" "baseMVA") with false. cbn match. rewrite R. destruct (contents_of "baseMVA" ps) as [[|]|]; try contradiction; now rewrite IH.
Qed.

Lemma column_agrees k j rows t vs : Forall2 (Forall2 (fun n q => q == numeral_value n)%Q) rows t ->
  Forall2 (fun (r : list entry) v => exists e, nth_error r j = Some e /\ stored k e v) (map (map Num) rows) vs ->
  Forall2 (fun row v => exists q, nth_error row j = Some q /\ agrees k q v) t vs.
Proof.
  intros F. revert vs. induction F as [|r row rows t R F IH]; intros vs G; inversion G as [|? v ? vs' (e & E & S0) G']; subst; constructor; [|now apply IH].
  rewrite nth_error_map in E. destruct (nth_error r j) as [n|] eqn:En; [|discriminate]. injection E as <-.
  assert (X : forall r row j n, Forall2 (fun n q => q == numeral_value n)%Q r row -> nth_error r j = Some n -> exists q, nth_error row j = Some q /\ (q == numeral_value n)%Q).
  { clear. intros r row j n F. revert j. induction F as [|a b r row H F IH]; intros [|j] E; cbn in E; try discriminate; [injection E as <-; exists b; auto|]. now apply IH. }
  destruct (X r row j n R En) as (q & Eq & Q0). exists q. split; [exact Eq|]. destruct k, v as [z|[p| |]|tx]; cbn in S0 |- *; try contradiction.
  - destruct S0 as (n' & E' & W). injection E' as <-. eapply whole_compat; [|exact W]. now symmetry.
  - now rewrite S0, Q0.
  - now rewrite S0, Q0.
Qed.

Lemma readers_agree V ss ps : Forall2 both ss ps -> Forall (section_ok V) ss -> Forall part_ok ps -> (forall name, layout name <> None -> once name ss) ->
  exists c vars, convert V (flat_map section_lines ss) = Ok c /\ build_mat (flat_map section_lines ss) = Ok vars /\
    (match k_base c, d_get "baseMVA" vars with Some (Fin p), Some (Scalar q) => (p == q)%Q | None, None => True | _, _ => False end) /\
    forall name cols j col k, layout name = Some cols -> nth_error cols j = Some (col, k) -> exists vs, d_get col (the_table name c) = Some vs /\
      match d_get name vars with Some (Table t) => Forall2 (fun row v => exists q, nth_error row j = Some q /\ agrees k q v) t vs | Some (Scalar _) => False | None => vs = [] end.
Proof.
  intros B OK OP U. destruct (convert_ok V ss OK) as (c & E & HB & HS & HT & _). destruct (build_ok ps OP) as (vars & E' & R). exists c, vars. rewrite (all_lines ss ps B) in *. sp; auto.
  - pose proof (base_agree ss ps B) as X. specialize (R "baseMVA"). destruct (contents_of "baseMVA" ps) as [[n|rows]|]; try contradiction; rewrite X in HB; cbn [represents] in R.
    + destruct (k_base c) as [[p| |]|]; try contradiction. destruct (d_get "baseMVA" vars) as [[q|t]|]; try contradiction. cbn in HB. now rewrite HB, R.
    + destruct (k_base c); try contradiction. destruct (d_get "baseMVA" vars); [contradiction|exact I].
  - intros name cols j col k L En. assert (Ln : layout name <> None) by congruence. pose proof (rows_agree name ss ps Ln B (U name Ln)) as X. specialize (R name).
    destruct (HT name cols L) as (_ & H). destruct (H j col k En) as (vs & G & F). exists vs. split; [exact G|].
    destruct (contents_of name ps) as [[n|rows]|]; try contradiction; rewrite X in F; cbn [represents] in R.
    + destruct (d_get name vars) as [[q|t]|]; try contradiction. exact (column_agrees k j rows t vs R F).
    + destruct (d_get name vars); [contradiction|]. now inversion F.
Qed.
