(** The converter reads the sections of a case file. *)
From Coq Require Import List String Ascii Bool Arith ZArith QArith Lia.
From Verif Require Import Base Container GraphDataProofs Reader NumeralSpec NumeralProofs MatFile MatFileSpec MatFileProofs Converter ConverterSpec ConverterProofs.
Import ListNotations.
Open Scope string_scope.
Open Scope nat_scope.
Open Scope list_scope.

Local Ltac sp := repeat match goal with |- _ /\ _ => split end.
Local Arguments Ascii.eqb : simpl never.
#[local] Opaque is_digit.

(** ** Entries of a row *)

Lemma holds_chars lax k e w a : holds lax k e w -> In a w -> is_digit a = true \/ In a ["-"; "."; "e"; "+"; "I"; "n"; "f"; ";"]%char.
Proof.
  assert (X : forall e, entry_ok e -> In a (entry_text e) -> is_digit a = true \/ In a ["-"; "."; "e"; "+"; "I"; "n"; "f"; ";"]%char).
  { intros e0 OK I. apply entry_chars in I as [I|I]; auto. right. cbn in *. intuition. }
  destruct k; cbn [holds].
  - intros (n & -> & OK & -> & _) I. exact (X (Num n) OK I).
  - intros (OK & ->) I. eauto.
  - intros (OK & suf & -> & F) I. rewrite in_app_iff in I. destruct I as [I|I]; eauto. rewrite Forall_forall in F. apply F in I as <-. right. cbn. intuition.
Qed.
Lemma holds_no lax k e w a : holds lax k e w -> is_digit a = false -> ~ In a ["-"; "."; "e"; "+"; "I"; "n"; "f"; ";"]%char -> ~ In a w.
Proof. intros H D N I. apply (holds_chars _ _ _ _ _ H) in I as [I|I]; auto. congruence. Qed.
Lemma holds_no_m lax k e w : holds lax k e w -> ~ In "m"%char w.
Proof. intros H. apply (holds_no lax k e w); auto. cbn. intuition discriminate. Qed.
Lemma holds_no_bracket lax k e w : holds lax k e w -> ~ In "]"%char w.
Proof. intros H. apply (holds_no lax k e w); auto. cbn. intuition discriminate. Qed.

Section Copy.
Variable V : variant.

Definition cells_ok (ints : list string) (last : string) (cols : list (string * kind)) : Prop :=
  forall c k e w, In (c, k) cols -> holds (v_truncates V) k e w -> exists v, cell V ints last c w = Ok v /\ stored k e v.

Lemma whole_cell w e : holds (v_truncates V) Whole e w -> exists v, (do z <- read_whole V w; Ok (VI z)) = Ok v /\ stored Whole e v.
Proof.
  intros (n & -> & OK & -> & H). destruct (read_whole_ok V n OK H) as (z & E & EQ). rewrite E. cbn [rbind]. eexists. split; [reflexivity|]. cbn. eauto.
Qed.
Lemma real_cell w e : holds (v_truncates V) Real e w -> exists v, (do f <- read_float w; Ok (VF f)) = Ok v /\ stored Real e v.
Proof. intros (OK & ->). destruct (read_float_entry e OK) as (f & E & EQ). rewrite E. cbn [rbind]. eexists. split; [reflexivity|]. exact EQ. Qed.
Lemma final_cell w e : holds (v_truncates V) Final e w -> exists v, (do f <- read_float (no_semicolons w); Ok (VF f)) = Ok v /\ stored Final e v.
Proof. intros (OK & suf & -> & F). destruct (read_float_final e suf OK F) as (f & E & EQ). rewrite E. cbn [rbind]. eexists. split; [reflexivity|]. exact EQ. Qed.

Definition ints_of (name : string) : list string :=
  if String.eqb name "bus" then ["BUS_I"; "BUS_TYPE"; "BUS_AREA"; "ZONE"] else if String.eqb name "gen" then ["GEN_BUS"; "GEN"] else ["F_BUS"; "T_BUS"; "BR_STATUS"].
Definition last_of (name : string) : string := if String.eqb name "bus" then "VMIN" else if String.eqb name "gen" then "APF" else "ANGMAX".

Lemma layout_name name cols : layout name = Some cols -> name = "bus" \/ name = "gen" \/ name = "branch".
Proof.
  unfold layout. destruct (String.eqb_spec name "bus"); auto. destruct (String.eqb_spec name "gen"); auto. destruct (String.eqb_spec name "branch"); auto. discriminate.
Qed.
Lemma layout_cells name cols : layout name = Some cols -> cells_ok (ints_of name) (last_of name) cols.
Proof.
  intros L. destruct (layout_name name cols L) as [->|[->| ->]]; injection L as <-; intros c k e w I H; cbn in I;
  repeat (destruct I as [I|I]; [injection I as <- <-; first [apply (whole_cell w e H)|apply (real_cell w e H)|apply (final_cell w e H)]|]); destruct I.
Qed.
Lemma layout_distinct name cols : layout name = Some cols -> NoDup (map fst cols).
Proof.
  intros L. destruct (layout_name name cols L) as [->|[->| ->]]; injection L as <-; cbn; repeat constructor; cbn; intuition discriminate.
Qed.
Lemma layout_two name cols : layout name = Some cols -> 2 <= List.length cols /\ exists c, nth_error cols 0 = Some (c, Whole).
Proof. intros L. destruct (layout_name name cols L) as [->|[->| ->]]; injection L as <-; cbn; (split; [lia|eauto]). Qed.

Lemma combine_more {A B} : forall (ws more : list A) (cols : list B), List.length ws = List.length cols -> combine (ws ++ more) cols = combine ws cols.
Proof. induction ws as [|w ws IH]; intros more [|c cols] L; try discriminate; cbn; [now destruct more|]. f_equal. apply IH. cbn in L. lia. Qed.

(** The values of a row. *)
Definition row_values (cols : list (string * kind)) (r : list entry) (vs : list value) : Prop :=
  List.length vs = List.length cols /\ forall j c k, nth_error cols j = Some (c, k) -> exists e v, nth_error r j = Some e /\ nth_error vs j = Some v /\ stored k e v.

Lemma cells_row ints last cols : cells_ok ints last cols -> forall r ws, List.length r = List.length cols -> List.length ws = List.length cols ->
  (forall j c k e w, nth_error cols j = Some (c, k) -> nth_error r j = Some e -> nth_error ws j = Some w -> holds (v_truncates V) k e w) ->
  exists vs, mapM (fun wc => cell V ints last (snd wc) (fst wc)) (combine ws (map fst cols)) = Ok vs /\ row_values cols r vs.
Proof.
  induction cols as [|(c, k) cols IH]; intros C r ws Lr Lw H.
  - destruct ws; [|discriminate]. exists []. split; [reflexivity|]. split; [reflexivity|]. intros [|j] c k E; discriminate.
  - destruct r as [|e r]; [discriminate|]. destruct ws as [|w ws]; [discriminate|]. cbn [map combine fst snd mapM].
    destruct (C c k e w (or_introl eq_refl) (H 0 c k e w eq_refl eq_refl eq_refl)) as (v & Ev & Sv). rewrite Ev. cbn [rbind].
    destruct (IH (fun c' k' e' w' I => C c' k' e' w' (or_intror I)) r ws) as (vs & Evs & Lv & Hv); [cbn in *; lia|cbn in *; lia|intros j; exact (H (S j))|].
    change (map (fun x => fst x) cols) with (map fst cols). rewrite Evs. cbn [rbind]. exists (v :: vs). split; [reflexivity|]. split; [cbn; lia|].
    intros [|j] c' k' E; cbn in E.
    + injection E as <- <-. exists e, v. auto.
    + exact (Hv j c' k' E).
Qed.

Lemma extend_get : forall t vs j c l v, NoDup (map fst t) -> nth_error (map fst t) j = Some c -> nth_error vs j = Some v -> d_get c t = Some l ->
  d_get c (extend vs t) = Some (l ++ [v]).
Proof.
  unfold d_get. induction t as [|(d, m) t IH]; intros vs j c l v N E Ev G; [destruct j; discriminate|]. cbn [map fst] in *. inversion N as [|? ? Nd N']; subst.
  destruct j as [|j]; cbn in E.
  - injection E as ->. destruct vs as [|v' vs]; [discriminate|]. injection Ev as ->. cbn in G |- *. rewrite String.eqb_refl in *. injection G as ->. reflexivity.
  - destruct vs as [|v' vs]; [discriminate|]. cbn in Ev, G |- *. destruct (String.eqb_spec d c) as [->|].
    + destruct Nd. eapply nth_error_In; eauto.
    + eapply IH; eauto.
Qed.

Lemma holds_rows_add cols rows t r vs : NoDup (map fst cols) -> holds_rows cols rows t -> row_values cols r vs -> holds_rows cols (rows ++ [r]) (extend vs t).
Proof.
  intros N (Nt & H) (Lv & R). split; [rewrite extend_names; exact Nt|]. intros j c k E. destruct (H j c k E) as (l & G & F). destruct (R j c k E) as (e & v & Er & Ev & S1).
  exists (l ++ [v]). split.
  - eapply extend_get; eauto; rewrite Nt; auto. rewrite nth_error_map, E. reflexivity.
  - apply Forall2_app; auto. constructor; auto. exists e. auto.
Qed.

(** ** Lines *)

Lemma head_none w ws : ~ In "m"%char w -> head_of V (w :: ws) = HNone.
Proof.
  intros N. assert (X : forall s, (match s with String a _ => a = "m"%char | EmptyString => False end) -> text_eqb w (word s) = false).
  { intros [|a s] E; [contradiction|]. subst a. apply text_eqb_false. intros ->. apply N. now left. }
  unfold head_of. rewrite !X by reflexivity. now rewrite !andb_false_r.
Qed.
Lemma head_close ws : head_of V (word_of "];" :: ws) = HNone.
Proof. apply head_none. cbn. intuition discriminate. Qed.

Definition quiet (l : text) : Prop := head_of V (split l) = HNone.
Lemma quiet_line l rest fl c : quiet l -> convert_lines V (l :: rest) fl c = do fc <- rows V (split l) fl c; convert_lines V rest (fst fc) (snd fc).
Proof. unfold quiet. intros E. cbn [convert_lines]. now rewrite E. Qed.
Lemma quiet_blank l : written l [] -> quiet l.
Proof. intros W. unfold quiet. now rewrite (split_written l [] W). Qed.
Lemma quiet_closing l : begins (word_of "];") l -> quiet l.
Proof. intros (ws & W). unfold quiet. rewrite (split_written _ _ W). apply head_close. Qed.

(** The header opens its table. *)
Definition head_word (h : head) : string :=
  match h with HBase => "baseMVA" | HBus => "bus" | HGen => "gen" | HBranch => "branch" | HCost => "gencost" | HDemandP => "demandP" | HDemandQ => "demandQ" | HNone => "" end.
Lemma header_step h header l rest c : begins (mpc (head_word h)) header -> quiet l ->
  match h with HBase | HNone => False | HDemandP | HDemandQ => v_demands V = true | _ => True end ->
  convert_lines V (header :: l :: rest) no_flags c = convert_lines V (l :: rest) (open h no_flags) c.
Proof.
  intros (ws & W) K D. cbn [convert_lines]. rewrite (split_written _ _ W). unfold quiet in K. rewrite K.
  destruct h; try contradiction; try reflexivity.
  - change (head_of V (mpc (head_word HCost) :: ws)) with HCost. cbn match. destruct (v_row_at_once V); reflexivity.
  - assert (X : head_of V (mpc (head_word HDemandP) :: ws) = HDemandP) by (cbn; rewrite D; reflexivity). rewrite X. reflexivity.
  - assert (X : head_of V (mpc (head_word HDemandQ) :: ws) = HDemandQ) by (cbn; rewrite D; reflexivity). rewrite X. reflexivity.
Qed.

Lemma rows_close ws fl c : rows V (word_of "];" :: ws) fl c = Ok (no_flags, c).
Proof. unfold rows, closes. change (word "];") with (word_of "];"). now rewrite (proj2 (text_eqb_spec _ _) eq_refl). Qed.

Lemma closing_step l rest fl c : begins (word_of "];") l -> convert_lines V (l :: rest) fl c = convert_lines V rest no_flags c.
Proof. intros B. rewrite quiet_line by now apply quiet_closing. destruct B as (ws & W). rewrite (split_written _ _ W), rows_close. reflexivity. Qed.

Lemma blank_step l rest fl c : written l [] -> convert_lines V (l :: rest) fl c = convert_lines V rest fl c.
Proof. intros W. rewrite quiet_line by now apply quiet_blank. rewrite (split_written _ _ W). reflexivity. Qed.

(** ** Tables *)

(** A table, row by row: [P b c] says that [c] holds the rows [b]. *)
Lemma body_run {R} (row : R -> text -> Prop) (P : list R -> case -> Prop) fl :
  (forall r l b c, row r l -> P b c -> quiet l /\ exists c', rows V (split l) fl c = Ok (fl, c') /\ P (b ++ [r]) c') ->
  forall body b c, body_ok row body -> P b c ->
  exists c', (forall rest, convert_lines V (map snd body ++ rest) fl c = convert_lines V rest fl c') /\ P (b ++ given body) c'.
Proof.
  intros ST. induction body as [|(o, l) body IH]; intros b c OK H.
  - exists c. cbn [map app given flat_map]. rewrite List.app_nil_r. auto.
  - inversion OK as [|? ? O OK']; subst. cbn [fst snd] in O. cbn [map snd app]. destruct o as [r|].
    + destruct (ST r l b c O H) as (K & c1 & E & H1).
      destruct (IH (b ++ [r]) c1 OK' H1) as (c2 & E2 & H2). exists c2. rewrite <- app_assoc in H2. split; [|exact H2].
      intros rest. rewrite quiet_line by auto. rewrite E. cbn [rbind fst snd]. apply E2.
    + destruct (IH b c OK' H) as (c2 & E2 & H2). exists c2. split; [|exact H2]. intros rest. rewrite blank_step by auto. apply E2.
Qed.

Lemma body_quiet {R} (row : R -> text -> Prop) body next rest : (forall r l, row r l -> quiet l) -> body_ok row body -> quiet next ->
  exists l ls, map snd body ++ next :: rest = l :: ls /\ quiet l.
Proof.
  intros K OK CL. destruct OK as [|(o, l) body O OK].
  - exists next, rest. auto.
  - exists l, (map snd body ++ next :: rest). split; auto. cbn [fst snd] in O. destruct o; [eauto|now apply quiet_blank].
Qed.

Lemma section_run {R} h (row : R -> text -> Prop) (P : list R -> case -> Prop) header body c :
  begins (mpc (head_word h)) header ->
  match h with HBase | HNone => False | HDemandP | HDemandQ => v_demands V = true | _ => True end ->
  (forall r l, row r l -> quiet l) ->
  (forall r l b c, row r l -> P b c -> exists c', rows V (split l) (open h no_flags) c = Ok (open h no_flags, c') /\ P (b ++ [r]) c') ->
  body_ok row body -> P [] c ->
  exists c', (forall l rest, quiet l -> convert_lines V ((header :: map snd body) ++ l :: rest) no_flags c = convert_lines V (l :: rest) (open h no_flags) c') /\ P (given body) c'.
Proof.
  intros B D K ST OK H.
  destruct (body_run row P (open h no_flags)) with (body := body) (b := @nil R) (c := c) as (c' & E & H'); auto.
  { intros r l0 b c0 Rr Hb. split; eauto. }
  exists c'. split; [|exact H']. intros l rest Ql. cbn [app].
  destruct (body_quiet row body l rest K OK Ql) as (l1 & ls & E1 & Q1). rewrite E1, (header_step h) by auto. rewrite <- E1. apply E.
Qed.

Lemma rows_not_closing w ws fl c : ~ In "]"%char w -> rows V (w :: ws) fl c =
  (do bs <- (if f_bus fl then bus_row V (w :: ws) (k_bus c, k_slack c) else Ok (k_bus c, k_slack c));
   do g <- (if f_gen fl then gen_row V (w :: ws) (k_gen c) else Ok (k_gen c));
   do b <- (if f_branch fl then branch_row V (w :: ws) (k_branch c) else Ok (k_branch c));
   do co <- (if f_cost fl then cost_row V (w :: ws) (k_costs c) else Ok (k_costs c));
   do dp <- (if f_dp fl then demand_row (w :: ws) (k_demand_p c) else Ok (k_demand_p c));
   do dq <- (if f_dq fl then demand_row (w :: ws) (k_demand_q c) else Ok (k_demand_q c));
   Ok (fl, mkCase (k_base c) (snd bs) (fst bs) g b co dp dq)).
Proof.
  intros N. unfold rows, closes. rewrite text_eqb_false; [reflexivity|]. intros ->. apply N. now left.
Qed.

(** ** Sections *)

Definition matrix_head (name : string) : head := if String.eqb name "bus" then HBus else if String.eqb name "gen" then HGen else HBranch.

Lemma row_words cols r l : (exists c, nth_error cols 0 = Some (c, Whole)) -> row_ok (v_truncates V) cols r l ->
  exists w ws more, split l = (w :: ws) ++ more /\ ~ In "m"%char w /\ ~ In "]"%char w /\ List.length r = List.length cols /\ List.length (w :: ws) = List.length cols /\   forall j c k e w', nth_error cols j = Some (c, k) -> nth_error r j = Some e -> nth_error (w :: ws) j = Some w' -> holds (v_truncates V) k e w'.
Proof.
  intros (c & C) (ws & more & W & Lr & Lw & H). destruct cols as [|(c0, k0) cols]; [discriminate|]. injection C as -> ->.
  destruct ws as [|w ws]; [discriminate|]. destruct r as [|e r]; [discriminate|]. exists w, ws, more. assert (X := H 0 c Whole e w eq_refl eq_refl eq_refl).
  sp; auto; [now apply split_written|eapply holds_no_m; eauto|eapply holds_no_bracket; eauto].
Qed.

(** The state while a table is being read: everything else as before. *)
Definition same_but (name : string) (c c' : case) : Prop :=
  k_base c' = k_base c /\ k_costs c' = k_costs c /\ k_demand_p c' = k_demand_p c /\ k_demand_q c' = k_demand_q c /\ (name <> "bus" -> k_bus c' = k_bus c /\ k_slack c' = k_slack c) /\ (name <> "gen" -> k_gen c' = k_gen c) /\ (name <> "branch" -> k_branch c' = k_branch c).

Lemma slack_add rows s r ws more cols : layout "bus" = Some cols -> List.length r = List.length cols -> List.length ws = List.length cols ->
  (forall j c k e w', nth_error cols j = Some (c, k) -> nth_error r j = Some e -> nth_error ws j = Some w' -> holds (v_truncates V) k e w') ->
  slack_is rows s -> slack_is (rows ++ [r]) (slack_of V (ws ++ more) s).
Proof.
  intros L Lr Lw H S0. injection L as <-. destruct r as [|e0 [|e1 r]]; try discriminate. destruct ws as [|w0 [|w1 ws]]; try discriminate.
  destruct (H 0 _ _ e0 w0 eq_refl eq_refl eq_refl) as (n0 & -> & OK0 & -> & H0). destruct (H 1 _ _ e1 w1 eq_refl eq_refl eq_refl) as (n1 & -> & OK1 & -> & H1).
  destruct (read_whole_ok V n0 OK0 H0) as (z0 & E0 & Q0). destruct (read_whole_ok V n1 OK1 H1) as (z1 & E1 & Q1).
  cbn [app slack_of]. rewrite E0, E1. destruct (Z.eqb_spec z1 3) as [->|NE].
  - exists rows, (Num n0 :: Num n1 :: r), []. sp; auto.
  - assert (N : ~ is_num (nth_error (Num n0 :: Num n1 :: r) 1) 3).
    { cbn. intros X. apply NE. exact (whole_unique _ _ _ Q1 X). }
    destruct s as [z|]; cbn in *.
    + destruct S0 as (b & x & a & -> & A & B & C). exists b, x, (a ++ [Num n0 :: Num n1 :: r]). rewrite <- app_assoc. sp; auto. apply Forall_app. auto.
    + apply Forall_app. auto.
Qed.

Lemma matrix_step name cols rows0 c0 : layout name = Some cols ->
  let P := fun b c => same_but name c0 c /\ holds_rows cols (rows0 ++ b) (the_table name c) /\ (name = "bus" -> slack_is (rows0 ++ b) (k_slack c)) in
  forall r l b c, row_ok (v_truncates V) cols r l -> P b c ->
  exists c', rows V (split l) (open (matrix_head name) no_flags) c = Ok (open (matrix_head name) no_flags, c') /\ P (b ++ [r]) c'.
Proof.
  intros L P r l b c R H. destruct (layout_two name cols L) as (_ & F0). destruct (row_words cols r l F0 R) as (w & ws & more & E & _ & NB & Lr & Lw & HH).
  destruct (cells_row _ _ cols (layout_cells name cols L) r (w :: ws) Lr Lw HH) as (vs & Evs & RV).
  rewrite <- (combine_more (w :: ws) more) in Evs by (rewrite map_length; exact Lw). rewrite <- E in Evs.
  destruct H as (SB & HR & SL). pose proof (holds_rows_add cols _ _ r vs (layout_distinct name cols L) HR RV) as HR'. rewrite <- app_assoc in HR'.
  destruct HR as (NT & _).
  assert (ND : NoDup (map fst cols)) by exact (layout_distinct name cols L).
  rewrite E. cbn [app]. rewrite rows_not_closing by auto. change (w :: ws ++ more) with ((w :: ws) ++ more). rewrite <- E.
  destruct SB as (S1 & S2 & S3 & S4 & S5 & S6 & S7).
  destruct (layout_name name cols L) as [->|[->| ->]]; cbn [matrix_head String.eqb Ascii.eqb Bool.eqb open no_flags f_bus f_gen f_branch f_cost f_dp f_dq the_table] in *.
  - change (matrix_head "bus") with HBus. cbn [open no_flags f_bus f_gen f_branch f_cost f_dp f_dq].
    assert (C : map fst cols = bus_columns) by (now injection L as <-).
    rewrite bus_row_eq by (rewrite <- C; exact NT). rewrite <- C. change (mapM (bus_cell V)) with (mapM (fun wc => cell V (ints_of "bus") (last_of "bus") (snd wc) (fst wc))).
    rewrite Evs. cbn [rbind fst snd]. eexists. split; [reflexivity|]. unfold P. sp.
    + unfold same_but. cbn. sp; auto. intros N. now destruct N.
    + exact HR'.
    + intros _. cbn [k_slack]. rewrite E, app_assoc. apply (slack_add _ _ r (w :: ws) more cols L Lr Lw HH). auto.
  - change (matrix_head "gen") with HGen. cbn [open no_flags f_bus f_gen f_branch f_cost f_dp f_dq].
    assert (C : map fst cols = gen_columns) by (now injection L as <-).
    unfold gen_row. rewrite read_row_eq by (rewrite <- C; auto). rewrite <- C. cbn [rbind fst snd].
    change (mapM (fun wc => cell V ["GEN_BUS"; "GEN"] "APF" (snd wc) (fst wc))) with (mapM (fun wc => cell V (ints_of "gen") (last_of "gen") (snd wc) (fst wc))).
    rewrite Evs. cbn [rbind fst snd]. eexists. split; [reflexivity|]. unfold P. sp.
    + unfold same_but. cbn. sp; auto. intros N. now destruct N.
    + exact HR'.
    + intros N. discriminate.
  - change (matrix_head "branch") with HBranch. cbn [open no_flags f_bus f_gen f_branch f_cost f_dp f_dq].
    assert (C : map fst cols = branch_columns) by (now injection L as <-).
    unfold branch_row. rewrite read_row_eq by (rewrite <- C; auto). rewrite <- C. cbn [rbind fst snd].
    change (mapM (fun wc => cell V ["F_BUS"; "T_BUS"; "BR_STATUS"] "ANGMAX" (snd wc) (fst wc))) with (mapM (fun wc => cell V (ints_of "branch") (last_of "branch") (snd wc) (fst wc))).
    rewrite Evs. cbn [rbind fst snd]. eexists. split; [reflexivity|]. unfold P. sp.
    + unfold same_but. cbn. sp; auto. intros N. now destruct N.
    + exact HR'.
    + intros N. discriminate.
Qed.

Lemma nth_ok {A} (l : list A) i a : nth_error l i = Some a -> match nth_error l i with Some w => Ok w | None => Err IndexError end = Ok a.
Proof. now intros ->. Qed.

Lemma cost_values (r : cost) w0 w1 w2 w3 ws w more : Forall2 (holds false Real) (co_first r) ws -> holds false Final (co_last r) w ->
  (if v_keeps_text V then True else exists n, co_last r = Num n /\ plain n) ->
  exists fs v, mapM (fun x => do u <- nth_word (w0 :: w1 :: w2 :: w3 :: ws ++ w :: more) (4 + x);
        if (Z.of_nat x <? Z.of_nat (S (List.length (co_first r))) - 1)%Z then do f <- read_float u; Ok (VF f)
        else if v_keeps_text V then Ok (VT (no_semicolons u))
        else do z <- read_int (no_semicolons u); Ok (VI z)) (seq 0 (S (List.length (co_first r)))) = Ok (fs ++ [v]) /\
    Forall2 (stored Real) (co_first r) fs /\ (if v_keeps_text V then v = VT (entry_text (co_last r)) else stored Whole (co_last r) v).
Proof.
  intros F HL K. set (n := List.length (co_first r)). set (f := fun x => do u <- _; _).
  assert (G : forall es us k pre, Forall2 (holds false Real) es us -> k = List.length pre -> k + List.length es = n -> ws = pre ++ us ->
     exists fs, mapM f (seq k (List.length es)) = Ok fs /\ Forall2 (stored Real) es fs).
  { intros es us k pre FF. revert k pre. induction FF as [|e u es us He FF IH]; intros k pre Ek En Ews.
    - exists []. split; [reflexivity|constructor].
    - cbn [List.length seq mapM]. destruct He as (OKe & ->). destruct (read_float_entry e OKe) as (fe & Ee & Fe).
      assert (X : f k = Ok (VF fe)).
      { unfold f, nth_word. assert (Y : nth_error (w0 :: w1 :: w2 :: w3 :: ws ++ w :: more) (4 + k) = Some (entry_text e)).
        { cbn [plus nth_error]. rewrite Ews, <- app_assoc, nth_error_app2 by lia. subst k. now rewrite Nat.sub_diag. }
        rewrite Y. cbn [rbind]. cbn [List.length] in En. destruct (Z.ltb_spec (Z.of_nat k) (Z.of_nat (S n) - 1)); [|lia]. rewrite Ee. reflexivity. }
      rewrite X. cbn [rbind]. destruct (IH (S k) (pre ++ [entry_text e])) as (fs & Efs & FS).
      + rewrite app_length. cbn. lia.
      + cbn in En. lia.
      + now rewrite Ews, <- app_assoc.
      + rewrite Efs. cbn [rbind]. eexists. split; [reflexivity|]. constructor; auto. }
  destruct (G (co_first r) ws 0 [] F eq_refl) as (fs & Efs & FS); [reflexivity|reflexivity|]. fold n in Efs.
  destruct HL as (OKl & suf & Ew & Fs).
  assert (Lws : List.length ws = n) by (symmetry; eapply GraphDataProofs.Forall2_length; exact F).
  assert (Y : nth_error (w0 :: w1 :: w2 :: w3 :: ws ++ w :: more) (4 + n) = Some w).
  { cbn [plus nth_error]. rewrite nth_error_app2 by lia. now rewrite Lws, Nat.sub_diag. }
  assert (X : exists v, f n = Ok v /\ (if v_keeps_text V then v = VT (entry_text (co_last r)) else stored Whole (co_last r) v)).
  { unfold f, nth_word. rewrite Y. cbn [rbind]. destruct (Z.ltb_spec (Z.of_nat n) (Z.of_nat (S n) - 1)); [lia|]. rewrite Ew, strip_final by auto.
    destruct (v_keeps_text V); [eexists; split; reflexivity|]. destruct K as (m & El & PL). rewrite El in *. cbn [entry_text entry_ok] in *.
    destruct (read_int_plain m OKl PL) as (z & Ez & EQ). rewrite Ez. cbn [rbind]. eexists. split; [reflexivity|]. cbn. apply whole_exact in EQ. eauto. }
  destruct X as (v & Ev & Hv). exists fs, v. sp; auto. rewrite seq_S, plus_O_n.
  assert (MA : forall l x, mapM f l = Ok x -> mapM f (l ++ [n]) = Ok (x ++ [v])).
  { induction l as [|a l IH]; cbn [mapM app]; intros x Hx.
    - injection Hx as <-. rewrite Ev. reflexivity.
    - destruct (f a); cbn [rbind] in *; [|discriminate]. destruct (mapM f l) eqn:El; cbn [rbind] in Hx; [|discriminate]. injection Hx as <-. rewrite (IH _ eq_refl). reflexivity. }
  exact (MA _ _ Efs).
Qed.

Lemma plain_int n z : numeral_ok n -> plain n -> (numeral_value n == inject_Z z)%Q -> read_int (numeral_text n) = Ok z.
Proof. intros OK P EQ. destruct (read_int_plain n OK P) as (z' & E & EQ'). rewrite E. f_equal. rewrite EQ in EQ'. unfold Qeq in EQ'. cbn in EQ'. lia. Qed.

Lemma bind_ok {A B} (a : A) (f : A -> res B) : rbind (Ok a) f = f a.
Proof. reflexivity. Qed.
Lemma cost_row_ok (rs : list cost) (c : costs) r l : cost_ok V r l -> holds_costs V rs c ->
  exists w ws c', split l = w :: ws /\ ~ In "m"%char w /\ ~ In "]"%char w /\ cost_row V (w :: ws) c = Ok c' /\ holds_costs V (rs ++ [r]) c'.
Proof.
  intros (w0 & w1 & w2 & w3 & ws & w & more & W & H0 & H1 & H2 & H3 & EN & F & HL & K) (A & B & C & D & E).
  exists w0, (w1 :: w2 :: w3 :: ws ++ w :: more).
  destruct (cost_values r w0 w1 w2 w3 ws w more F HL K) as (fs & v & EV & FS & HV).
  pose proof (holds_no_m _ _ _ _ H0) as N1. pose proof (holds_no_bracket _ _ _ _ H0) as N2.
  destruct H0 as (n0 & E0 & OK0 & -> & P0). injection E0 as E0. subst n0. destruct (read_int_plain _ OK0 P0) as (z0 & R0 & Q0).
  destruct H1 as (OK1 & ->). destruct (read_float_entry _ OK1) as (f1 & R1 & Q1).
  destruct H2 as (OK2 & ->). destruct (read_float_entry _ OK2) as (f2 & R2 & Q2).
  destruct H3 as (n3 & E3 & OK3 & -> & P3). injection E3 as E3. subst n3. pose proof (plain_int _ _ OK3 P3 EN) as R3.
  assert (G : exists c', cost_row V (numeral_text (co_model r) :: entry_text (co_startup r) :: entry_text (co_shutdown r) :: numeral_text (co_ncost r) :: ws ++ w :: more) c = Ok c' /\
     c' = mkCosts (c_model c ++ [z0]) (c_startup c ++ [f1]) (c_shutdown c ++ [f2]) (c_ncost c ++ [Z.of_nat (S (List.length (co_first r)))]) (c_cost c ++ [fs ++ [v]])).
  { eexists. split; [|reflexivity]. unfold cost_row. assert (NW : forall L i w', nth_error L i = Some w' -> nth_word L i = Ok w') by (intros L i w' Hn; unfold nth_word; now rewrite Hn).
    match goal with |- context [nth_word ?L 0] => specialize (NW L) end.
    rewrite (NW 0 _ eq_refl). rewrite bind_ok; cbv beta. rewrite R0. rewrite bind_ok; cbv beta. rewrite (NW 1 _ eq_refl). rewrite bind_ok; cbv beta. rewrite R1. rewrite bind_ok; cbv beta. rewrite (NW 2 _ eq_refl). rewrite bind_ok; cbv beta. rewrite R2. rewrite bind_ok; cbv beta.
    rewrite (NW 3 _ eq_refl). rewrite bind_ok; cbv beta. rewrite R3. rewrite bind_ok; cbv beta.
    rewrite Nat2Z.id. match goal with |- rbind ?m _ = _ => replace m with (Ok (fs ++ [v])) by (symmetry; exact EV) end. reflexivity. }
  destruct G as (c' & G & ->). eexists. sp; [now apply split_written|exact N1|exact N2|exact G|].
  unfold holds_costs. cbn [c_model c_startup c_shutdown c_ncost c_cost]. sp; apply Forall2_app; auto; constructor; auto. exists fs, v. auto.
Qed.

Lemma holds_costs_start r l : cost_ok V r l -> exists w ws, split l = w :: ws /\ ~ In "m"%char w /\ ~ In "]"%char w.
Proof.
  intros (w0 & w1 & w2 & w3 & ws & w & more & W & H0 & _). exists w0, (w1 :: w2 :: w3 :: ws ++ w :: more).
  sp; [now apply split_written|eapply holds_no_m; eauto|eapply holds_no_bracket; eauto].
Qed.

Lemma open_only h c : forall w ws, ~ In "]"%char w -> match h with HCost =>
   rows V (w :: ws) (open h no_flags) c = (do co <- cost_row V (w :: ws) (k_costs c); Ok (open h no_flags, mkCase (k_base c) (k_slack c) (k_bus c) (k_gen c) (k_branch c) co (k_demand_p c) (k_demand_q c)))
 | HDemandP => rows V (w :: ws) (open h no_flags) c = (do d <- demand_row (w :: ws) (k_demand_p c); Ok (open h no_flags, mkCase (k_base c) (k_slack c) (k_bus c) (k_gen c) (k_branch c) (k_costs c) d (k_demand_q c)))
 | HDemandQ => rows V (w :: ws) (open h no_flags) c = (do d <- demand_row (w :: ws) (k_demand_q c); Ok (open h no_flags, mkCase (k_base c) (k_slack c) (k_bus c) (k_gen c) (k_branch c) (k_costs c) (k_demand_p c) d))
 | _ => True end.
Proof.
  intros w ws N. destruct h; auto; rewrite rows_not_closing by auto; cbn [open no_flags f_bus f_gen f_branch f_cost f_dp f_dq rbind fst snd].
  - destruct (cost_row V (w :: ws) (k_costs c)); reflexivity.
  - destruct (demand_row (w :: ws) (k_demand_p c)); reflexivity.
  - destruct (demand_row (w :: ws) (k_demand_q c)); reflexivity.
Qed.

(** ** The whole file *)

Lemma the_table_other name name' c c' : layout name <> None -> layout name' <> None -> name <> name' -> same_but name c c' -> the_table name' c' = the_table name' c.
Proof.
  intros L L' N (_ & _ & _ & _ & A & B & C). destruct (layout name) eqn:E; [|congruence]. destruct (layout name') eqn:E'; [|congruence].
  apply layout_name in E, E'. destruct E' as [->|[->| ->]].
  - exact (proj1 (A N)).
  - exact (B N).
  - exact (C N).
Qed.

(** A section without its closing line, and the table it opens. *)
Definition open_lines (s : section) : list text :=
  match s with Note l | BaseMVA _ l => [l] | Matrix _ h b _ => h :: map snd b | Costs h b _ => h :: map snd b | Demand _ h b _ => h :: map snd b end.
Definition section_head (s : section) : head :=
  match s with Note _ | BaseMVA _ _ => HNone | Matrix name _ _ _ => matrix_head name | Costs _ _ _ => HCost | Demand a _ _ _ => if a then HDemandP else HDemandQ end.

Definition resumes (s : section) (rest : list text) : Prop :=
  match s with Note _ | BaseMVA _ _ => True | _ => match rest with l :: _ => quiet l | [] => False end end.

Lemma section_ok_open s ss c : section_ok V s -> holds_file V ss c ->
  exists c', (forall rest, resumes s rest -> convert_lines V (open_lines s ++ rest) no_flags c = convert_lines V rest (open (section_head s) no_flags) c') /\ holds_file V (ss ++ [s]) c'.
Proof.
  intros OK (HB & HS & HT & HC & HP & HQ). unfold holds_file, base_of, rows_of, costs_of, demands_of in *.
  rewrite fold_left_app. setoid_rewrite flat_map_app. cbn [fold_left flat_map]. destruct s as [l|e l|name h b cl|h b cl|a h b cl]; cbn [section_ok open_lines section_head] in *.
  - destruct OK as (ws & W & N). exists c. rewrite !List.app_nil_r. split.
    + intros rest _. cbn [app open]. assert (K : quiet l).
      { unfold quiet. rewrite (split_written _ _ W). destruct ws as [|w ws]; [reflexivity|]. cbn [head_of].
        assert (X : forall s, In (word_of s) (headers V) -> text_eqb w (word s) = false) by (intros s I; apply text_eqb_false; intros ->; contradiction).
        unfold headers in X. rewrite map_app in X. rewrite !X by (rewrite in_app_iff; left; apply in_map; cbn; tauto).
        destruct (v_demands V); cbn [andb]; auto. rewrite !X by (rewrite in_app_iff; right; apply in_map; cbn; tauto). reflexivity. }
      rewrite quiet_line by auto. rewrite (split_written _ _ W). destruct ws as [|w ws]; [reflexivity|].
      assert (R : rows V (w :: ws) no_flags c = Ok (no_flags, c)).
      { unfold rows. destruct (closes (w :: ws)); [reflexivity|]. cbn [no_flags f_bus f_gen f_branch f_cost f_dp f_dq rbind fst snd]. now destruct c. }
      rewrite R. reflexivity.
    + sp; auto. intros name cols L. rewrite List.app_nil_r. auto.
  - destruct OK as (eq & w & more & W & (OKe & suf & -> & F)). destruct (read_float_final e suf OKe F) as (f & E & EQ).
    exists (mkCase (Some f) (k_slack c) (k_bus c) (k_gen c) (k_branch c) (k_costs c) (k_demand_p c) (k_demand_q c)). rewrite !List.app_nil_r. split.
    + intros rest _. cbn [app open]. cbn [convert_lines]. rewrite (split_written _ _ W). change (head_of V (mpc "baseMVA" :: eq :: (entry_text e ++ suf) :: more)) with HBase. cbn match.
      unfold set_base, nth_word. cbn [nth_error rbind]. rewrite E. cbn [rbind]. rewrite rows_not_closing by (cbn; intuition discriminate). reflexivity.
    + cbn [k_base k_slack k_costs k_demand_p k_demand_q]. sp; auto. intros name cols L. rewrite List.app_nil_r. exact (HT name cols L).
  - destruct OK as (cols & L & BH & OKb & CL). rewrite !List.app_nil_r.
    pose (P := fun bb c' => same_but name c c' /\ holds_rows cols (rows_of name ss ++ bb) (the_table name c') /\ (name = "bus" -> slack_is (rows_of name ss ++ bb) (k_slack c'))).
    destruct (section_run (matrix_head name) (row_ok (v_truncates V) cols) P h b c) as (c' & E & SB & HR & SL).
    + destruct (layout_name name cols L) as [->|[->| ->]]; exact BH.
    + destruct (layout_name name cols L) as [->|[->| ->]]; exact I.
    + intros r l R. destruct (layout_two name cols L) as (_ & F0). destruct (row_words cols r l F0 R) as (w & ws & more & E & NM & _). unfold quiet. rewrite E. cbn [app]. now apply head_none.
    + intros r l b0 c0 R HP0. exact (matrix_step name cols (rows_of name ss) c L r l b0 c0 R HP0).
    + exact OKb.
    + unfold P. rewrite List.app_nil_r. sp; [unfold same_but; sp; auto|exact (HT name cols L)|]. intros ->. exact HS.
    + exists c'. split; [intros [|l rest] RS; [destruct RS|exact (E l rest RS)]|]. pose proof SB as (S1 & S2 & S3 & S4 & S5 & S6 & S7). rewrite S1, S2, S3, S4. sp; auto.
      * destruct (String.eqb_spec name "bus") as [->|NB]; [exact (SL eq_refl)|]. rewrite List.app_nil_r. destruct (S5 NB) as [_ ->]. exact HS.
      * intros name' cols' L'. rewrite List.app_nil_r. destruct (String.eqb_spec name name') as [->|NN].
        -- rewrite L in L'. injection L' as <-. exact HR.
        -- rewrite List.app_nil_r, (the_table_other name name' c c'); auto; congruence.
  - destruct OK as (BH & OKb & CL). rewrite !List.app_nil_r.
    pose (P := fun bb c' => exists co, c' = mkCase (k_base c) (k_slack c) (k_bus c) (k_gen c) (k_branch c) co (k_demand_p c) (k_demand_q c) /\ holds_costs V (costs_of ss ++ bb) co).
    destruct (section_run HCost (cost_ok V) P h b c) as (c' & E & co & Ec & HR); auto.
    + intros r l R. destruct (holds_costs_start r l R) as (w & ws & W & NM & _). unfold quiet. rewrite W. now apply head_none.
    + intros r l bb c1 R (co & -> & H). destruct (cost_row_ok _ co r l R H) as (w & ws & co' & Es & NM & NB & Er & H').
      rewrite Es. rewrite (open_only HCost _ w ws NB). cbn [k_costs]. match goal with |- context [rbind (cost_row V ?x ?y) _] => replace (cost_row V x y) with (Ok co') by (symmetry; exact Er) end. cbn [rbind]. eexists. split; [reflexivity|]. exists co'. rewrite <- app_assoc in H'. auto.
    + exists (k_costs c). rewrite List.app_nil_r. split; [now destruct c|exact HC].
    + exists c'. split; [intros [|l rest] RS; [destruct RS|exact (E l rest RS)]|]. subst c'. cbn [k_base k_slack k_costs k_demand_p k_demand_q]. sp; auto. intros name cols L. rewrite List.app_nil_r. exact (HT name cols L).
  - destruct OK as (VD & BH & OKb & CL).
    pose (P := fun bb c' => exists d, c' = (if a then mkCase (k_base c) (k_slack c) (k_bus c) (k_gen c) (k_branch c) (k_costs c) d (k_demand_q c)
                                            else mkCase (k_base c) (k_slack c) (k_bus c) (k_gen c) (k_branch c) (k_costs c) (k_demand_p c) d) /\ Forall2 float_is (demands_of a ss ++ bb) d).
    destruct (section_run (if a then HDemandP else HDemandQ) (fun e l => exists w more, written l (w :: more) /\ holds false Real e w) P h b c) as (c' & E & d & Ec & HR); auto.
    + destruct a; exact BH.
    + destruct a; exact VD.
    + intros e l (w & more & W & H). unfold quiet. rewrite (split_written _ _ W). apply head_none. eapply holds_no_m; eauto.
    + intros e l bb c1 (w & more & W & H) (d & -> & HF). rewrite (split_written _ _ W). pose proof (holds_no_bracket _ _ _ _ H) as NB. destruct H as (OKe & ->).
      destruct (read_float_entry e OKe) as (f & Ef & Ff).
      assert (D : forall d0, demand_row (entry_text e :: more) d0 = Ok (d0 ++ [f])) by (intros d0; unfold demand_row, nth_word; cbn [nth_error rbind]; rewrite Ef; reflexivity).
      destruct a; [rewrite (open_only HDemandP _ _ more NB)|rewrite (open_only HDemandQ _ _ more NB)]; cbn [k_demand_p k_demand_q]; rewrite D; cbn [rbind]; eexists; (split; [reflexivity|]);
        exists (d ++ [f]); (split; [reflexivity|]); rewrite app_assoc; apply Forall2_app; auto.
    + exists (if a then k_demand_p c else k_demand_q c). rewrite List.app_nil_r. split; [destruct a; now destruct c|]. destruct a; auto.
    + exists c'. split; [intros [|l rest] RS; [destruct RS|exact (E l rest RS)]|]. subst c'. rewrite !List.app_nil_r. unfold demands_of in HR. destruct a; cbn [Bool.eqb k_base k_slack k_costs k_demand_p k_demand_q]; rewrite ?List.app_nil_r; sp; auto;
        intros name cols L; rewrite List.app_nil_r; exact (HT name cols L).
Qed.

Lemma section_ok_run s ss c : section_ok V s -> holds_file V ss c ->
  exists c', (forall rest, convert_lines V (section_lines s ++ rest) no_flags c = convert_lines V rest no_flags c') /\ holds_file V (ss ++ [s]) c'.
Proof.
  intros OK H. destruct (section_ok_open s ss c OK H) as (c' & E & H'). exists c'. split; [|exact H']. intros rest.
  assert (CL : forall cl, begins (word_of "];") cl -> section_lines s = open_lines s ++ [cl] -> convert_lines V (section_lines s ++ rest) no_flags c = convert_lines V rest no_flags c').
  { intros cl B ->. rewrite <- app_assoc. cbn [app]. rewrite E by (destruct s; cbn; auto; now apply quiet_closing). now apply closing_step. }
  destruct s as [l|e l|name h b cl|h b cl|a h b cl]; try exact (E rest I).
  - destruct OK as (cols & _ & _ & _ & B). now apply (CL cl).
  - destruct OK as (_ & _ & B). now apply (CL cl).
  - destruct OK as (_ & _ & _ & B). now apply (CL cl).
Qed.

Lemma sections_prefix ss : Forall (section_ok V) ss -> forall done c, holds_file V done c ->
  exists c', (forall rest, convert_lines V (flat_map section_lines ss ++ rest) no_flags c = convert_lines V rest no_flags c') /\ holds_file V (done ++ ss) c'.
Proof.
  induction 1 as [|s ss OK F IH]; intros done c H.
  - exists c. rewrite List.app_nil_r. auto.
  - destruct (section_ok_run s done c OK H) as (c1 & E & H1). destruct (IH _ _ H1) as (c2 & E2 & H2). exists c2. rewrite <- app_assoc in H2. split; [|exact H2].
    intros rest. cbn [flat_map]. rewrite <- app_assoc, E. apply E2.
Qed.

Lemma empty_holds : holds_file V [] empty_case.
Proof.
  unfold holds_file, holds_costs. sp; try exact I; try exact (Forall_nil _); try exact (Forall2_nil _).
  intros name cols L. destruct (layout_name name cols L) as [->|[->| ->]]; injection L as <-; (split; [reflexivity|]);
    intros j c k E; exists []; (split; [|constructor]); do 21 (destruct j as [|j]; [cbn in E; first [discriminate|injection E as <- _; reflexivity]|]); cbn in E; destruct j; discriminate.
Qed.

Lemma convert_prefix ss : Forall (section_ok V) ss ->
  exists c, (forall rest, convert V (flat_map section_lines ss ++ rest) = convert_lines V rest no_flags c) /\ holds_file V ss c.
Proof. intros F. exact (sections_prefix ss F [] empty_case empty_holds). Qed.
Lemma convert_open ss s : Forall (section_ok V) ss -> section_ok V s ->
  exists c, (forall rest, resumes s rest -> convert V (flat_map section_lines ss ++ open_lines s ++ rest) = convert_lines V rest (open (section_head s) no_flags) c) /\ holds_file V (ss ++ [s]) c.
Proof.
  intros F OK. destruct (convert_prefix ss F) as (c & E & H). destruct (section_ok_open s ss c OK H) as (c' & E' & H'). exists c'. split; [|exact H'].
  intros rest RS. now rewrite E, E'.
Qed.
Lemma convert_ok ss : Forall (section_ok V) ss -> exists c, convert V (flat_map section_lines ss) = Ok c /\ holds_file V ss c.
Proof. intros F. destruct (convert_prefix ss F) as (c & E & H). exists c. specialize (E []). rewrite List.app_nil_r in E. auto. Qed.
End Copy.
