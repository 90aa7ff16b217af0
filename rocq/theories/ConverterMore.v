(** Files that are not converted, and words that are not read. *)
From Coq Require Import List String Ascii Bool Arith ZArith QArith Lia.
From Verif Require Import Base Container GraphDataProofs NumeralSpec NumeralProofs Reader MatFile MatFileSpec MatFileProofs Converter ConverterSpec ConverterProofs ConverterFile.
Import ListNotations.
Open Scope string_scope.
Open Scope nat_scope.
Open Scope list_scope.

Local Ltac sp := repeat match goal with |- _ /\ _ => split end.

(** ** Words that are no numbers *)

Lemma drop_keeps a : forall l p t, drop_underscores p l = Some t -> In a l -> a <> "_"%char -> In a t.
Proof.
  induction l as [|b l IH]; intros p t E I N; [destruct I|]. cbn [drop_underscores] in E. destruct (Ascii.eqb_spec b "_") as [->|].
  - destruct I as [<-|I]; [congruence|]. match type of E with (if ?x then _ else _) = _ => destruct x end; [|discriminate]. eapply IH; eauto.
  - destruct (drop_underscores (is_digit b) l) as [t'|] eqn:D; [|discriminate]. injection E as <-. destruct I as [<-|I]; [now left|]. right. eapply IH; eauto.
Qed.

Lemma read_int_bad w a : In a w -> is_digit a = false -> a <> "_"%char -> a <> "-"%char -> a <> "+"%char -> read_int w = Err ValueError.
Proof.
  intros I D N1 N2 N3. unfold read_int. destruct (drop_underscores false w) as [t|] eqn:E; [|reflexivity]. pose proof (drop_keeps a w false t E I N1) as It.
  assert (X : forall u, In a u -> all_digits u = false).
  { intros u Iu. unfold all_digits. destruct u as [|b u]; [reflexivity|]. destruct (forallb is_digit (b :: u)) eqn:F; [|reflexivity]. rewrite forallb_forall in F. apply F in Iu. congruence. }
  unfold sign. destruct t as [|b t]; [destruct It|]. destruct (Ascii.eqb_spec b "-") as [->|]; [rewrite X; [reflexivity|destruct It; [congruence|auto]]|].
  destruct (Ascii.eqb_spec b "+") as [->|]; rewrite X; try reflexivity; auto. destruct It; [congruence|auto].
Qed.

Lemma not_plain_int e : entry_ok e -> ~ (exists n, e = Num n /\ plain n) -> read_int (entry_text e) = Err ValueError.
Proof.
  intros OK NP. destruct e as [n|neg].
  - assert (X : In "."%char (numeral_text n) \/ In "e"%char (numeral_text n)).
    { unfold numeral_text, unsigned_text, mantissa_text, exponent_text. destruct (nu_frac n) as [f|] eqn:F.
      - left. rewrite !in_app_iff. cbn. auto.
      - destruct (nu_exp n) as [[b e]|] eqn:X; [|exfalso; apply NP; exists n; split; [reflexivity|split; auto]]. right. rewrite !in_app_iff. cbn. auto. }
    cbn [entry_text]. destruct X as [X|X]; apply (read_int_bad _ _ X); auto; discriminate.
  - apply (read_int_bad _ "I"%char); [cbn [entry_text]; rewrite in_app_iff; right; now left|reflexivity|discriminate|discriminate|discriminate].
Qed.

(** Words of a comment. *)
Definition comment (w : text) : Prop := exists r, w = "%"%char :: r.
Lemma comment_int w : comment w -> read_int w = Err ValueError.
Proof. intros (r & ->). apply (read_int_bad _ "%"%char); [now left|reflexivity|discriminate|discriminate|discriminate]. Qed.
Lemma comment_float w : comment w -> read_float w = Err ValueError.
Proof.
  intros (r & ->). unfold read_float. cbn [drop_underscores]. change (Ascii.eqb "%" "_") with false. cbn match. destruct (drop_underscores (is_digit "%") r) as [t|]; [|reflexivity].
  cbn [sign]. change (Ascii.eqb "%" "-") with false. change (Ascii.eqb "%" "+") with false. cbn match. cbn [map]. change (lower "%") with "%"%char.
  rewrite !text_eqb_false by discriminate. cbn [orb take_digits]. change (is_digit "%") with false. cbn match. change (Ascii.eqb "%" ".") with false. reflexivity.
Qed.
Lemma comment_whole V w : comment w -> read_whole V w = Err ValueError.
Proof. intros C. unfold read_whole, read_truncated. rewrite (comment_float w C), (comment_int w C). destruct (v_truncates V); reflexivity. Qed.

Section Copy.
Variable V : variant.

Lemma comment_quiet w ws l : written l (w :: ws) -> comment w -> quiet V l.
Proof.
  intros W (r & ->). unfold quiet. rewrite (split_written _ _ W). unfold head_of. rewrite !text_eqb_false by discriminate. now rewrite !andb_false_r.
Qed.
Definition is_table (s : section) : Prop := match s with Note _ | BaseMVA _ _ => False | _ => True end.

Lemma comment_rows s w ws c : section_ok V s -> is_table s -> comment w -> rows V (w :: ws) (open (section_head s) no_flags) c = Err ValueError.
Proof.
  intros OK T C. pose proof C as (r & ->).
  assert (NC : closes (("%"%char :: r) :: ws) = false) by (unfold closes; apply text_eqb_false; discriminate).
  assert (BR : forall st, bus_row V (("%"%char :: r) :: ws) st = Err ValueError).
  { intros st. unfold bus_row. unfold bus_columns. cbn [combine foldM]. change (String.eqb "BUS_I" "BUS_TYPE") with false. cbn match.
    change (cell V ["BUS_I"; "BUS_TYPE"; "BUS_AREA"; "ZONE"] "VMIN" "BUS_I" ("%"%char :: r)) with (do z <- read_whole V ("%"%char :: r); Ok (VI z)). rewrite comment_whole by auto. reflexivity. }
  assert (GR : forall st, gen_row V (("%"%char :: r) :: ws) st = Err ValueError).
  { intros st. unfold gen_row, read_row, gen_columns. cbn [combine foldM fst snd].
    change (cell V ["GEN_BUS"; "GEN"] "APF" "GEN_BUS" ("%"%char :: r)) with (do z <- read_whole V ("%"%char :: r); Ok (VI z)). rewrite comment_whole by auto. reflexivity. }
  assert (RR : forall st, branch_row V (("%"%char :: r) :: ws) st = Err ValueError).
  { intros st. unfold branch_row, read_row, branch_columns. cbn [combine foldM fst snd].
    change (cell V ["F_BUS"; "T_BUS"; "BR_STATUS"] "ANGMAX" "F_BUS" ("%"%char :: r)) with (do z <- read_whole V ("%"%char :: r); Ok (VI z)). rewrite comment_whole by auto. reflexivity. }
  assert (CR : forall st, cost_row V (("%"%char :: r) :: ws) st = Err ValueError).
  { intros st. unfold cost_row, nth_word. cbn [nth_error]. rewrite bind_ok; cbv beta. rewrite comment_int by auto. reflexivity. }
  assert (DR : forall st, demand_row (("%"%char :: r) :: ws) st = Err ValueError).
  { intros st. unfold demand_row, nth_word. cbn [nth_error]. rewrite bind_ok; cbv beta. rewrite comment_float by auto. reflexivity. }
  unfold rows. match goal with |- context [closes ?x] => replace (closes x) with false by (symmetry; exact NC) end. destruct s as [l|e l|name h b cl|h b cl|a h b cl]; try contradiction; cbn [section_head].
  - destruct OK as (cols & L & _). destruct (layout_name name cols L) as [->|[->| ->]];
      [change (matrix_head "bus") with HBus|change (matrix_head "gen") with HGen|change (matrix_head "branch") with HBranch]; cbn [open no_flags f_bus f_gen f_branch f_cost f_dp f_dq rbind fst snd]; rewrite ?BR, ?GR, ?RR; reflexivity.
  - cbn [open no_flags f_bus f_gen f_branch f_cost f_dp f_dq rbind fst snd]. rewrite CR. reflexivity.
  - destruct a; cbn [open no_flags f_bus f_gen f_branch f_cost f_dp f_dq rbind fst snd]; rewrite DR; reflexivity.
Qed.

Lemma comment_stops ss s l w ws rest : Forall (section_ok V) ss -> section_ok V s -> is_table s -> written l (w :: ws) -> comment w ->
  convert V (flat_map section_lines ss ++ open_lines s ++ l :: rest) = Err ValueError.
Proof.
  intros F OK T W C. destruct (convert_open V ss s F OK) as (c & E & _). pose proof (comment_quiet w ws l W C) as K. rewrite E by (destruct s; auto; contradiction).
  rewrite quiet_line by exact K. rewrite (split_written _ _ W), (comment_rows s w ws c OK T C). reflexivity.
Qed.

(** ** Costs *)

Lemma nth_word_at ws i w : nth_error ws i = Some w -> nth_word ws i = Ok w.
Proof. unfold nth_word. now intros ->. Qed.

Lemma mapM_ext {A B} (f g : A -> res B) l : (forall x, In x l -> f x = g x) -> mapM f l = mapM g l.
Proof. induction l as [|a l IH]; intros H; [reflexivity|]. cbn [mapM]. rewrite (H a) by now left. rewrite IH; [reflexivity|]. intros x I. apply H. now right. Qed.

(** The words after the coefficients, and the semicolons after the last of them, are not read. *)
Lemma cost_row_ext ws ws' k w3 w w' c : (forall i, i < 4 + k -> nth_error ws i = nth_error ws' i) -> nth_error ws 3 = Some w3 -> read_int w3 = Ok (Z.of_nat (S k)) ->
  nth_error ws (4 + k) = Some w -> nth_error ws' (4 + k) = Some w' -> no_semicolons w = no_semicolons w' -> cost_row V ws c = cost_row V ws' c.
Proof.
  intros H E3 R3 Ew Ew' NS. unfold cost_row.
  assert (N : forall i, i < 4 + k -> nth_word ws i = nth_word ws' i) by (intros i L; unfold nth_word; now rewrite H).
  rewrite (N 0), (N 1), (N 2) by lia. destruct (nth_word ws' 0); [|reflexivity]. cbn [rbind]. destruct (read_int a); [|reflexivity]. cbn [rbind].
  destruct (nth_word ws' 1); [|reflexivity]. cbn [rbind]. destruct (read_float a1); [|reflexivity]. cbn [rbind].
  destruct (nth_word ws' 2); [|reflexivity]. cbn [rbind]. destruct (read_float a3); [|reflexivity]. rewrite bind_ok; cbv beta.
  rewrite (nth_word_at ws 3 w3 E3). rewrite (nth_word_at ws' 3 w3) by (rewrite <- (H 3) by lia; exact E3). rewrite !bind_ok; cbv beta. rewrite R3. rewrite !bind_ok; cbv beta. rewrite Nat2Z.id.
  rewrite (mapM_ext _ (fun x => do w <- nth_word ws' (4 + x); if (Z.of_nat x <? Z.of_nat (S k) - 1)%Z then do f <- read_float w; Ok (VF f) else if v_keeps_text V then Ok (VT (no_semicolons w)) else do z <- read_int (no_semicolons w); Ok (VI z)) (seq 0 (S k))); [reflexivity|].
  intros x I. apply in_seq in I. destruct (Nat.eq_dec x k) as [->|NE]; [|now rewrite N by lia]. rewrite (nth_word_at ws _ w Ew), (nth_word_at ws' _ w' Ew'), !bind_ok; cbv beta.
  destruct (Z.ltb_spec (Z.of_nat k) (Z.of_nat (S k) - 1)); [lia|]. now rewrite NS.
Qed.

Lemma reals_words es : forall ws ws', Forall2 (holds false Real) es ws -> Forall2 (holds false Real) es ws' -> ws = ws'.
Proof.
  intros ws ws' F. revert ws'. induction F as [|e w es ws (_ & ->) F IH]; intros ws' F'; inversion F' as [|? w' ? ws1 (_ & ->) F1]; subst; [reflexivity|]. f_equal. auto.
Qed.

Lemma same_cost r l l' c : cost_ok V r l -> cost_ok V r l' -> rows V (split l) (open HCost no_flags) c = rows V (split l') (open HCost no_flags) c.
Proof.
  intros (w0 & w1 & w2 & w3 & ws & w & more & W & H0 & H1 & H2 & H3 & EN & F & HL & K) (w0' & w1' & w2' & w3' & ws' & w' & more' & W' & H0' & H1' & H2' & H3' & _ & F' & HL' & _).
  pose proof (holds_no_bracket _ _ _ _ H0) as NB.
  destruct H0 as (n0 & E0 & _ & -> & _), H0' as (n0' & E0' & _ & -> & _). injection E0 as <-. injection E0' as <-.
  destruct H1 as (_ & ->), H1' as (_ & ->), H2 as (_ & ->), H2' as (_ & ->).
  destruct H3 as (n3 & E3 & OK3 & -> & P3), H3' as (n3' & E3' & _ & -> & _). injection E3 as <-. injection E3' as <-.
  pose proof (reals_words _ _ _ F F') as <-. rewrite (split_written _ _ W), (split_written _ _ W').
  rewrite (open_only V HCost c _ _ NB), (open_only V HCost c _ _ NB).
  rewrite (cost_row_ext (numeral_text (co_model r) :: entry_text (co_startup r) :: entry_text (co_shutdown r) :: numeral_text (co_ncost r) :: ws ++ w :: more)
    (numeral_text (co_model r) :: entry_text (co_startup r) :: entry_text (co_shutdown r) :: numeral_text (co_ncost r) :: ws ++ w' :: more') (List.length ws) (numeral_text (co_ncost r)) w w'); auto.
  - intros i L. do 4 (destruct i as [|i]; [reflexivity|]). cbn [nth_error]. rewrite !nth_error_app1 by lia. reflexivity.
  - rewrite (plain_int _ _ OK3 P3 EN). apply GraphDataProofs.Forall2_length in F. now rewrite F.
  - cbn [Nat.add nth_error]. rewrite nth_error_app2, Nat.sub_diag by lia. reflexivity.
  - cbn [Nat.add nth_error]. rewrite nth_error_app2, Nat.sub_diag by lia. reflexivity.
  - destruct HL as (OK & suf & -> & S1), HL' as (_ & suf' & -> & S2). now rewrite !strip_final.
Qed.
Lemma cost_quiet r l : cost_ok V r l -> quiet V l.
Proof. intros R. destruct (holds_costs_start V r l R) as (w & ws & W & NM & _). unfold quiet. rewrite W. now apply head_none. Qed.

Lemma same_cost_file ss h b cl r l l' rest : Forall (section_ok V) ss -> section_ok V (Costs h b cl) -> cost_ok V r l -> cost_ok V r l' ->
  convert V (flat_map section_lines ss ++ open_lines (Costs h b cl) ++ l :: rest) = convert V (flat_map section_lines ss ++ open_lines (Costs h b cl) ++ l' :: rest).
Proof.
  intros F OK R R'. destruct (convert_open V ss (Costs h b cl) F OK) as (c & E & _). pose proof (cost_quiet r l R) as K. pose proof (cost_quiet r l' R') as K'.
  rewrite !E by assumption. rewrite !quiet_line by assumption. cbn [section_head]. rewrite (same_cost r l l' c R R'). reflexivity.
Qed.

(** A row of gencost whose last coefficient may be any entry. *)
Definition cost_row_is (r : cost) (l : text) : Prop :=
  exists w0 w1 w2 w3 ws w more, written l (w0 :: w1 :: w2 :: w3 :: ws ++ w :: more) /\
    holds false Whole (Num (co_model r)) w0 /\ holds false Real (co_startup r) w1 /\ holds false Real (co_shutdown r) w2 /\
    holds false Whole (Num (co_ncost r)) w3 /\ (numeral_value (co_ncost r) == inject_Z (Z.of_nat (S (List.length (co_first r)))))%Q /\
    Forall2 (holds false Real) (co_first r) ws /\ holds false Final (co_last r) w.

Lemma mapM_fails {A B} (f : A -> res B) l x l' y e : mapM f l = Ok y -> f x = Err e -> mapM f (l ++ x :: l') = Err e.
Proof.
  revert y. induction l as [|a l IH]; intros y E X; cbn [mapM app] in *; [now rewrite X|]. destruct (f a); cbn [rbind] in *; [|discriminate]. destruct (mapM f l) eqn:M; cbn [rbind] in E; [|discriminate].
  now rewrite (IH _ eq_refl X).
Qed.

Lemma decimal_cost r l c : v_keeps_text V = false -> cost_row_is r l -> ~ (exists n, co_last r = Num n /\ plain n) ->
  quiet V l /\ rows V (split l) (open HCost no_flags) c = Err ValueError.
Proof.
  intros KT (w0 & w1 & w2 & w3 & ws & w & more & W & H0 & H1 & H2 & H3 & EN & F & HL) NP.
  pose proof (holds_no_bracket _ _ _ _ H0) as NB. pose proof (holds_no_m _ _ _ _ H0) as NM.
  split; [unfold quiet; rewrite (split_written _ _ W); now apply head_none|].
  rewrite (split_written _ _ W), (open_only V HCost c _ _ NB).
  destruct H0 as (n0 & E0 & OK0 & -> & P0). injection E0 as <-. destruct (read_int_plain _ OK0 P0) as (z0 & R0 & _).
  destruct H1 as (OK1 & ->). destruct (read_float_entry _ OK1) as (f1 & R1 & _).
  destruct H2 as (OK2 & ->). destruct (read_float_entry _ OK2) as (f2 & R2 & _).
  destruct H3 as (n3 & E3 & OK3 & -> & P3). injection E3 as <-. pose proof (plain_int _ _ OK3 P3 EN) as R3.
  set (L := numeral_text (co_model r) :: entry_text (co_startup r) :: entry_text (co_shutdown r) :: numeral_text (co_ncost r) :: ws ++ w :: more).
  assert (G : cost_row V L (k_costs c) = Err ValueError); [|match goal with |- rbind ?m _ = _ => replace m with (@Err costs ValueError) by (symmetry; exact G) end; reflexivity].
  unfold cost_row. rewrite (nth_word_at L 0 _ eq_refl), bind_ok; cbv beta. rewrite R0, bind_ok; cbv beta. rewrite (nth_word_at L 1 _ eq_refl), bind_ok; cbv beta. rewrite R1, bind_ok; cbv beta.
  rewrite (nth_word_at L 2 _ eq_refl), bind_ok; cbv beta. rewrite R2, bind_ok; cbv beta. rewrite (nth_word_at L 3 _ eq_refl), bind_ok; cbv beta. rewrite R3, bind_ok; cbv beta. rewrite Nat2Z.id.
  match goal with |- rbind ?m _ = _ => assert (X : m = Err ValueError); [|rewrite X; reflexivity] end.
  set (n := List.length (co_first r)). set (f := fun x => do u <- _; _).
  assert (Lw : List.length ws = n) by (symmetry; eapply GraphDataProofs.Forall2_length; exact F).
  assert (Y : forall es us k pre, Forall2 (holds false Real) es us -> k = List.length pre -> k + List.length es = n -> ws = pre ++ us -> exists y, mapM f (seq k (List.length es)) = Ok y).
  { intros es us k pre FF. revert k pre. induction FF as [|e u es us He FF IH]; intros k pre Ek En Ews; [exists []; reflexivity|]. cbn [List.length seq mapM].
    destruct He as (OKe & ->). destruct (read_float_entry e OKe) as (fe & Ee & _). assert (X : f k = Ok (VF fe)).
    { unfold f. rewrite (nth_word_at L _ (entry_text e)).
      - rewrite bind_ok; cbv beta. cbn [List.length] in En. destruct (Z.ltb_spec (Z.of_nat k) (Z.of_nat (S n) - 1)); [|lia]. rewrite Ee. reflexivity.
      - unfold L. cbn [Nat.add nth_error]. rewrite Ews, <- app_assoc, nth_error_app2 by lia. subst k. now rewrite Nat.sub_diag. }
    rewrite X. cbn [rbind]. destruct (IH (S k) (pre ++ [entry_text e])) as (y & Ey).
    - rewrite app_length. cbn. lia.
    - cbn in En. lia.
    - now rewrite Ews, <- app_assoc.
    - rewrite Ey. eexists. reflexivity. }
  destruct (Y (co_first r) ws 0 [] F eq_refl eq_refl eq_refl) as (y & Ey). fold n in Ey. rewrite seq_S, plus_O_n. apply (mapM_fails f _ n [] y); [exact Ey|].
  unfold f. rewrite (nth_word_at L _ w) by (unfold L; cbn [Nat.add nth_error]; rewrite nth_error_app2 by lia; now rewrite Lw, Nat.sub_diag).
  rewrite bind_ok; cbv beta. destruct (Z.ltb_spec (Z.of_nat n) (Z.of_nat (S n) - 1)); [lia|]. rewrite KT. destruct HL as (OK & suf & -> & SF). rewrite strip_final by auto. rewrite (not_plain_int _ OK NP). reflexivity.
Qed.

Lemma decimal_cost_file ss h b cl r l rest : v_keeps_text V = false -> Forall (section_ok V) ss -> section_ok V (Costs h b cl) -> cost_row_is r l -> ~ (exists n, co_last r = Num n /\ plain n) ->
  convert V (flat_map section_lines ss ++ open_lines (Costs h b cl) ++ l :: rest) = Err ValueError.
Proof.
  intros KT F OK R NP. destruct (convert_open V ss (Costs h b cl) F OK) as (c & E & _). destruct (decimal_cost r l c KT R NP) as (K & X).
  rewrite E by exact K. rewrite quiet_line by exact K. cbn [section_head]. rewrite X. reflexivity.
Qed.
End Copy.
