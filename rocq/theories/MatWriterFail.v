(** Written files that the converter rejects, and files that are left behind when the writing fails. *)
From Coq Require Import List String Ascii Bool Arith ZArith QArith Lia.
From Verif Require Import Base Container GraphDataProofs Reader NumeralSpec NumeralProofs MatFile MatFileSpec MatFileProofs Converter ConverterSpec ConverterProofs ConverterFile ConverterMore ConverterOpen
  MatWriter MatWriterSpec MatWriterProofs MatWriterRows MatWriterFile.
Import ListNotations.
Open Scope string_scope.
Open Scope nat_scope.
Open Scope list_scope.

Local Ltac sp := repeat match goal with |- _ /\ _ => split end.

Section Repr.
Variable repr : Q -> text.
Hypothesis RESP : respects repr.
Variable V : variant.
Variable N : wnet.

Lemma cost_each l : write_each (cost_line repr) l = (map (fun g => tabbed repr ([PInt 2; zero; zero; PInt (Z.of_nat (List.length (wg_costs g)))] ++ wg_costs g) ++ word ";") l, None).
Proof. induction l as [|g l IH]; cbn [write_each cost_line map]; [reflexivity|]. rewrite IH. reflexivity. Qed.
Lemma base_numeral : writable repr (wn_base N) -> exists n, numeral_of repr (wn_base N) (num (wn_base N)) n.
Proof. intros W. destruct (writable_numeral repr _ W) as (n & H & _). eauto. Qed.

(** ** The whole file *)
Lemma written_case : net_ok repr V N -> exists lines c, write_case repr N = (lines, None) /\ convert V lines = Ok c /\ case_is repr V N c.
Proof.
  intros (T & FC). pose proof T as (WB & FB & FG & FL & FT). destruct (base_numeral WB) as (n & HN).
  destruct (bus_body_ex repr RESP V N WB FB) as (bb & BB). destruct (gen_body_ex repr RESP V N WB _ FG) as (gb & GB).
  destruct (branch_body_ex repr RESP V N WB _ _ FL) as (lb & LB). destruct (branch_body_ex repr RESP V N WB _ _ FT) as (tb & TB). destruct (cost_body_ex repr V _ FC) as (cb & CB).
  pose proof (write_tables repr V N n bb gb lb tb HN BB GB LB TB) as W. pose proof CB as (EC & OC & MC). rewrite EC in W.
  pose (ss := tables repr N n bb gb (lb ++ tb) ++ [cost_matrix cb; blank_note]).
  assert (E : write_case repr N = (flat_map section_lines ss, None)).
  { rewrite W. unfold before, put. cbn [fst snd]. f_equal. unfold ss. rewrite flat_map_app, <- app_assoc. f_equal. unfold cost_matrix, blank_note. cbn [flat_map section_lines app]. rewrite <- app_assoc. reflexivity. }
  assert (BT : body_ok (row_ok (v_truncates V) (columns_of "branch")) (lb ++ tb)) by (apply Forall_app; split; [exact (proj1 (proj2 LB))|exact (proj1 (proj2 TB))]).
  assert (SO : Forall (section_ok V) ss).
  { unfold ss. apply Forall_app. split; [apply tables_sections_ok; auto; [exact (proj1 (proj2 BB))|exact (proj1 (proj2 GB))]|]. constructor; [now apply cost_matrix_ok|]. constructor; [apply blank_ok|constructor]. }
  destruct (convert_ok V ss SO) as (c & EQ & (HB & HS & HT & HC & _)). exists (flat_map section_lines ss), c. split; [exact E|]. split; [exact EQ|].
  assert (NR : forall name, rows_of name [cost_matrix cb; blank_note] = []) by reflexivity.
  destruct (rows_bus repr N n bb gb (lb ++ tb) _ NR) as (R1 & R2 & R3). fold ss in R1, R2, R3.
  assert (TBS : table_is "bus" (bus_numbers N) (wn_bus N) c /\ table_is "gen" (gen_numbers N) (wn_conv N) c /\ table_is "branch" (branch_numbers N) (branches N) c).
  { eapply (table_of_bodies repr V N c bb gb lb tb); [|exact T|exact BB|exact GB|exact LB|exact TB]. intros name cols L. specialize (HT name cols L). destruct (layout_name name cols L) as [->|[->| ->]]; cbn [String.eqb Ascii.eqb Bool.eqb]; [rewrite R1 in HT|rewrite R2 in HT|rewrite R3 in HT]; exact HT. }
  destruct TBS as (TB1 & TB2 & TB3). unfold case_is. sp.
  - unfold ss in HB. rewrite base_found in HB by (intros s [<-|[<-|[]]]; exact I). destruct (k_base c) as [[q| |]|]; cbn in HB; try contradiction. exists q. split; auto. rewrite HB. exact (proj2 (proj2 HN)).
  - rewrite R1 in HS. unfold slack_number. eapply slack_found; [exact FB|exact (proj2 (proj2 BB))|exact HS].
  - exact TB1.
  - exact TB2.
  - exact TB3.
  - apply (costs_found repr V _ (given cb)); [exact MC|exact FC|]. unfold ss, costs_of in HC. rewrite flat_map_app in HC. unfold tables, start, matrix, blank_note, cost_matrix in HC. cbn [flat_map app] in HC. rewrite List.app_nil_r in HC. exact HC.
Qed.

(** ** Costs *)

(** After the costs of [g1] a line that the converter rejects. *)
Lemma bad_cost g1 g g2 l : tables_ok repr N -> wn_conv N = g1 ++ g :: g2 -> Forall (cost_fine repr V) g1 -> cost_line repr g = Ok l ->
  quiet V l -> (forall c, rows V (split l) (open HCost no_flags) c = Err ValueError) -> exists lines, write_case repr N = (lines, None) /\ convert V lines = Err ValueError.
Proof.
  intros T EG FC EL K R. pose proof T as (WB & FB & FG & FL & FT). destruct (base_numeral WB) as (n & HN).
  destruct (bus_body_ex repr RESP V N WB FB) as (bb & BB). destruct (gen_body_ex repr RESP V N WB _ FG) as (gb & GB).
  destruct (branch_body_ex repr RESP V N WB _ _ FL) as (lb & LB). destruct (branch_body_ex repr RESP V N WB _ _ FT) as (tb & TB). destruct (cost_body_ex repr V _ FC) as (cb & CB).
  pose proof (write_tables repr V N n bb gb lb tb HN BB GB LB TB) as W. pose proof CB as (EC & OC & MC).
  assert (BT : body_ok (row_ok (v_truncates V) (columns_of "branch")) (lb ++ tb)) by (apply Forall_app; split; [exact (proj1 (proj2 LB))|exact (proj1 (proj2 TB))]).
  assert (SO : Forall (section_ok V) (tables repr N n bb gb (lb ++ tb))) by (apply tables_sections_ok; auto; [exact (proj1 (proj2 BB))|exact (proj1 (proj2 GB))]).
  rewrite EG, write_each_app, EC in W. cbn [write_each] in W. rewrite EL, cost_each in W. unfold before, put in W. cbn [fst snd app] in W.
  eexists. split; [exact W|]. rewrite <- !app_assoc. cbn [app].
  destruct (convert_open V _ (cost_matrix cb) SO (cost_matrix_ok V cb OC)) as (c & E & _).
  unfold cost_matrix in E. cbn [open_lines] in E. match goal with |- convert V (_ ++ ?h :: map snd cb ++ l :: ?rest) = _ => specialize (E (l :: rest) K) end. rewrite <- app_comm_cons in E. rewrite E.
  rewrite quiet_line by exact K. cbn [section_head]. rewrite R. reflexivity.
Qed.
Lemma no_costs g1 g g2 : tables_ok repr N -> wn_conv N = g1 ++ g :: g2 -> Forall (cost_fine repr V) g1 -> wg_costs g = [] ->
  exists lines, write_case repr N = (lines, None) /\ convert V lines = Err ValueError.
Proof.
  intros T EG FC E0. eapply (bad_cost g1 g g2); eauto; [reflexivity| |]; rewrite E0.
  - destruct V as [[|] [|] [|] [|]]; reflexivity.
  - intros c. match goal with |- rows V (split ?t) _ _ = _ => let x := eval vm_compute in (split t) in replace (split t) with x by (vm_compute; reflexivity) end. rewrite (open_only V HCost c) by (cbn; intuition discriminate). reflexivity.
Qed.
Lemma decimal_last g1 g g2 first q : v_keeps_text V = false -> tables_ok repr N -> wn_conv N = g1 ++ g :: g2 -> Forall (cost_fine repr V) g1 ->
  wg_costs g = first ++ [PFloat q] -> Forall (writable repr) first -> printed repr q -> In "."%char (repr q) \/ In "e"%char (repr q) ->
  exists lines, write_case repr N = (lines, None) /\ convert V lines = Err ValueError.
Proof.
  intros KT T EG FC EQ F1 PR DOT.
  assert (CF : cost_fine repr engine_copy g) by (exists first, (PFloat q); sp; auto; discriminate).
  destruct (cost_line_ok repr engine_copy g CF) as (l & r & EL & (w0 & w1 & w2 & w3 & ws & w & more & X) & (_ & _ & _ & f' & z' & n & EC' & _ & ELA & (N1 & N2 & N3))).
  rewrite EQ in EC'. apply app_inj_tail in EC' as [<- <-].
  assert (CI : cost_row_is r l) by (exists w0, w1, w2, w3, ws, w, more; tauto).
  assert (NP : ~ (exists n, co_last r = Num n /\ plain n)).
  { intros (n' & E' & (P1 & P2)). rewrite ELA in E'. injection E' as <-. cbn [show] in N2. rewrite N2 in DOT. unfold numeral_text, unsigned_text, mantissa_text, exponent_text in DOT. rewrite P1, P2 in DOT. rewrite !List.app_nil_r in DOT.
    assert (D : forall a, is_digit a = false -> a <> "-"%char -> ~ In a ((if nu_neg n then ["-"%char] else []) ++ map digit_char (nu_int n))).
    { intros a Da Na I. apply in_app_or in I as [I|I]; [destruct (nu_neg n); [destruct I as [<-|[]]; congruence|destruct I]|]. apply in_map_iff in I as (d & <- & Id). destruct N1 as [DI _ _ _]. unfold digits in DI. rewrite Forall_forall in DI. rewrite digit_char_is in Da by auto. discriminate. }
    destruct DOT as [I|I]; [apply (D "."%char)|apply (D "e"%char)]; auto; discriminate. }
  destruct (decimal_cost V r l empty_case KT CI NP) as (K & _). eapply (bad_cost g1 g g2 l); eauto. intros c. exact (proj2 (decimal_cost V r l c KT CI NP)).
Qed.

(** ** Generators *)

(** The file up to the generators. *)
Definition to_gens (n : numeral) bb : list section := start repr N (Num n) ++ [matrix "bus" bb; blank_note].
Lemma to_gens_ok n bb : numeral_of repr (wn_base N) (num (wn_base N)) n -> body_ok (row_ok (v_truncates V) (columns_of "bus")) bb -> Forall (section_ok V) (to_gens n bb).
Proof.
  intros HN B. unfold to_gens. apply Forall_app. split; [eapply start_ok; eauto|]. repeat apply Forall_cons; try apply Forall_nil; try apply blank_ok; eapply matrix_ok; eauto; reflexivity.
Qed.
Definition after_gens : output :=
  before (put [word "];"; []; word "mpc.branch = ["]) (before (write_each (branch_line repr false (wn_base N)) (wn_lines N)) (before (write_each (branch_line repr true (wn_base N)) (wn_trafos N))
  (before (put [word "];"; []; word "mpc.gencost = ["]) (before (write_each (cost_line repr) (wn_conv N)) (put [word "];"; []]))))).
Lemma before_put a b o : before (put (a ++ b)) o = before (put a) (before (put b) o).
Proof. unfold before, put. cbn [fst snd]. now rewrite app_assoc. Qed.
Lemma before_assoc a b c : before (before a b) c = before a (before b c).
Proof. destruct a as (la, [e|]); [reflexivity|]. unfold before. cbn [fst snd]. destruct b as (lb, [e|]); cbn [fst snd]; [reflexivity|]. now rewrite app_assoc. Qed.
Lemma write_to_gens n bb : bus_body repr V N bb ->
  write_case repr N = before (put (flat_map section_lines (to_gens n bb) ++ [word "mpc.gen = ["])) (before (write_each (gen_line repr (wn_base N)) (wn_conv N)) after_gens).
Proof.
  intros (EB & _). unfold write_case. rewrite EB. fold after_gens. unfold to_gens, start, matrix, blank_note. change (map snd bb, None) with (put (map snd bb)).
  rewrite <- (before_assoc (put (map snd bb))). rewrite <- before_assoc. f_equal. unfold before, put. cbn [fst snd flat_map section_lines app]. f_equal. repeat (rewrite <- ?app_assoc; progress cbn [app]). rewrite <- ?app_assoc. reflexivity.
Qed.

(** The converter after the generators [g1]. *)
Lemma read_to_gens n bb g1 gb : numeral_of repr (wn_base N) (num (wn_base N)) n -> bus_body repr V N bb -> gen_body repr V N g1 gb ->
  exists c, (forall rest, convert V (flat_map section_lines (to_gens n bb) ++ word "mpc.gen = [" :: map snd gb ++ rest) = convert_lines V rest (open HGen no_flags) c) /\
    holds_rows (columns_of "bus") (given bb) (k_bus c) /\ holds_rows (columns_of "gen") (given gb) (k_gen c) /\ holds_rows (columns_of "branch") [] (k_branch c) /\ k_costs c = k_costs empty_case /\
    (exists q, k_base c = Some (Fin q) /\ q == num (wn_base N))%Q /\ slack_is (given bb) (k_slack c).
Proof.
  intros HN BB GB. destruct (convert_prefix V _ (to_gens_ok n bb HN (proj1 (proj2 BB)))) as (c0 & E & (HB & HS & HT & HC & _)).
  assert (R1 : rows_of "bus" (to_gens n bb) = given bb) by (unfold rows_of, to_gens, start; cbn; now rewrite List.app_nil_r).
  assert (R2 : rows_of "gen" (to_gens n bb) = []) by reflexivity.
  assert (R3 : rows_of "branch" (to_gens n bb) = []) by reflexivity.
  destruct (body_run V (row_ok (v_truncates V) (columns_of "gen")) (fun b c => same_but "gen" c0 c /\ holds_rows (columns_of "gen") ([] ++ b) (the_table "gen" c) /\ ("gen" = "bus" -> slack_is ([] ++ b) (k_slack c))) (open HGen no_flags)) with (body := gb) (b := @nil (list entry)) (c := c0) as (c1 & E1 & (SB & H1 & _)).
  - intros r l b c R P. split.
    + destruct (row_words V (columns_of "gen") r l (ex_intro _ "GEN_BUS" eq_refl) R) as (w & ws & more & EW & NM & _). unfold quiet. rewrite EW. cbn [app]. now apply head_none.
    + exact (matrix_step V "gen" (columns_of "gen") [] c0 eq_refl r l b c R P).
  - exact (proj1 (proj2 GB)).
  - sp; [unfold same_but; sp; auto|rewrite <- R2; exact (HT "gen" _ eq_refl)|discriminate].
  - exists c1. split.
    + intros rest. rewrite E. rewrite (table_header V "gen") by (discriminate || (exists [word "="; word "["]; apply written_of; reflexivity)). apply E1.
    + unfold same_but in SB. destruct SB as (S1 & S2 & _ & _ & S3 & _ & S4). destruct S3 as (S3 & S5); [discriminate|]. specialize (S4 ltac:(discriminate)). rewrite S1, S2, S3, S4, S5. sp.
      * rewrite <- R1. exact (HT "bus" _ eq_refl).
      * exact H1.
      * rewrite <- R3. exact (HT "branch" _ eq_refl).
      * destruct HC as (A & B & C & D & F). change (costs_of (to_gens n bb)) with (@nil cost) in *. destruct (k_costs c0) as [m up dn nc co]. cbn [c_model c_startup c_shutdown c_ncost c_cost] in *. inversion A; inversion B; inversion C; inversion D; inversion F; subst. reflexivity.
      * change (base_of (to_gens n bb)) with (Some (Num n)) in HB. destruct (k_base c0) as [[q| |]|]; cbn in HB; try contradiction. exists q. split; auto. rewrite HB. exact (proj2 (proj2 HN)).
      * rewrite <- R1. exact HS.
Qed.

(** A generator without limits of active power: the writer stops. *)
Lemma stops g1 g g2 : writable repr (wn_base N) -> Forall (bus_ok repr (wn_base N)) (wn_bus N) -> Forall (gen_ok repr (wn_base N)) g1 -> wn_conv N = g1 ++ g :: g2 -> wg_pmax g = PNone ->
  exists lines c, write_case repr N = (lines, Some TypeError) /\ convert V lines = Ok c /\ gens_only N g1 c.
Proof.
  intros WB FB FG EG EP. destruct (base_numeral WB) as (n & HN). destruct (bus_body_ex repr RESP V N WB FB) as (bb & BB). destruct (gen_body_ex repr RESP V N WB _ FG) as (gb & GB).
  destruct (read_to_gens n bb g1 gb HN BB GB) as (c & E & H1 & H2 & H3 & H4 & H5 & H6).
  exists (flat_map section_lines (to_gens n bb) ++ word "mpc.gen = [" :: map snd gb), c. split; [|split].
  - rewrite (write_to_gens n bb BB), EG. rewrite (write_each_fails _ g1 g g2 (map snd gb) TypeError (proj1 GB)).
    + unfold before, put. cbn [fst snd]. rewrite <- app_assoc. reflexivity.
    + unfold gen_line. rewrite EP. unfold times. cbn [as_int as_num]. reflexivity.
  - specialize (E []). rewrite List.app_nil_r in E. rewrite E. reflexivity.
  - unfold gens_only. sp; auto.
    + unfold slack_number. eapply slack_found; [exact FB|exact (proj2 (proj2 BB))|exact H6].
    + apply (table_is_rows "bus" (columns_of "bus") _ _ (given bb)); [reflexivity|exact H1|exact (proj2 (proj2 BB))|]. eapply Forall_impl; [|exact FB]. intros b. apply bus_whole.
    + apply (table_is_rows "gen" (columns_of "gen") _ _ (given gb)); [reflexivity|exact H2|exact (proj2 (proj2 GB))|]. eapply Forall_impl; [|exact FG]. intros b. apply gen_whole.
    + apply (table_is_rows "branch" (columns_of "branch") _ _ []); [reflexivity|exact H3|constructor|constructor].
Qed.

(** A status that is no number. *)
Lemma status_row g st : (exists b, st = PBool b) \/ st = PNone -> writable repr (wn_base N) -> gen_ok repr (wn_base N) (switched_on g) -> wg_status g = st ->
  exists l, gen_line repr (wn_base N) g = Ok l /\ quiet V l /\ forall c rs, holds_rows (columns_of "gen") rs (k_gen c) -> rows V (split l) (open HGen no_flags) c = Err ValueError.
Proof.
  intros ST BASE (A1 & _ & A3 & A4 & A5 & A6) EB. cbn [switched_on wg_bus wg_qmax wg_qmin wg_pmax wg_pmin] in *.
  pose proof (whole_writable repr _ A1) as W1. destruct (writable_numeral repr _ W1) as (n1 & C1 & P1). specialize (P1 A1). destruct (writable_numeral repr _ A3) as (n3 & C3 & _). destruct (writable_numeral repr _ A4) as (n4 & C4 & _).
  destruct (scaled_value repr RESP _ _ BASE A5) as (w5 & n5 & E5 & C5). destruct (scaled_value repr RESP _ _ BASE A6) as (w6 & n6 & E6 & C6). destruct (zero_numeral repr) as (n0 & Z0 & P0).
  unfold gen_line. rewrite E5, E6, EB. cbn [rbind]. eexists. split; [reflexivity|].
  pose (A := [wg_bus g; zero; zero; wg_qmax g; wg_qmin g; zero; zero; st; w5; w6; zero]). pose (B := [zero; zero; zero; zero; zero; zero; zero; zero; zero; zero]).
  assert (SN : forall v q n, numeral_of repr v q n -> solid (show repr v)) by (intros v q n (X & Y & _); rewrite Y; now apply numeral_solid).
  assert (SO : Forall (fun v => solid (show repr v)) (A ++ B)).
  { assert (S0 : solid (show repr zero)) by (eapply SN; exact Z0). assert (SB : solid (show repr st)) by (destruct ST as [([|] & ->)| ->]; (split; [discriminate|repeat (constructor; [apply not_blank; reflexivity|]); constructor])).
    unfold A, B. cbn [app]. repeat (constructor; [first [exact S0|exact SB|eapply SN; eassumption]|]). constructor. }
  pose proof (line_apart repr A B SO) as W. rewrite map_app in W. unfold A at 2, B at 2 in W. cbn [map app] in W.
  pose proof C1 as (O1 & T1 & _). pose proof C3 as (O3 & T3 & _). pose proof C4 as (O4 & T4 & _). pose proof Z0 as (O0 & T0 & _). rewrite T1, T3, T4, T0 in W.
  assert (H1 : holds (v_truncates V) Whole (Num n1) (numeral_text n1)) by (exists n1; sp; auto; destruct (v_truncates V); auto).
  pose proof (split_written _ _ W) as SW. unfold A, B in SW. split.
  - unfold quiet. rewrite SW. apply head_none. eapply holds_no_m; eauto.
  - intros c rs (NT & _). rewrite SW. rewrite rows_not_closing by (eapply holds_no_bracket; eauto). cbn [open no_flags f_bus f_gen f_branch f_cost f_dp f_dq rbind].
    unfold gen_row. rewrite read_row_eq; [|rewrite NT; reflexivity|exact (layout_distinct "gen" _ eq_refl)].
    pose (cols := firstn 7 (columns_of "gen")). pose (r := [Num n1; Num n0; Num n0; Num n3; Num n4; Num n0; Num n0]). pose (ws := [numeral_text n1; numeral_text n0; numeral_text n0; numeral_text n3; numeral_text n4; numeral_text n0; numeral_text n0]).
    destruct (cells_row V (ints_of "gen") (last_of "gen") cols) with (r := r) (ws := ws) as (vs & Evs & _); [| reflexivity| reflexivity| |].
    + intros c' k e w I H. eapply (layout_cells V "gen" (columns_of "gen") eq_refl); [|exact H]. cbn in I |- *. tauto.
    + assert (HR : forall n, numeral_ok n -> holds (v_truncates V) Real (Num n) (numeral_text n)) by (intros n O; split; [exact O|reflexivity]).
      intros j c' k e w Ec Ee Ew. do 7 (destruct j as [|j]; [cbn in Ec, Ee, Ew; injection Ec as <- <-; injection Ee as <-; injection Ew as <-; first [exact H1|apply HR; assumption]|]). destruct j; discriminate Ec.
    + unfold gen_columns. cbn [combine]. 
      match goal with |- context [mapM ?f ?l] => change (mapM f l) with (mapM f (combine ws (map fst cols) ++ (show repr st, "GEN"%string) :: skipn 8 l)) end.
      rewrite (mapM_fails _ _ _ _ _ ValueError Evs); [reflexivity|]. destruct V as [[|] [|] [|] [|]], ST as [([|] & ->)| ->]; reflexivity.
Qed.
Lemma no_status g1 g g2 st : (exists b, st = PBool b) \/ st = PNone -> writable repr (wn_base N) -> Forall (bus_ok repr (wn_base N)) (wn_bus N) -> Forall (branch_ok repr (wn_base N) false) (wn_lines N) -> Forall (branch_ok repr (wn_base N) true) (wn_trafos N) ->
  Forall (gen_ok repr (wn_base N)) g1 -> Forall (gen_ok repr (wn_base N)) g2 -> wn_conv N = g1 ++ g :: g2 -> gen_ok repr (wn_base N) (switched_on g) -> wg_status g = st ->
  exists lines, write_case repr N = (lines, None) /\ convert V lines = Err ValueError.
Proof.
  intros ST WB FB FL FT F1 F2 EG OG EB. destruct (base_numeral WB) as (n & HN). destruct (bus_body_ex repr RESP V N WB FB) as (bb & BB). destruct (gen_body_ex repr RESP V N WB _ F1) as (gb & GB). destruct (gen_body_ex repr RESP V N WB _ F2) as (gb2 & (EG2 & _)).
  destruct (branch_body_ex repr RESP V N WB _ _ FL) as (lb & (ELB & _)). destruct (branch_body_ex repr RESP V N WB _ _ FT) as (tb & (ETB & _)).
  destruct (status_row g st ST WB OG EB) as (l & EL & K & R). destruct (read_to_gens n bb g1 gb HN BB GB) as (c & E & _ & H2 & _).
  assert (AG : exists more, after_gens = (more, None)) by (unfold after_gens; rewrite ELB, ETB, cost_each; unfold before, put; cbn [fst snd]; eauto). destruct AG as (more & AG).
  exists (flat_map section_lines (to_gens n bb) ++ word "mpc.gen = [" :: map snd gb ++ l :: map snd gb2 ++ more). split.
  - rewrite (write_to_gens n bb BB), EG, write_each_app, (proj1 GB), AG. cbn [write_each]. rewrite EL, EG2. unfold before, put. cbn [fst snd]. f_equal. repeat (rewrite <- ?app_assoc; progress cbn [app]). reflexivity.
  - rewrite E. rewrite quiet_line by exact K. rewrite (R c _ H2). reflexivity.
Qed.
End Repr.
