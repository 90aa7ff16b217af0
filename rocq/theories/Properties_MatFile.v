(** Properties C89-C95: the reader of MATPOWER case files. *)
From Coq Require Import List String Ascii Bool Arith ZArith QArith Lia.
From Verif Require Import Base Container NumeralSpec NumeralProofs Reader MatFile MatFileSpec MatFileProofs.
Import ListNotations.
Open Scope nat_scope.
Open Scope list_scope.

Local Ltac sp := repeat match goal with |- _ /\ _ => split end.

(** ** Concrete lines for the examples *)

Definition line (ss : list string) : text := List.concat (map (fun s => " "%char :: word_of s) ss).
Lemma written_line ss : forallb (fun s => negb (String.eqb s "") && forallb (fun a => negb (is_space a)) (word_of s)) ss = true -> written (line ss) (map word_of ss).
Proof.
  intros H. unfold line. replace (map (fun s => " "%char :: word_of s) ss) with (map (fun w : text => " "%char :: w) (map word_of ss)) by apply map_map.
  apply written_spaces. rewrite forallb_forall in H. apply Forall_forall. intros w I. apply in_map_iff in I as (s & <- & I). apply H, andb_true_iff in I as [A B].
  split; [intros E; destruct s; discriminate|]. apply Forall_forall. intros a Ia. rewrite forallb_forall in B. apply B in Ia. apply not_blank. now destruct (is_space a).
Qed.
Definition num (d : nat) : numeral := mkNum false [d] None None.
Lemma num_ok d : d < 10 -> numeral_ok (num d).
Proof. intros L. split; unfold num, digits; cbn; try discriminate; constructor; auto. Qed.
Lemma num_word d s suf : d < 10 -> word_of s = digit_char d :: suf -> Forall punctuation suf -> number_word (num d) (word_of s).
Proof.
  intros L -> F. split.
  - now apply num_ok.
  - exists [], suf. sp; auto.
Qed.
Local Ltac punct := repeat (constructor; [cbn; tauto|]); constructor.
Local Ltac numw := first [eapply (num_word 0)|eapply (num_word 1)|eapply (num_word 2)|eapply (num_word 3)|eapply (num_word 5)|eapply (num_word 7)]; [lia|reflexivity|punct].

(** Cost rows of six columns, the text of a row and its numbers. *)
Definition cost_row (d : nat) : list numeral := [num 2; num 0; num 0; num 3; num d; num 1].
Definition cost_words (d : string) : list string := ["2"; "0"; "0"; "3"; d; "1;"]%string.
Lemma cost_row_ok d s : In (d, s) [(5, "5"); (7, "7")]%string -> exists ws more, List.length (cost_row d) = 6 /\ written (line (cost_words s)) (ws ++ more) /\ Forall2 number_word (cost_row d) ws.
Proof.
  intros I. exists (map word_of (cost_words s)), []. destruct I as [I|[I|[]]]; inversion I; subst; (sp; [reflexivity|rewrite List.app_nil_r; now apply written_line|]);
    unfold cost_row, cost_words; cbn [map]; repeat (constructor; [numw|]); constructor.
Qed.
Definition header (name : string) : text := line ["mpc." ++ name; "="; "["]%string.
Lemma header_ok name k : width name = Some k -> exists w ws, written (header name) (w :: ws) /\ heads w (mpc name) /\ List.length (w :: ws) <= k.
Proof.
  intros Wd. exists (mpc name), [word_of "="; word_of "["].
  apply width_cases in Wd as [[-> ->]|[[-> ->]|[[-> ->]|[-> ->]]]]; (sp; [apply (written_line [_; _; _]%string); reflexivity|split; [cbn; intuition discriminate|now left]|cbn; lia]).
Qed.
Definition closing : text := line ["];"]%string.
Lemma closing_written : written closing [word_of "];"].
Proof. apply (written_line ["];"]%string). reflexivity. Qed.
Lemma closing_other : part_ok (Other closing).
Proof.
  exists [word_of "];"]. split; [apply closing_written|]. right. exists (word_of "];"), [], (word_of "];"). sp; auto.
  - split; [cbn; intuition discriminate|now left].
  - intros name I. cbn in I. decompose [or] I; subst; try contradiction; discriminate.
Qed.

(* ------------------------------------------------------------------ *)
(** ** C89 *)

(** Every file made of assignments, tables and other lines is read: each name has the value of its last
    definition, number by number, and names without definition are absent. *)
Theorem C89_case_file_is_read_exactly : forall ps, Forall part_ok ps ->
  exists vars, build_mat (flat_map lines_of ps) = Ok vars /\ forall name, represents (contents_of name ps) (d_get name vars).
Proof. exact build_ok. Qed.
Print Assumptions C89_case_file_is_read_exactly.

Definition small_case : list part :=
  [Other (line ["function"; "mpc"; "="; "case1"]%string); Assign "version" (num 2) (line ["mpc.version"; "="; "'2';"]%string);
   Assign "baseMVA" (num 7) (line ["mpc.baseMVA"; "="; "7;"]%string); Other [];
   Matrix "gencost" (header "gencost") [(cost_row 5, line (cost_words "5")); (cost_row 7, line (cost_words "7"))] closing].
Lemma small_case_ok : Forall part_ok small_case.
Proof.
  unfold small_case. repeat apply Forall_cons; [| | | | |constructor].
  - exists (map word_of ["function"; "mpc"; "="; "case1"]%string). split; [apply written_line; reflexivity|]. right. cbn [map]. eexists _, _, (word_of "function"). sp; auto.
    + split; [cbn; intuition discriminate|now left].
    + intros name I. cbn in I. decompose [or] I; subst; try contradiction; discriminate.
  - split; [now left|]. exists (word_of "'2';"), []. split; [apply (written_line ["mpc.version"; "="; "'2';"]%string); reflexivity|]. split.
    + apply num_ok. lia.
    + exists ["'"%char], ["'"; ";"]%char. sp; auto; punct.
  - split; [right; now left|]. exists (word_of "7;"), []. split; [apply (written_line ["mpc.baseMVA"; "="; "7;"]%string); reflexivity|numw].
  - exists []. split; [repeat constructor|now left].
  - exists 6. sp; auto; [now apply header_ok| |].
    + intros ns l [E|[E|[]]]; inversion E; subst; apply cost_row_ok; cbn; auto.
    + eexists. split; [apply closing_written|cbn; lia].
Qed.
Example C89_witness : Forall part_ok small_case /\
  build_mat (flat_map lines_of small_case) = Ok [("version", Scalar 2); ("baseMVA", Scalar 7); ("gencost", Table [[2; 0; 0; 3; 5; 1]; [2; 0; 0; 3; 7; 1]])]%string%Q.
Proof. split; [exact small_case_ok|vm_compute; reflexivity]. Qed.

(* ------------------------------------------------------------------ *)
(** ** C90 *)

Definition rows_ok (k : nat) (rows : list (list numeral * text)) : Prop :=
  forall ns l, In (ns, l) rows -> exists ws more, List.length ns = k /\ written l (ws ++ more) /\ Forall2 number_word ns ws.

Lemma rows_other k rows : 0 < k -> rows_ok k rows -> Forall part_ok (map (fun r => Other (snd r)) rows).
Proof.
  intros K H. apply Forall_forall. intros p I. apply in_map_iff in I as ([ns l] & <- & I). destruct (H ns l I) as (ws & more & L & W & F). cbn [snd].
  eapply row_other; eauto. intros ->. cbn in L. lia.
Qed.
Lemma lines_others (ls : list text) : flat_map lines_of (map Other ls) = ls.
Proof. induction ls as [|l ls IH]; cbn; congruence. Qed.
Lemma defines_others name (ls : list text) ps : contents_of name (map Other ls ++ ps) = contents_of name ps.
Proof. induction ls as [|l ls IH]; cbn; auto. rewrite IH. now destruct (contents_of name ps). Qed.
Lemma others_map {A} (f : A -> text) l : map (fun r => Other (f r)) l = map Other (map f l).
Proof. now rewrite map_map. Qed.

(** A blank line between the rows of a table removes the rows after it. *)
Theorem C90_refuted : exists first gap second ps,
  rows_ok 6 first /\ rows_ok 6 second /\ written gap [] /\
  build_mat (header "gencost" :: map snd first ++ [gap] ++ map snd second ++ [closing]) = Ok ps /\
  ~ represents (Some (Numbers (map fst first ++ map fst second))) (d_get "gencost" ps).
Proof.
  exists [(cost_row 5, line (cost_words "5"))], [], [(cost_row 7, line (cost_words "7"))]. eexists. sp.
  - intros ns l [E|[]]; inversion E; subst; apply cost_row_ok; cbn; auto.
  - intros ns l [E|[]]; inversion E; subst; apply cost_row_ok; cbn; auto.
  - repeat constructor.
  - vm_compute. reflexivity.
  - cbn. intros H. inversion H as [|? ? ? ? _ H']; subst. inversion H'.
Qed.

(** In general, the table ends at the first line with too few words, be it blank, a comment or a row of
    fewer columns, and the rows after it are dropped without a report. *)
Theorem C90_rest_of_table_dropped_partial : forall ps name k head first gap gw second close qs, width name = Some k ->
  Forall part_ok ps -> Forall part_ok qs -> part_ok (Other close) ->
  (exists w ws, written head (w :: ws) /\ heads w (mpc name) /\ List.length (w :: ws) <= k) -> rows_ok k first -> rows_ok k second ->
  written gap gw -> List.length gw < k -> contents_of name qs = None ->
  exists vars, build_mat (flat_map lines_of ps ++ (head :: map snd first ++ [gap] ++ map snd second ++ [close]) ++ flat_map lines_of qs) = Ok vars /\
    represents (Some (Numbers (map fst first))) (d_get name vars).
Proof.
  intros ps name k head first gap gw second close qs Wd Fp Fq Fc Hh H1 H2 Wg Lg Nq. destruct (find_table _ _ Wd) as (_ & _ & K).
  set (doc := ps ++ Matrix name head first gap :: map Other (map snd second ++ [close]) ++ qs).
  destruct (C89_case_file_is_read_exactly doc) as (vars & E & R).
  - unfold doc. apply Forall_app. split; auto. constructor.
    + exists k. sp; auto. exists gw. auto.
    + rewrite map_app, <- app_assoc. apply Forall_app. split; [rewrite <- others_map; apply (rows_other k); auto; lia|]. constructor; auto.
  - exists vars. split.
    + rewrite <- E. f_equal. unfold doc. rewrite flat_map_app. cbn [flat_map lines_of]. rewrite flat_map_app, lines_others. repeat (rewrite <- app_assoc; cbn [app]). reflexivity.
    + specialize (R name). unfold doc in R. assert (C : contents_of name (ps ++ Matrix name head first gap :: map Other (map snd second ++ [close]) ++ qs) = Some (Numbers (map fst first))).
      { clear - Nq. assert (D : contents_of name (Matrix name head first gap :: map Other (map snd second ++ [close]) ++ qs) = Some (Numbers (map fst first))).
        { cbn [contents_of]. rewrite defines_others, Nq. cbn. now rewrite String.eqb_refl. }
        induction ps as [|p ps IH]; auto. cbn [app contents_of]. now rewrite IH. }
      now rewrite C in R.
Qed.
Print Assumptions C90_rest_of_table_dropped_partial.

Example C90_witness : rows_ok 6 [(cost_row 5, line (cost_words "5"))] /\ part_ok (Other closing) /\
  exists gw, written (line ["%"; "second"; "unit"]%string) gw /\ List.length gw < 6.
Proof.
  sp.
  - intros ns l [E|[]]; inversion E; subst; apply cost_row_ok; cbn; auto.
  - exact closing_other.
  - eexists. split; [apply written_line; reflexivity|cbn; lia].
Qed.

(* ------------------------------------------------------------------ *)
(** ** C91 *)

(** A table closed on its last row hides the element that starts on the next line. *)
Theorem C91_refuted : exists rows more ps, rows_ok 6 rows /\ rows_ok 6 more /\
  build_mat (header "gencost" :: map snd rows ++ [line ["mpc.version"; "="; "2;"]%string] ++ map snd more) = Ok ps /\
  d_get "gencost" ps = Some (Table [[2; 0; 0; 3; 5; 1]])%Q /\ d_get "version" ps = None.
Proof.
  exists [(cost_row 5, line (cost_words "5"))], []. eexists. sp.
  - intros ns l [E|[]]; inversion E; subst; apply cost_row_ok; cbn; auto.
  - intros ns l [].
  - vm_compute. reflexivity.
  - reflexivity.
  - reflexivity.
Qed.

(** In general: a table directly followed by the header of another one; the second one is not read. *)
Theorem C91_next_table_lost_partial : forall ps name k head rows name' k' w' ws' head' rows' close qs, width name = Some k -> width name' = Some k' -> name <> name' ->
  Forall part_ok ps -> Forall part_ok qs -> part_ok (Other close) ->
  (exists w ws, written head (w :: ws) /\ heads w (mpc name) /\ List.length (w :: ws) <= k) -> rows_ok k rows ->
  written head' (w' :: ws') -> heads w' (mpc name') -> List.length (w' :: ws') < k -> rows_ok k' rows' ->
  exists vars, build_mat (flat_map lines_of ps ++ (head :: map snd rows) ++ (head' :: map snd rows' ++ [close]) ++ flat_map lines_of qs) = Ok vars /\
    represents (contents_of name' (ps ++ qs)) (d_get name' vars).
Proof.
  intros ps name k head rows name' k' w' ws' head' rows' close qs Wd Wd' Ne Fp Fq Fc Hh H1 W' Hd' L' H2. destruct (find_table _ _ Wd') as (_ & _ & K').
  set (doc := ps ++ Matrix name head rows head' :: map Other (map snd rows' ++ [close]) ++ qs).
  destruct (C89_case_file_is_read_exactly doc) as (vars & E & R).
  - unfold doc. apply Forall_app. split; auto. constructor.
    + exists k. sp; auto. exists (w' :: ws'). auto.
    + rewrite map_app, <- app_assoc. apply Forall_app. split; [rewrite <- others_map; apply (rows_other k'); auto; lia|]. constructor; auto.
  - exists vars. split.
    + rewrite <- E. f_equal. unfold doc. rewrite flat_map_app. cbn [flat_map lines_of]. rewrite flat_map_app, lines_others. repeat (rewrite <- app_assoc; cbn [app]). reflexivity.
    + specialize (R name'). unfold doc in R. assert (C : contents_of name' (ps ++ Matrix name head rows head' :: map Other (map snd rows' ++ [close]) ++ qs) = contents_of name' (ps ++ qs)).
      { clear - Ne. induction ps as [|p ps IH]; cbn [app contents_of].
        - rewrite defines_others. cbn [defines]. apply String.eqb_neq in Ne. rewrite Ne. now destruct (contents_of name' qs).
        - now rewrite IH. }
      now rewrite C in R.
Qed.
Print Assumptions C91_next_table_lost_partial.

(** A table that reaches the end of the file is not accepted. *)
Theorem C91_last_table_partial : forall ps name k head rows, width name = Some k -> Forall part_ok ps ->
  (exists w ws, written head (w :: ws) /\ heads w (mpc name) /\ List.length (w :: ws) <= k) -> rows_ok k rows ->
  build_mat (flat_map lines_of ps ++ head :: map snd rows) = Err IndexError.
Proof.
  intros ps name k head rows Wd Fp (w & ws & W & Hd & L) H. apply build_err; auto. intros vars.
  replace (map snd rows) with (map snd rows ++ [] ++ []) by now rewrite !List.app_nil_r.
  eapply matrix_err; eauto. intros b r E. discriminate.
Qed.
Print Assumptions C91_last_table_partial.

Example C91_witness : rows_ok 6 [(cost_row 5, line (cost_words "5"))] /\ width "gencost" = Some 6 /\ width "bus" = Some 13 /\
  (exists w' ws', written (header "bus") (w' :: ws') /\ heads w' (mpc "bus") /\ List.length (w' :: ws') < 6) /\
  build_mat (header "gencost" :: [line (cost_words "5")]) = Err IndexError.
Proof.
  sp; auto.
  - intros ns l [E|[]]; inversion E; subst; apply cost_row_ok; cbn; auto.
  - exists (mpc "bus"), [word_of "="; word_of "["]. sp; [apply (written_line ["mpc.bus"; "="; "["]%string); reflexivity|split; [cbn; intuition discriminate|now left]|cbn; lia].
Qed.

(* ------------------------------------------------------------------ *)
(** ** C92 *)

(** An assignment without blank before the equality sign is rejected, whatever follows it. *)
Theorem C92_refuted : exists l ws, written l (word_of "mpc.version='2';" :: ws) /\ build_mat [l] = Err ValueError.
Proof. exists (line ["mpc.version='2';"]%string), []. split; [apply (written_line ["mpc.version='2';"]%string)|]; reflexivity. Qed.
Theorem C92_attached_sign_partial : forall ps name r l ws rest, Forall part_ok ps -> In name ["version"; "baseMVA"]%string ->
  written l ((mpc name ++ "="%char :: r) :: ws) -> build_mat (flat_map lines_of ps ++ l :: rest) = Err ValueError.
Proof. intros ps name r l ws rest F I W. apply build_err; auto. intros vars. eapply attached_err; eauto. Qed.
Print Assumptions C92_attached_sign_partial.

Example C92_witness : exists l r ws, written l ((mpc "baseMVA" ++ "="%char :: r) :: ws) /\ ws <> [] /\ Forall part_ok small_case.
Proof. exists (line ["mpc.baseMVA="; "100;"]%string), [], [word_of "100;"]. sp; [apply (written_line ["mpc.baseMVA="; "100;"]%string); reflexivity|discriminate|exact small_case_ok]. Qed.

(* ------------------------------------------------------------------ *)
(** ** C93 *)

(** Numbers on the line of the header: the row is dropped if the line has at most as many words as the
    table has columns. *)
Theorem C93_refuted : exists head rows vars, written head (map word_of ("mpc.gencost=[2" :: tl (cost_words "5"))%string) /\ rows_ok 6 rows /\
  build_mat (head :: map snd rows ++ [closing]) = Ok vars /\ d_get "gencost" vars = Some (Table [[2; 0; 0; 3; 7; 1]])%Q.
Proof.
  exists (line ("mpc.gencost=[2" :: tl (cost_words "5"))%string), [(cost_row 7, line (cost_words "7"))]. eexists. sp.
  - apply written_line. reflexivity.
  - intros ns l [E|[]]; inversion E; subst; apply cost_row_ok; cbn; auto.
  - vm_compute. reflexivity.
  - reflexivity.
Qed.

(** With more words the file is rejected, comments on the line of the header included. *)
Theorem C93_long_header_partial : forall ps name k suf l ws rest, Forall part_ok ps -> width name = Some k -> In suf [""; "="; "=["]%string ->
  written l ((mpc name ++ word_of suf) :: ws) -> k <= List.length ws -> build_mat (flat_map lines_of ps ++ l :: rest) = Err ValueError.
Proof. intros ps name k suf l ws rest F Wd I W L. apply build_err; auto. intros vars. eapply long_header_err; eauto. Qed.
Print Assumptions C93_long_header_partial.

(** A first row that starts right after the opening bracket of a bus or branch table is read without its first
    number, when a further word follows it: the row is shifted. *)
Lemma get_digit_bracket name ds : In name ["bus"; "branch"]%string -> digits ds -> ds <> [] ->
  exists q, get_digit (mpc name ++ word_of "=[" ++ map digit_char ds) = Ok (Some q).
Proof.
  intros I D N.
  assert (E : scan (mpc name ++ word_of "=[" ++ map digit_char ds) [] = Ok ("."%char :: map digit_char ds, 1%Q)).
  { rewrite <- (List.app_nil_r (map digit_char ds)) at 1. destruct I as [<-|[<-|[]]];
    match goal with |- scan (?a ++ ?b ++ ?c) [] = _ => change (scan (a ++ b ++ c) []) with (scan c ["."%char]) end; now rewrite scan_digits. }
  rewrite (get_digit_scan _ _ _ E) by discriminate. unfold py_float. cbn [split_point]. change (Ascii.eqb "." ".") with true. cbv iota.
  assert (F : forallb is_digit (map digit_char ds) = true).
  { apply forallb_forall. intros a Ia. apply in_map_iff in Ia as (d & <- & Id). apply digit_char_is. unfold digits in D. rewrite Forall_forall in D. auto. }
  rewrite F. cbn [negb]. rewrite map_length. destruct (Nat.eqb_spec (List.length (@nil ascii) + List.length ds) 0) as [L|L]; [destruct ds; [congruence|discriminate]|]. eexists. reflexivity.
Qed.
Theorem C93_shifted_row_partial : forall ps name k ds head ns ws more rows close qs, In name ["bus"; "branch"]%string -> width name = Some k -> Forall part_ok ps -> Forall part_ok qs ->
  digits ds -> ds <> [] -> written head ((mpc name ++ word_of "=[" ++ map digit_char ds) :: ws ++ more) -> Forall2 number_word ns ws -> List.length ns = k ->
  rows_ok k rows -> (exists cw, written close cw /\ List.length cw < k) -> contents_of name qs = None ->
  exists vars, build_mat (flat_map lines_of ps ++ (head :: map snd rows ++ [close]) ++ flat_map lines_of qs) = Ok vars /\
    represents (Some (Numbers (ns :: map fst rows))) (d_get name vars).
Proof.
  intros ps name k ds head ns ws more rows close qs I Wd Fp Fq D N W Fn L H (cw & Wc & Lc) Nq. unfold build_mat.
  destruct (read_parts ((head :: map snd rows ++ [close]) ++ flat_map lines_of qs) ps _ [] Fp (le_n _)) as (f & v & Lf & -> & _).
  destruct f as [|f]; [cbn in Lf; lia|]. cbn [app read_lines].
  destruct (get_digit_bracket name ds I D N) as (q & Eq).
  assert (Hh : heads (mpc name ++ word_of "=[" ++ map digit_char ds) (mpc name)) by (split; [destruct I as [<-|[<-|[]]]; cbn; intuition discriminate|right; eexists; reflexivity]).
  remember (mpc name ++ word_of "=[" ++ map digit_char ds) as w eqn:Ew. clear Ew.
  destruct (read_row_ok ns ws more Fn) as (r & Er & Hr).
  destruct (map snd rows ++ [close]) as [|l1 r1] eqn:El; [now apply app_eq_nil in El as [_ ?]|].
  destruct (read_rows_ok k close cw (flat_map lines_of qs) Wc Lc rows l1 H) as (t & Et & Ht); [now rewrite El|]. rewrite El in Et. cbn [tl] in Et.
  assert (R : read_line head ((l1 :: r1) ++ flat_map lines_of qs) v = Ok (flat_map lines_of qs, d_set name (Table (r :: t)) v)).
  { unfold read_line. rewrite (split_written _ _ W). destruct (find_table _ _ Wd) as (Ef & Ek & _).
    destruct (heads_before _ _ Hh) as (e & Eb & _).
    assert (Lw : k < List.length (w :: ws ++ more)).
    { assert (Ln : List.length ns = List.length ws) by (clear - Fn; induction Fn; cbn; congruence). cbn [List.length]. rewrite app_length. lia. }
    rewrite Eb, Ef, Ek. unfold read_table. unfold text in *. remember (List.length (w :: ws ++ more)) as n eqn:En.
    destruct (Nat.ltb_spec k n); [|lia]. cbn [skip_number]. rewrite Eq. cbn [rbind app read_rows].
    destruct (Nat.leb_spec k n); [|lia]. rewrite L in Er. rewrite Er. cbn [rbind]. match goal with |- context [read_rows ?a ?b ?c ?d] => change (read_rows a b c d) with (read_rows k (List.length (split l1)) (split l1) (r1 ++ flat_map lines_of qs)) end. unfold text in *. rewrite Et. reflexivity. }
  rewrite R. cbn [rbind fst snd].
  destruct (read_parts [] qs f (d_set name (Table (r :: t)) v) Fq) as (f' & v2 & _ & E2 & H2).
  { rewrite List.app_nil_r. cbn in Lf. rewrite app_length in Lf. lia. }
  rewrite List.app_nil_r in E2. rewrite E2. exists v2. split; [destruct f'; reflexivity|]. specialize (H2 name). rewrite Nq in H2. rewrite H2, ContainerProofs.d_get_set, String.eqb_refl.
  cbn. constructor; auto.
Qed.
Print Assumptions C93_shifted_row_partial.
Example C93_shifted_witness : exists vars, build_mat [line ("mpc.branch=[1" :: repeat "4" 12 ++ ["9;"])%string; closing] = Ok vars /\
  represents (Some (Numbers [repeat (num 4) 12 ++ [num 9]])) (d_get "branch" vars).
Proof. eexists. split; [vm_compute; reflexivity|]. cbn. repeat constructor. Qed.

(** With fewer, whatever follows the name on the line of the header is ignored. *)
Theorem C93_header_ignored_partial : forall ps name k head head' w w' ws ws' rows close qs, width name = Some k -> Forall part_ok ps -> Forall part_ok qs ->
  written head (w :: ws) -> written head' (w' :: ws') -> heads w (mpc name) -> heads w' (mpc name) -> List.length (w :: ws) <= k -> List.length (w' :: ws') <= k ->
  rows_ok k rows -> (exists cw, written close cw /\ List.length cw < k) -> contents_of name qs = None ->
  exists vars vars', build_mat (flat_map lines_of ps ++ (head :: map snd rows ++ [close]) ++ flat_map lines_of qs) = Ok vars /\
    build_mat (flat_map lines_of ps ++ (head' :: map snd rows ++ [close]) ++ flat_map lines_of qs) = Ok vars' /\
    represents (Some (Numbers (map fst rows))) (d_get name vars) /\ represents (Some (Numbers (map fst rows))) (d_get name vars').
Proof.
  intros ps name k head head' w w' ws ws' rows close qs Wd Fp Fq W W' Hd Hd' L L' H C N.
  assert (G : forall h v vs, written h (v :: vs) -> heads v (mpc name) -> List.length (v :: vs) <= k ->
    exists vars, build_mat (flat_map lines_of ps ++ (h :: map snd rows ++ [close]) ++ flat_map lines_of qs) = Ok vars /\ represents (Some (Numbers (map fst rows))) (d_get name vars)).
  { intros h v vs Wh Hh Lh. destruct (C89_case_file_is_read_exactly (ps ++ Matrix name h rows close :: qs)) as (vars & E & R).
    - apply Forall_app. split; auto. constructor; auto. exists k. sp; auto. exists v, vs. auto.
    - exists vars. rewrite flat_map_app in E. split; auto. specialize (R name).
      replace (contents_of name (ps ++ Matrix name h rows close :: qs)) with (Some (Numbers (map fst rows))) in R; auto.
      clear - N. induction ps as [|p ps IH]; cbn [app contents_of]; [rewrite N; cbn; now rewrite String.eqb_refl|now rewrite <- IH]. }
  destruct (G head w ws W Hd L) as (vars & A & B). destruct (G head' w' ws' W' Hd' L') as (vars' & A' & B'). exists vars, vars'. auto.
Qed.
Print Assumptions C93_header_ignored_partial.

Example C93_witness : (exists ws, written (line ["mpc.gencost"; "="; "["; "%"; "model"; "startup"; "shutdown"; "n"]%string) ((mpc "gencost" ++ word_of "") :: ws) /\ 6 <= List.length ws) /\
  exists w ws, written (line ("mpc.gencost=[2" :: tl (cost_words "5"))%string) (w :: ws) /\ heads w (mpc "gencost") /\ List.length (w :: ws) <= 6.
Proof.
  split.
  - eexists. split; [apply (written_line ["mpc.gencost"; "="; "["; "%"; "model"; "startup"; "shutdown"; "n"]%string); reflexivity|cbn; lia].
  - eexists _, _. sp; [apply (written_line ("mpc.gencost=[2" :: tl (cost_words "5"))%string); reflexivity| |cbn; lia]. split; [cbn; intuition discriminate|]. right. eexists. reflexivity.
Qed.

(* ------------------------------------------------------------------ *)
(** ** C94 *)

(** The constant term of a quadratic cost, seventh column of the cost table, is not kept. *)
Theorem C94_refuted : exists a b, written a (map word_of ["2"; "0"; "0"; "3"; "5"; "1"; "7;"]%string) /\ written b (map word_of ["2"; "0"; "0"; "3"; "5"; "1"; "0;"]%string) /\
  build_mat [header "gencost"; a; closing] = build_mat [header "gencost"; b; closing] /\ is_ok (build_mat [header "gencost"; a; closing]).
Proof.
  exists (line ["2"; "0"; "0"; "3"; "5"; "1"; "7;"]%string), (line ["2"; "0"; "0"; "3"; "5"; "1"; "0;"]%string).
  sp; [apply written_line; reflexivity|apply written_line; reflexivity|vm_compute; reflexivity|vm_compute; exact I].
Qed.

(** In general every row read has exactly the width of its table, however many columns the file has. *)
Lemma read_row_length : forall k ws r, read_row k ws = Ok r -> List.length r = k.
Proof.
  induction k as [|k IH]; intros ws r H; cbn in H; [inversion H; reflexivity|]. destruct ws as [|w ws]; [discriminate|]. destruct (get_digit w) as [[q|]|]; cbn in H; try discriminate.
  destruct (read_row k ws) as [r'|] eqn:E; cbn in H; [|discriminate]. inversion H; subst. cbn. f_equal. eauto.
Qed.
Lemma read_rows_width : forall rest k n ws t rest', read_rows k n ws rest = Ok (t, rest') -> Forall (fun r => List.length r = k) t.
Proof.
  induction rest as [|l rest IH]; intros k n ws t rest' H; cbn [read_rows] in H; (destruct (k <=? n); [|inversion H; constructor]);
    (destruct (read_row k ws) as [r|] eqn:E; cbn [rbind] in H; [|discriminate]); [discriminate|].
  destruct (read_rows k (List.length (split l)) (split l) rest) as [[t' r']|] eqn:E2; cbn [rbind] in H; [|discriminate]. inversion H; subst. constructor; [eapply read_row_length; eauto|eauto].
Qed.
Theorem C94_width_partial : forall contents vars name t, build_mat contents = Ok vars -> d_get name vars = Some (Table t) ->
  exists k, width name = Some k /\ Forall (fun r => List.length r = k) t.
Proof.
  intros contents vars name t. unfold build_mat.
  assert (G : forall fuel ls vars0, (forall t, d_get name vars0 = Some (Table t) -> exists k, width name = Some k /\ Forall (fun r => List.length r = k) t) ->
    read_lines fuel ls vars0 = Ok vars -> d_get name vars = Some (Table t) -> exists k, width name = Some k /\ Forall (fun r => List.length r = k) t).
  { induction fuel as [|fuel IH]; intros [|l rest] vars0 H0 H G; cbn [read_lines] in H; try discriminate; try (inversion H; subst; auto; fail).
    destruct (read_line l rest vars0) as [[ls' vars1]|] eqn:E; cbn [rbind fst snd] in H; [|discriminate]. apply (IH ls' vars1); auto. clear H IH G.
    unfold read_line in E. destruct (split l) as [|w ws]; [inversion E; subst; auto|]. destruct (before_equal w) as [tx eq].
    destruct (find_element tx) as [[nm k]|] eqn:Ef; [|inversion E; subst; auto].
    assert (K : k = 1 \/ width nm = Some k).
    { apply find_some in Ef as [I _]. cbn in I. decompose [or] I; try contradiction; match goal with Hq : (_, _) = (_, _) |- _ => inversion Hq; subst end; auto. }
    destruct (Nat.eqb_spec k 1) as [->|N1].
    - destruct (first_number _) as [[q|]|]; cbn [rbind] in E; inversion E; subst. intros t0. rewrite ContainerProofs.d_get_set. destruct (String.eqb nm name); [discriminate|auto].
    - destruct (read_table k (w :: ws) rest) as [[t1 r1]|] eqn:Et; cbn [rbind fst snd] in E; [|discriminate]. inversion E; subst. intros t0. rewrite ContainerProofs.d_get_set.
      destruct (String.eqb_spec nm name) as [->|]; auto. intros Q; inversion Q; subst. exists k. destruct K as [K|K]; [contradiction|]. split; auto.
      unfold read_table in Et. destruct (k <? _); [destruct (skip_number (w :: ws)); cbn [rbind] in Et; [|discriminate]|destruct rest; [discriminate|]]; eapply read_rows_width; eauto. }
  apply G. cbn. discriminate.
Qed.
Print Assumptions C94_width_partial.

Example C94_witness : exists vars t, build_mat (flat_map lines_of small_case) = Ok vars /\ d_get "gencost" vars = Some (Table t) /\ t <> [].
Proof. eexists _, _. sp; [vm_compute; reflexivity|reflexivity|discriminate]. Qed.

(* ------------------------------------------------------------------ *)
(** ** C95 *)

(** Unlimited values are not accepted: "Inf" among the first columns of a row rejects the file. *)
Theorem C95_refuted : exists row, written row (map word_of ["2"; "0"; "0"; "3"; "Inf"; "1;"]%string) /\ build_mat [header "gencost"; row; closing] = Err PlainException.
Proof. exists (line ["2"; "0"; "0"; "3"; "Inf"; "1;"]%string). split; [apply written_line|]; reflexivity. Qed.
Theorem C95_word_without_digits_partial : forall ps name k head rows ns ws w more l rest, width name = Some k -> Forall part_ok ps ->
  (exists w ws, written head (w :: ws) /\ heads w (mpc name) /\ List.length (w :: ws) <= k) -> rows_ok k rows ->
  written l (ws ++ w :: more) -> Forall2 number_word ns ws -> List.length ws < k <= List.length (ws ++ w :: more) ->
  Forall (fun a => is_digit a = false /\ a <> "."%char /\ a <> "e"%char) w ->
  build_mat (flat_map lines_of ps ++ head :: map snd rows ++ l :: rest) = Err PlainException.
Proof.
  intros ps name k head rows ns ws w more l rest Wd Fp (w0 & ws0 & W0 & Hd & L0) H W F [L1 L2] Nd. apply build_err; auto. intros vars.
  change (l :: rest) with ([l] ++ rest). eapply matrix_err; eauto; [|discriminate].
  intros b r E. inversion E; subst. rewrite (split_written _ _ W). cbn [app].
  assert (K : (k <=? List.length (ws ++ w :: more)) = true) by (now apply Nat.leb_le).
  assert (Lw : List.length ns = List.length ws) by (clear - F; induction F; cbn; congruence).
  assert (R : read_row k (ws ++ w :: more) = Err PlainException) by (eapply read_row_bad; eauto; [lia|now apply wordless]).
  destruct rest; cbn [read_rows]; now rewrite K, R.
Qed.
Print Assumptions C95_word_without_digits_partial.

Example C95_witness : written (line ["2"; "0"; "-Inf"; "3"; "5"; "1;"]%string) (map word_of ["2"; "0"]%string ++ word_of "-Inf" :: map word_of ["3"; "5"; "1;"]%string) /\
  Forall2 number_word [num 2; num 0] (map word_of ["2"; "0"]%string) /\ Forall (fun a => is_digit a = false /\ a <> "."%char /\ a <> "e"%char) (word_of "-Inf").
Proof.
  sp.
  - apply (written_line ["2"; "0"; "-Inf"; "3"; "5"; "1;"]%string). reflexivity.
  - cbn [map]. repeat (constructor; [numw|]). constructor.
  - repeat constructor; discriminate.
Qed.
