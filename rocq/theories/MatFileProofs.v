(** Lemmas about the reader of MATPOWER case files. *)
From Coq Require Import List String Ascii Bool Arith ZArith QArith Lia.
From Verif Require Import Base Container ContainerProofs Reader NumeralSpec NumeralProofs MatFile MatFileSpec.
Import ListNotations.
Open Scope nat_scope.
Open Scope list_scope.

Local Ltac sp := repeat match goal with |- _ /\ _ => split end.

(** ** Words *)

Lemma blank_space a : blank a <-> is_space a = true.
Proof.
  unfold blank, is_space. rewrite orb_true_iff, !andb_true_iff, !Nat.leb_le. cbn [In].
  split; [intuition lia|]. intros [[A B]|[A B]]; [remember (nat_of_ascii a) as n; clear Heqn|remember (nat_of_ascii a) as n; clear Heqn]; lia.
Qed.
Lemma not_blank a : ~ blank a <-> is_space a = false.
Proof. rewrite blank_space. destruct (is_space a); split; congruence. Qed.

Lemma split_blanks : forall b l, Forall blank b -> split_from [] (b ++ l) = split_from [] l.
Proof. induction b as [|a b IH]; intros l F; auto. inversion F as [|? ? A F']; subst. cbn. apply blank_space in A. rewrite A. auto. Qed.
Lemma split_word : forall w cur l, Forall (fun a => ~ blank a) w -> split_from cur (w ++ l) = split_from (cur ++ w) l.
Proof.
  induction w as [|a w IH]; intros cur l F; [now rewrite List.app_nil_r|]. inversion F as [|? ? A F']; subst. cbn. apply not_blank in A. rewrite A. rewrite IH by auto.
  now rewrite <- app_assoc.
Qed.
Lemma split_written l ws : written l ws -> split l = ws.
Proof.
  unfold split. induction 1 as [b F|b w l ws F NE W H IH E].
  - rewrite <- (List.app_nil_r b). now rewrite split_blanks.
  - rewrite split_blanks by auto. rewrite split_word by auto. cbn [app]. destruct l as [|a l].
    + cbn in IH. subst ws. cbn. destruct w; [now destruct NE|reflexivity].
    + destruct E as [-> |(a' & l' & E & B)].
      * assert (A : is_space a = true) by (apply blank_space; inversion H as [? Fb|]; subst; inversion Fb; auto). cbn [split_from] in *. rewrite A in *. rewrite IH. destruct w; [now destruct NE|reflexivity].
      * inversion E; subst a' l'. apply blank_space in B. cbn [split_from] in *. rewrite B in *. rewrite IH. destruct w; [now destruct NE|reflexivity].
Qed.

(** Any separation of words by single blanks is a writing. *)
Lemma written_spaces : forall ws, Forall (fun w => w <> [] /\ Forall (fun a => ~ blank a) w) ws ->
  written (List.concat (map (fun w => " "%char :: w) ws)) ws.
Proof.
  induction ws as [|w ws IH]; intros F; cbn; [constructor; constructor|]. inversion F as [|? ? [A B] F']; subst.
  change (" "%char :: w ++ List.concat (map (fun w => " "%char :: w) ws)) with ([" "%char] ++ w ++ List.concat (map (fun w => " "%char :: w) ws)).
  constructor; auto.
  - constructor; [|constructor]. unfold blank. cbn. auto 12.
  - destruct ws as [|w' ws]; [now left|]. right. cbn. eexists _, _. split; [reflexivity|]. unfold blank. cbn. auto 12.
Qed.

(** ** Numbers *)

Lemma punctuation_skipped a : punctuation a -> skipped a /\ a <> "-"%char.
Proof. intros H. cbn in H. unfold skipped. decompose [or] H; subst; try contradiction; sp; try reflexivity; discriminate. Qed.

Lemma number_word_read n w : number_word n w -> exists v, get_digit w = Ok (Some v) /\ (v == numeral_value n)%Q.
Proof.
  intros (OK & pre & suf & -> & FP & FS & S & E).
  assert (SP : Forall skipped pre) by (eapply Forall_impl; [|exact FP]; intros a A; now apply punctuation_skipped in A).
  assert (SS : Forall skipped suf) by (eapply Forall_impl; [|exact FS]; intros a A; now apply punctuation_skipped in A).
  unfold numeral_text, numeral_value. destruct (nu_neg n) eqn:N.
  - destruct S as [->|S]; [|congruence]. cbn [app]. destruct (read_number n ["-"%char] suf OK) as (v & Ev & Hv); auto.
    + constructor; [|constructor]. unfold skipped. sp; try reflexivity; discriminate.
    + cbn [app] in Ev. exists v. split; auto.
  - cbn [app]. destruct (read_number n pre suf OK SP E SS) as (v & Ev & Hv). exists v. split; auto. destruct pre as [|a pre]; auto.
    inversion FP as [|? ? A _]; subst. apply punctuation_skipped in A as [_ A]. apply Ascii.eqb_neq in A. now rewrite A in Hv.
Qed.

Lemma read_row_ok : forall ns ws more, Forall2 number_word ns ws -> exists r, read_row (List.length ns) (ws ++ more) = Ok r /\ Forall2 (fun n q => q == numeral_value n)%Q ns r.
Proof.
  induction ns as [|n ns IH]; intros ws more F; inversion F as [|? w ? ws' A F']; subst; cbn.
  - exists []. split; auto.
  - destruct (number_word_read n w A) as (v & Ev & Hv). rewrite Ev. cbn. destruct (IH ws' more F') as (r & Er & Hr). rewrite Er. cbn. exists (v :: r). split; auto.
Qed.

(** ** First words *)

Lemma heads_before w t : heads w t -> exists e, before_equal w = (t, e) /\ (e = true <-> w <> t).
Proof.
  intros [N H]. destruct H as [->|(r & ->)].
  - exists false. split; [|split; [discriminate|congruence]]. induction t as [|a t IH]; auto. cbn. destruct (Ascii.eqb_spec a "=") as [->|]; [exfalso; apply N; now left|].
    rewrite IH; auto. intros I. apply N. now right.
  - exists true. split.
    + induction t as [|a t IH]; auto. cbn. destruct (Ascii.eqb_spec a "=") as [->|]; [exfalso; apply N; now left|].
      rewrite IH; auto. intros I. apply N. now right.
    + split; auto. intros _ E. rewrite <- (List.app_nil_r t) in E at 2. apply app_inv_head in E. discriminate.
Qed.

Lemma find_none t : (forall name, In name known -> t <> mpc name) -> find_element t = None.
Proof.
  intros H. unfold find_element, elements. cbn [find]. unfold is_element. cbn [fst].
  repeat match goal with |- context [list_eq_dec ?d t ?x] => destruct (list_eq_dec d t x) as [E|_]; [exfalso; refine (H _ _ E); cbn; tauto|] end. reflexivity.
Qed.
Lemma find_scalar name : In name ["version"; "baseMVA"]%string -> find_element (mpc name) = Some (name, 1).
Proof. intros [<-|[<-|[]]]; reflexivity. Qed.
Lemma width_cases name k : width name = Some k -> (name = "bus" /\ k = 13 \/ name = "gen" /\ k = 21 \/ name = "branch" /\ k = 13 \/ name = "gencost" /\ k = 6)%string.
Proof.
  unfold width. repeat match goal with |- context [String.eqb name ?x] => destruct (String.eqb_spec name x) as [->|_]; [intros H; inversion H; auto 12|] end. discriminate.
Qed.
Lemma find_table name k : width name = Some k -> find_element (mpc name) = Some (name, k) /\ (k =? 1) = false /\ 1 < k.
Proof. intros H. apply width_cases in H as [[-> ->]|[[-> ->]|[[-> ->]|[-> ->]]]]; sp; try reflexivity; lia. Qed.

(** ** Dictionaries *)

Lemma d_get_set_same {V} (vars : @items V) k v : d_get k (d_set k v vars) = Some v.
Proof. now rewrite d_get_set, String.eqb_refl. Qed.
Lemma d_get_set_other {V} (vars : @items V) k k' v : k <> k' -> d_get k' (d_set k v vars) = d_get k' vars.
Proof. intros N. rewrite d_get_set. apply String.eqb_neq in N. now rewrite N. Qed.

(** ** Tables *)

Lemma read_rows_ok k closing cw rest : written closing cw -> List.length cw < k -> forall rows l,
  (forall ns l, In (ns, l) rows -> exists ws more, List.length ns = k /\ written l (ws ++ more) /\ Forall2 number_word ns ws) ->
  hd_error (map snd rows ++ [closing]) = Some l ->
  exists t, read_rows k (List.length (split l)) (split l) (tl (map snd rows ++ [closing]) ++ rest) = Ok (t, rest) /\
    Forall2 (Forall2 (fun n q => q == numeral_value n)%Q) (map fst rows) t.
Proof.
  intros HC LC. induction rows as [|[ns l0] rows IH]; intros l H E.
  - cbn in E. inversion E; subst. rewrite (split_written _ _ HC). cbn [map tl app]. exists []. split; [|constructor].
    destruct rest; cbn [read_rows]; (destruct (Nat.leb_spec k (List.length cw)); [lia|reflexivity]).
  - cbn in E. inversion E; subst l0. destruct (H ns l (or_introl eq_refl)) as (ws & more & Ln & W & F). rewrite (split_written _ _ W).
    cbn [map snd fst tl app]. destruct (map snd rows ++ [closing]) as [|l1 r1] eqn:Er; [now apply app_eq_nil in Er as [_ ?]|].
    destruct (IH l1) as (t & Et & Ht); [intros; apply H; now right|reflexivity|]. cbn [app tl] in *. cbn [read_rows].
    assert (Lw : List.length ns = List.length ws) by (clear - F; induction F; cbn; congruence).
    destruct (Nat.leb_spec k (List.length (ws ++ more))) as [_|Lt]; [|rewrite app_length in Lt; lia].
    destruct (read_row_ok ns ws more F) as (r & Rr & Hr). rewrite Ln in Rr. rewrite Rr. cbn [rbind]. rewrite Et. cbn [rbind fst snd]. exists (r :: t). split; auto.
Qed.

Lemma read_table_ok k header w ws rows closing cw rest : written header (w :: ws) -> List.length (w :: ws) <= k -> written closing cw -> List.length cw < k ->
  (forall ns l, In (ns, l) rows -> exists ws more, List.length ns = k /\ written l (ws ++ more) /\ Forall2 number_word ns ws) ->
  exists t, read_table k (w :: ws) ((map snd rows ++ [closing]) ++ rest) = Ok (t, rest) /\ Forall2 (Forall2 (fun n q => q == numeral_value n)%Q) (map fst rows) t.
Proof.
  intros HH LH HC LC H. unfold read_table. destruct (Nat.ltb_spec k (List.length (w :: ws))); [lia|].
  destruct (map snd rows ++ [closing]) as [|l1 r1] eqn:Er; [now apply app_eq_nil in Er as [_ ?]|]. cbn [app].
  destruct (read_rows_ok k closing cw rest HC LC rows l1 H) as (t & Et & Ht); [now rewrite Er|]. rewrite Er in Et. cbn [tl] in Et. exists t. auto.
Qed.

(** ** Files *)

Lemma read_part p rest vars : part_ok p -> exists l ls vars', lines_of p = l :: ls /\ read_line l (ls ++ rest) vars = Ok (rest, vars') /\
  forall name, match defines name p with Some c => represents (Some c) (d_get name vars') | None => d_get name vars' = d_get name vars end.
Proof.
  destruct p as [l|name n l|name header rows closing]; cbn [part_ok lines_of defines].
  - intros (ws & W & H). exists l, [], vars. sp; auto. unfold read_line. rewrite (split_written _ _ W). destruct H as [->|(w & ws' & t & -> & Hd & H)]; auto.
    destruct (heads_before _ _ Hd) as (e & -> & _). now rewrite find_none.
  - intros (I & w & ws & W & N). destruct (number_word_read _ _ N) as (v & Ev & Hv). exists l, [], (d_set name (Scalar v) vars). sp; auto.
    + unfold read_line. rewrite (split_written _ _ W). destruct (heads_before (mpc name) (mpc name)) as (e & Eb & He).
      { split; [|now left]. destruct I as [<-|[<-|[]]]; cbn; intuition discriminate. }
      rewrite Eb, (find_scalar _ I). destruct e; [now destruct (proj1 He eq_refl)|]. cbn [Nat.eqb]. cbn [first_number]. change (get_digit (word_of "=")) with (@Ok (option Q) None). cbn [rbind].
      rewrite Ev. reflexivity.
    + intros name'. destruct (String.eqb_spec name name') as [->|Ne]; [rewrite d_get_set_same; exact Hv|now rewrite d_get_set_other].
  - intros (k & Wd & (w & ws & HW & Hd & LH) & HR & cw & HC & LC). destruct (find_table _ _ Wd) as (Ef & Ek & _).
    destruct (read_table_ok k header w ws rows closing cw rest HW LH HC LC HR) as (t & Et & Ht). exists header, (map snd rows ++ [closing]), (d_set name (Table t) vars). sp; auto.
    + unfold read_line. rewrite (split_written _ _ HW). destruct (heads_before _ _ Hd) as (e & -> & _). rewrite Ef, Ek, Et. reflexivity.
    + intros name'. destruct (String.eqb_spec name name') as [->|Ne]; [rewrite d_get_set_same; exact Ht|now rewrite d_get_set_other].
Qed.

Lemma read_parts tail : forall ps fuel vars, Forall part_ok ps -> List.length (flat_map lines_of ps ++ tail) <= fuel ->
  exists fuel' vars', List.length tail <= fuel' /\ read_lines fuel (flat_map lines_of ps ++ tail) vars = read_lines fuel' tail vars' /\
    forall name, match contents_of name ps with Some c => represents (Some c) (d_get name vars') | None => d_get name vars' = d_get name vars end.
Proof.
  induction ps as [|p ps IH]; intros fuel vars F L; cbn [flat_map app contents_of].
  - exists fuel, vars. sp; auto.
  - inversion F as [|? ? P F']; subst. destruct (read_part p (flat_map lines_of ps ++ tail) vars P) as (l & ls & v1 & El & E1 & H1). cbn [flat_map] in L. rewrite El in *. rewrite <- app_assoc in *. cbn [app] in *.
    destruct fuel as [|fuel]; [cbn in L; lia|]. cbn [read_lines]. rewrite E1. cbn [rbind fst snd].
    destruct (IH fuel v1 F') as (f' & v2 & Lf & E2 & H2); [cbn in L; rewrite app_length in L; lia|]. exists f', v2. sp; auto.
    intros name. specialize (H1 name). specialize (H2 name). destruct (contents_of name ps); auto. rewrite H2. exact H1.
Qed.

Lemma build_ok ps : Forall part_ok ps -> exists vars, build_mat (flat_map lines_of ps) = Ok vars /\ forall name, represents (contents_of name ps) (d_get name vars).
Proof.
  intros F. destruct (read_parts [] ps (List.length (flat_map lines_of ps)) [] F) as (f & v & _ & E & H); [now rewrite List.app_nil_r|].
  rewrite List.app_nil_r in E. unfold build_mat. rewrite E. destruct f; cbn [read_lines]; (exists v; split; auto; intros name; specialize (H name); destruct (contents_of name ps); auto; now rewrite H).
Qed.

(** ** Lines that are not understood *)

Lemma numeral_chars n a : numeral_ok n -> In a (numeral_text n) -> is_digit a = true \/ a = "-"%char \/ a = "."%char \/ a = "e"%char \/ a = "+"%char.
Proof.
  intros [DI DF _ DE] I. unfold numeral_text, unsigned_text, mantissa_text, exponent_text in I.
  assert (D : forall ds, digits ds -> In a (map digit_char ds) -> is_digit a = true).
  { intros ds Dd J. apply in_map_iff in J as (d & <- & J). apply digit_char_is. unfold digits in Dd. rewrite Forall_forall in Dd. auto. }
  rewrite !in_app_iff in I. destruct I as [I|[[I|I]|I]].
  - destruct (nu_neg n); [destruct I as [<-|[]]; auto|destruct I].
  - left. eauto.
  - unfold frac_digits in DF. destruct (nu_frac n); [|destruct I]. destruct I as [<-|I]; auto. left. eauto.
  - destruct (nu_exp n) as [[neg e]|]; [|destruct I]. destruct I as [<-|[<-|I]]; auto 6; [destruct neg; auto 6|]. left. destruct (DE neg e eq_refl). eauto.
Qed.
Lemma number_word_chars n w a : number_word n w -> In a w -> a <> "m"%char /\ a <> "="%char.
Proof.
  intros (OK & pre & suf & -> & FP & FS & _) I. rewrite Forall_forall in FP, FS. rewrite !in_app_iff in I.
  assert (P : punctuation a -> a <> "m"%char /\ a <> "="%char) by (intros H; cbn in H; decompose [or] H; subst; try contradiction; split; discriminate).
  destruct I as [I|[I|I]]; auto. apply (numeral_chars n) in I; auto. split; intros ->; decompose [or] I; discriminate.
Qed.

(** A row of numbers outside a table is an other line. *)
Lemma row_other ns l ws more : ns <> [] -> written l (ws ++ more) -> Forall2 number_word ns ws -> part_ok (Other l).
Proof.
  intros NE W F. inversion F as [|n w ns' ws' N F']; subst; [congruence|]. exists ((w :: ws') ++ more). split; auto. right. exists w, (ws' ++ more), w. sp; auto.
  - split; [|now left]. intros I. now destruct (number_word_chars _ _ _ N I).
  - intros name _ E. subst w. destruct (number_word_chars _ _ "m"%char N) as [A _]; [now left|congruence].
Qed.

Lemma build_err ps l rest e : Forall part_ok ps -> (forall vars, read_line l rest vars = Err e) -> build_mat (flat_map lines_of ps ++ l :: rest) = Err e.
Proof.
  intros F H. unfold build_mat. destruct (read_parts (l :: rest) ps (List.length (flat_map lines_of ps ++ l :: rest)) [] F (le_n _)) as (f & v & Lf & -> & _).
  destruct f as [|f]; [cbn in Lf; lia|]. cbn [read_lines]. now rewrite H.
Qed.

Lemma get_digit_version r : get_digit (mpc "version" ++ "="%char :: r) = Err ValueError.
Proof. reflexivity. Qed.
Lemma get_digit_base r : get_digit (mpc "baseMVA" ++ "="%char :: r) = Err ValueError.
Proof. reflexivity. Qed.

Lemma attached_err name r l ws rest vars : In name ["version"; "baseMVA"]%string -> written l ((mpc name ++ "="%char :: r) :: ws) -> read_line l rest vars = Err ValueError.
Proof.
  intros I W. unfold read_line. rewrite (split_written _ _ W).
  destruct (heads_before (mpc name ++ "="%char :: r) (mpc name)) as (e & Eb & He).
  { split; [|right; eauto]. destruct I as [<-|[<-|[]]]; cbn; intuition discriminate. }
  rewrite Eb, (find_scalar _ I). replace e with true; [|symmetry; apply He; intros E; rewrite <- (List.app_nil_r (mpc name)) in E at 2; apply app_inv_head in E; discriminate].
  cbn [Nat.eqb first_number]. destruct I as [<-|[<-|[]]]; [rewrite get_digit_version|rewrite get_digit_base]; reflexivity.
Qed.

Lemma long_header_err name k suf l ws rest vars : width name = Some k -> In suf [""; "="; "=["]%string -> written l ((mpc name ++ word_of suf) :: ws) -> k <= List.length ws ->
  read_line l rest vars = Err ValueError.
Proof.
  intros Wd I W L. unfold read_line. rewrite (split_written _ _ W). destruct (find_table _ _ Wd) as (Ef & Ek & _).
  destruct (heads_before (mpc name ++ word_of suf) (mpc name)) as (e & Eb & _).
  { split; [apply width_cases in Wd as [[-> _]|[[-> _]|[[-> _]|[-> _]]]]; cbn; intuition discriminate|].
    destruct I as [<-|[<-|[<-|[]]]]; [left; apply List.app_nil_r|right; eexists; reflexivity|right; eexists; reflexivity]. }
  rewrite Eb, Ef, Ek. unfold read_table. match goal with |- context [if ?b then _ else _] => replace b with true by (symmetry; apply Nat.ltb_lt; exact (le_n_S _ _ L)) end.
  cbn [skip_number]. replace (get_digit (mpc name ++ word_of suf)) with (@Err (option Q) ValueError); [reflexivity|].
  apply width_cases in Wd as [[-> _]|[[-> _]|[[-> _]|[-> _]]]]; destruct I as [<-|[<-|[<-|[]]]]; reflexivity.
Qed.

(** Tables with a word that is not a number, and tables without end. *)
Lemma wordless w : Forall (fun a => is_digit a = false /\ a <> "."%char /\ a <> "e"%char) w -> get_digit w = Ok None.
Proof. intros F. unfold get_digit. rewrite <- (List.app_nil_r w) at 1. now rewrite (scan_skipped w [] []). Qed.

Lemma read_row_bad : forall ns ws w more k, Forall2 number_word ns ws -> List.length ns < k -> get_digit w = Ok None -> read_row k (ws ++ w :: more) = Err PlainException.
Proof.
  induction ns as [|n ns IH]; intros ws w more k F L G; inversion F as [|? w1 ? ws' A F']; subst; (destruct k as [|k]; [cbn in L; lia|]); cbn.
  - now rewrite G.
  - destruct (number_word_read n w1 A) as (v & Ev & _). rewrite Ev. cbn. rewrite (IH ws' w more k); auto. cbn in L. lia.
Qed.

Lemma read_rows_stop k e : forall rows l bad rest,
  (forall ns l, In (ns, l) rows -> exists ws more, List.length ns = k /\ written l (ws ++ more) /\ Forall2 number_word ns ws) ->
  hd_error (map snd rows ++ bad) = Some l ->
  (forall b r, bad = b :: r -> read_rows k (List.length (split b)) (split b) (r ++ rest) = Err e) -> (bad = [] -> rest = [] /\ e = IndexError) ->
  read_rows k (List.length (split l)) (split l) (tl (map snd rows ++ bad) ++ rest) = Err e.
Proof.
  induction rows as [|[ns l0] rows IH]; intros l bad rest H E HB HN.
  - cbn in E |- *. destruct bad as [|b r]; [discriminate|]. inversion E; subst. cbn. now apply HB.
  - cbn in E. inversion E; subst l0. destruct (H ns l (or_introl eq_refl)) as (ws & more & Ln & W & F). rewrite (split_written _ _ W). cbn [map snd tl app].
    assert (Lw : List.length ns = List.length ws) by (clear - F; induction F; cbn; congruence).
    destruct (read_row_ok ns ws more F) as (r & Rr & Hr). rewrite Ln in Rr.
    assert (K : (k <=? List.length (ws ++ more)) = true) by (apply Nat.leb_le; rewrite app_length; lia).
    destruct (map snd rows ++ bad) as [|l1 r1] eqn:Er.
    + apply app_eq_nil in Er as [_ ->]. destruct (HN eq_refl) as [-> ->]. cbn [app read_rows]. now rewrite K, Rr.
    + specialize (IH l1 bad rest). rewrite Er in IH. cbn [app read_rows]. rewrite K, Rr. cbn [rbind]. cbn [tl] in IH. rewrite IH; auto. intros; apply H; now right.
Qed.

Lemma matrix_err name k header w ws rows bad rest vars e : width name = Some k -> written header (w :: ws) -> heads w (mpc name) -> List.length (w :: ws) <= k ->
  (forall ns l, In (ns, l) rows -> exists ws more, List.length ns = k /\ written l (ws ++ more) /\ Forall2 number_word ns ws) ->
  (forall b r, bad = b :: r -> read_rows k (List.length (split b)) (split b) (r ++ rest) = Err e) -> (bad = [] -> rest = [] /\ e = IndexError) ->
  read_line header (map snd rows ++ bad ++ rest) vars = Err e.
Proof.
  intros Wd W Hd L H HB HN. unfold read_line. rewrite (split_written _ _ W). destruct (find_table _ _ Wd) as (Ef & Ek & _). destruct (heads_before _ _ Hd) as (eq & -> & _). rewrite Ef, Ek.
  unfold read_table. destruct (Nat.ltb_spec k (List.length (w :: ws))); [lia|]. rewrite app_assoc. destruct (map snd rows ++ bad) as [|l1 r1] eqn:Er.
  - apply app_eq_nil in Er as [_ ->]. destruct (HN eq_refl) as [-> ->]. reflexivity.
  - pose proof (read_rows_stop k e rows l1 bad rest H) as R. rewrite Er in R. cbn [app tl] in *. rewrite R; auto.
Qed.
