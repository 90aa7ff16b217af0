(** Rows while several tables are open, and words that are no whole numbers. *)
From Coq Require Import List String Ascii Bool Arith ZArith QArith Lia.
From Verif Require Import Base Container GraphDataProofs NumeralSpec NumeralProofs Reader MatFile MatFileSpec MatFileProofs
  Converter ConverterSpec ConverterProofs ConverterFile ConverterInv ConverterMore.
Import ListNotations.
Open Scope string_scope.
Open Scope nat_scope.
Open Scope list_scope.

Local Ltac sp := repeat match goal with |- _ /\ _ => split end.

Lemma bind_inv {A B} (m : res A) (k : A -> res B) x : rbind m k = Ok x -> exists a, m = Ok a /\ k a = Ok x.
Proof. destruct m; [eauto|discriminate]. Qed.

Lemma bind_to {A B} (m : res A) (k : A -> res B) a x : m = Ok a -> k a = Ok x -> rbind m k = Ok x.
Proof. now intros -> <-. Qed.

Section Copy.
Variable V : variant.

Lemma table_header name h rest fl c : layout name <> None -> begins (mpc name) h -> convert_lines V (h :: rest) fl c = convert_lines V rest (open (matrix_head name) fl) c.
Proof.
  intros L (ws & W). cbn [convert_lines]. rewrite (split_written _ _ W). destruct (layout name) as [cols|] eqn:E; [|contradiction].
  destruct (layout_name name cols E) as [->|[->| ->]]; reflexivity.
Qed.

Definition opened (names : list string) (fl : flags) : flags := fold_left (fun fl n => open (matrix_head n) fl) names fl.

Lemma table_headers names hs rest c : Forall2 (fun n h => layout n <> None /\ begins (mpc n) h) names hs -> forall fl, convert_lines V (hs ++ rest) fl c = convert_lines V rest (opened names fl) c.
Proof. induction 1 as [|n h names hs (L & B) F IH]; intros fl; cbn [app opened fold_left]; [reflexivity|]. rewrite (table_header n) by auto. apply IH. Qed.

Lemma opened_flags names : Forall (fun n => layout n <> None) names -> forall fl, opened names fl =
  mkFlags (f_bus fl || existsb (String.eqb "bus") names) (f_gen fl || existsb (String.eqb "gen") names) (f_branch fl || existsb (String.eqb "branch") names) (f_cost fl) (f_dp fl) (f_dq fl).
Proof.
  induction 1 as [|n names L F IH]; intros fl; cbn [opened fold_left existsb].
  - rewrite !orb_false_r. now destruct fl.
  - fold (opened names (open (matrix_head n) fl)). rewrite IH. destruct (layout n) as [cols|] eqn:E; [|contradiction]. destruct fl as [a b c d e f].
    destruct (layout_name n cols E) as [->|[->| ->]]; cbn; rewrite ?orb_true_r; reflexivity.
Qed.

(** One row of one table. *)
Lemma one_row name cols rows0 c r l : layout name = Some cols -> row_ok (v_truncates V) cols r l -> holds_rows cols rows0 (the_table name c) -> (name = "bus" -> slack_is rows0 (k_slack c)) ->
  exists c', rows V (split l) (open (matrix_head name) no_flags) c = Ok (open (matrix_head name) no_flags, c') /\ holds_rows cols (rows0 ++ [r]) (the_table name c').
Proof.
  intros L R H S. destruct (matrix_step V name cols rows0 c L r l [] c R) as (c' & E & P).
  - rewrite List.app_nil_r. sp; auto. unfold same_but. sp; auto.
  - exists c'. split; auto. now destruct P as (_ & P & _).
Qed.

Lemma open_row names ss c l R : holds_file V ss c -> names <> [] -> Forall (fun n => layout n <> None) names ->
  (forall n cols, In n names -> layout n = Some cols -> row_ok (v_truncates V) cols (R n) l) ->
  quiet V l /\ exists c', rows V (split l) (opened names no_flags) c = Ok (opened names no_flags, c') /\
  forall n cols, layout n = Some cols -> holds_rows cols (rows_of n ss ++ (if existsb (String.eqb n) names then [R n] else [])) (the_table n c').
Proof.
  intros (_ & SL & HT & _) NE F RO.
  assert (Q : exists w ws, split l = w :: ws /\ ~ In "m"%char w /\ ~ In "]"%char w).
  { destruct names as [|n names]; [contradiction|]. inversion F as [|? ? Ln _]; subst. destruct (layout n) as [cols|] eqn:E; [|contradiction]. specialize (RO n cols (or_introl eq_refl) E).
    destruct (row_words V cols (R n) l (proj2 (layout_two n cols E)) RO) as (w & ws & more & Es & A & B & _). exists w, (ws ++ more). auto. }
  destruct Q as (w & ws & Es & NM & NB). split; [unfold quiet; rewrite Es; now apply head_none|].
  assert (One : forall n cols, In n names -> layout n = Some cols -> exists c', rows V (split l) (open (matrix_head n) no_flags) c = Ok (open (matrix_head n) no_flags, c') /\ holds_rows cols (rows_of n ss ++ [R n]) (the_table n c')).
  { intros n cols I L. apply one_row; auto. intros ->. exact SL. }
  rewrite (opened_flags names F). cbn [f_bus f_gen f_branch f_cost f_dp f_dq no_flags orb]. rewrite Es in *. rewrite rows_not_closing by auto. cbn [f_bus f_gen f_branch f_cost f_dp f_dq].
  assert (B1 : exists bs, (if existsb (String.eqb "bus") names then bus_row V (w :: ws) (k_bus c, k_slack c) else Ok (k_bus c, k_slack c)) = Ok bs /\
     forall cols, layout "bus" = Some cols -> holds_rows cols (rows_of "bus" ss ++ (if existsb (String.eqb "bus") names then [R "bus"] else [])) (fst bs)).
  { destruct (existsb (String.eqb "bus") names) eqn:X.
    - apply existsb_exists in X as (n & I & X). apply String.eqb_eq in X. subst n. destruct (One "bus" _ I eq_refl) as (c' & E & H). rewrite rows_not_closing in E by auto. change (matrix_head "bus") with HBus in E. cbn [open no_flags f_bus f_gen f_branch f_cost f_dp f_dq rbind] in E.
      apply bind_inv in E as (bs & BE & E). exists bs. split; [exact BE|]. intros cols L. injection L as <-. cbn [rbind fst snd] in E. injection E as <-. exact H.
    - eexists. split; [reflexivity|]. intros cols L. rewrite List.app_nil_r. apply (HT "bus" cols L). }
  assert (B2 : exists g, (if existsb (String.eqb "gen") names then gen_row V (w :: ws) (k_gen c) else Ok (k_gen c)) = Ok g /\
     forall cols, layout "gen" = Some cols -> holds_rows cols (rows_of "gen" ss ++ (if existsb (String.eqb "gen") names then [R "gen"] else [])) g).
  { destruct (existsb (String.eqb "gen") names) eqn:X.
    - apply existsb_exists in X as (n & I & X). apply String.eqb_eq in X. subst n. destruct (One "gen" _ I eq_refl) as (c' & E & H). rewrite rows_not_closing in E by auto. change (matrix_head "gen") with HGen in E. cbn [open no_flags f_bus f_gen f_branch f_cost f_dp f_dq rbind] in E.
      apply bind_inv in E as (g & BE & E). exists g. split; [exact BE|]. intros cols L. injection L as <-. cbn [rbind fst snd] in E. injection E as <-. exact H.
    - eexists. split; [reflexivity|]. intros cols L. rewrite List.app_nil_r. apply (HT "gen" cols L). }
  assert (B3 : exists b, (if existsb (String.eqb "branch") names then branch_row V (w :: ws) (k_branch c) else Ok (k_branch c)) = Ok b /\
     forall cols, layout "branch" = Some cols -> holds_rows cols (rows_of "branch" ss ++ (if existsb (String.eqb "branch") names then [R "branch"] else [])) b).
  { destruct (existsb (String.eqb "branch") names) eqn:X.
    - apply existsb_exists in X as (n & I & X). apply String.eqb_eq in X. subst n. destruct (One "branch" _ I eq_refl) as (c' & E & H). rewrite rows_not_closing in E by auto. change (matrix_head "branch") with HBranch in E. cbn [open no_flags f_bus f_gen f_branch f_cost f_dp f_dq rbind] in E.
      apply bind_inv in E as (b & BE & E). exists b. split; [exact BE|]. intros cols L. injection L as <-. cbn [rbind fst snd] in E. injection E as <-. exact H.
    - eexists. split; [reflexivity|]. intros cols L. rewrite List.app_nil_r. apply (HT "branch" cols L). }
  destruct B1 as (bs & B1 & H1), B2 as (g & B2 & H2), B3 as (b & B3 & H3). eexists. split; [eapply bind_to; [exact B1|]; eapply bind_to; [exact B2|]; eapply bind_to; [exact B3|]; reflexivity|].
  intros n cols L. destruct (layout_name n cols L) as [->|[->| ->]]; [apply H1|apply H2|apply H3]; exact L.
Qed.

(** ** Infinite whole numbers *)

Lemma infinite_int neg : read_int (entry_text (Infinite neg)) = Err ValueError.
Proof. destruct neg; reflexivity. Qed.
Lemma infinite_whole neg : read_whole V (entry_text (Infinite neg)) = Err ValueError.
Proof. unfold read_whole. destruct (v_truncates V); [|apply infinite_int]. destruct neg; reflexivity. Qed.
End Copy.

(** ** int() *)

Definition joined (gs : list text) : text := match gs with [] => [] | g :: r => g ++ flat_map (fun g => "_"%char :: g) r end.
Definition group (g : text) : Prop := g <> [] /\ forallb is_digit g = true.

Lemma digit_no_underscore a : is_digit a = true -> Ascii.eqb a "_" = false.
Proof. intros D. destruct (Ascii.eqb_spec a "_"); auto. subst. discriminate. Qed.

Lemma drop_digits g : forall p rest, g <> [] -> forallb is_digit g = true -> drop_underscores p (g ++ rest) = match drop_underscores true rest with Some t => Some (g ++ t) | None => None end.
Proof.
  induction g as [|a g IH]; intros p rest N D; [contradiction|]. cbn [forallb] in D. apply andb_true_iff in D as (D1 & D2). cbn [app drop_underscores]. rewrite (digit_no_underscore a D1), D1.
  destruct g as [|b g]; [cbn [app]; destruct (drop_underscores true rest); reflexivity|]. rewrite IH by (auto; discriminate). now destruct (drop_underscores true rest).
Qed.

Lemma drop_joined gs : Forall group gs -> forall p, drop_underscores p (joined gs) = Some (List.concat gs).
Proof.
  intros F p. destruct F as [|g gs (N & D) F]; [reflexivity|]. cbn [joined List.concat]. rewrite drop_digits by auto.
  assert (G : drop_underscores true (flat_map (fun g => "_"%char :: g) gs) = Some (List.concat gs)); [|now rewrite G].
  clear N D. induction F as [|g' gs (N & D) F IH]; [reflexivity|]. cbn [flat_map List.concat app drop_underscores]. change (Ascii.eqb "_" "_") with true. cbn match.
  destruct g' as [|a g']; [contradiction|]. cbn [app andb]. assert (Da : is_digit a = true) by (cbn [forallb] in D; now apply andb_true_iff in D). rewrite Da.
  change (a :: g' ++ flat_map (fun g => "_"%char :: g) gs) with ((a :: g') ++ flat_map (fun g => "_"%char :: g) gs). rewrite drop_digits by auto. now rewrite IH.
Qed.

Lemma drop_digits_only w : forall p l, drop_underscores p w = Some l -> forallb is_digit l = true ->
  (w = [] /\ l = []) \/ exists gs, gs <> [] /\ Forall group gs /\ l = List.concat gs /\ (w = joined gs \/ (p = true /\ w = "_"%char :: joined gs)).
Proof.
  induction w as [|a w IH]; intros p l E D; cbn [drop_underscores] in E; [injection E as <-; auto|]. right. destruct (Ascii.eqb_spec a "_") as [->|N].
  - destruct (p && match w with b :: _ => is_digit b | [] => false end) eqn:B; [|discriminate]. apply andb_true_iff in B as (-> & B). destruct (IH false l E D) as [(-> & ->)|(gs & Ng & F & -> & [->|(X & _)])]; try discriminate.
    exists gs. sp; auto.
  - destruct (drop_underscores (is_digit a) w) as [t|] eqn:E'; [|discriminate]. injection E as <-. cbn [forallb] in D. apply andb_true_iff in D as (D1 & D2). destruct (IH _ _ E' D2) as [(-> & ->)|(gs & Ng & F & -> & [->|(_ & ->)])].
    + exists [[a]]. sp; [discriminate|constructor; [split; [discriminate|cbn; now rewrite D1]|constructor]|reflexivity|now left].
    + destruct gs as [|g gs]; [contradiction|]. inversion F as [|? ? (Ng' & Dg) F']; subst. exists ((a :: g) :: gs). sp; [discriminate|constructor; auto; split; [discriminate|cbn [forallb]; now rewrite D1]|reflexivity|now left].
    + exists ([a] :: gs). sp; [discriminate|constructor; auto; split; [discriminate|cbn; now rewrite D1]|reflexivity|left]. destruct gs as [|g gs]; [contradiction|]. reflexivity.
Qed.

Lemma concat_groups gs : Forall group gs -> forallb is_digit (List.concat gs) = true.
Proof. induction 1 as [|g gs (_ & D) F IH]; [reflexivity|]. cbn [List.concat]. now rewrite forallb_app, D, IH. Qed.

(** The words int() takes: a sign, groups of digits, underscores between them. *)
Lemma read_int_words w z : read_int w = Ok z <-> exists sg neg gs, w = sg ++ joined gs /\ (sg = ["-"%char] /\ neg = true \/ (sg = ["+"%char] \/ sg = []) /\ neg = false) /\ gs <> [] /\ Forall group gs /\
  z = signed neg (digits_value (List.concat gs)).
Proof.
  split.
  - unfold read_int. destruct (drop_underscores false w) as [l|] eqn:E; [|discriminate]. destruct (sign l) as (neg, u) eqn:Sg. destruct (all_digits u) eqn:A; [|discriminate]. intros X. injection X as <-.
    assert (Au : u <> [] /\ forallb is_digit u = true) by (unfold all_digits in A; destruct u; [discriminate|split; [discriminate|exact A]]). destruct Au as (Nu & Du).
    assert (Signs : forall a, is_digit a = false -> a <> "_"%char -> l = a :: u -> exists gs, w = a :: joined gs /\ gs <> [] /\ Forall group gs /\ u = List.concat gs).
    { intros a Da Na ->. destruct w as [|a' w]; cbn [drop_underscores] in E; [discriminate|]. destruct (Ascii.eqb_spec a' "_") as [->|]; [cbn [andb] in E; discriminate|].
      destruct (drop_underscores (is_digit a') w) as [t|] eqn:E'; [|discriminate]. injection E as -> ->. rewrite Da in E'. destruct (drop_digits_only w false u E' Du) as [(_ & ->)|(gs & Ng & F & -> & [->|(X & _)])]; [contradiction| |discriminate].
      exists gs. sp; auto. }
    unfold sign in Sg. destruct l as [|a r]; [injection Sg as <- <-; contradiction|]. destruct (Ascii.eqb_spec a "-") as [->|N1].
    + injection Sg as <- <-. destruct (Signs "-"%char) as (gs & -> & Ng & F & ->); auto; [discriminate|]. exists ["-"%char], true, gs. sp; auto.
    + destruct (Ascii.eqb_spec a "+") as [->|N2].
      * injection Sg as <- <-. destruct (Signs "+"%char) as (gs & -> & Ng & F & ->); auto; [discriminate|]. exists ["+"%char], false, gs. sp; auto.
      * injection Sg as <- <-. destruct (drop_digits_only w false _ E Du) as [(_ & X)|(gs & Ng & F & X & [->|(Y & _)])]; [contradiction| |discriminate]. exists [], false, gs. rewrite X. sp; auto.
  - intros (sg & neg & gs & -> & S & Ng & F & ->).
    assert (First : exists a r, List.concat gs = a :: r /\ is_digit a = true).
    { destruct F as [|g gs (N & D) F]; [contradiction|]. destruct g as [|a g]; [contradiction|]. cbn [List.concat app]. exists a, (g ++ List.concat gs). split; auto. cbn [forallb] in D. now apply andb_true_iff in D. }
    assert (A : all_digits (List.concat gs) = true) by (pose proof (concat_groups gs F) as D; destruct First as (a & r & E & _); rewrite E in *; exact D).
    unfold read_int. destruct S as [(-> & ->)|([-> | ->] & ->)].
    + cbn [app drop_underscores]. change (Ascii.eqb "-" "_") with false. cbn match. rewrite (drop_joined gs F). cbn [sign]. change (Ascii.eqb "-" "-") with true. cbn match. now rewrite A.
    + cbn [app drop_underscores]. change (Ascii.eqb "+" "_") with false. cbn match. rewrite (drop_joined gs F). cbn [sign]. change (Ascii.eqb "+" "-") with false. change (Ascii.eqb "+" "+") with true. cbn match. now rewrite A.
    + cbn [app]. rewrite (drop_joined gs F). destruct First as (a & r & E & Da). assert (Sn : sign (List.concat gs) = (false, List.concat gs)).
      { rewrite E. cbn [sign]. destruct (Ascii.eqb_spec a "-") as [->|]; [discriminate|]. destruct (Ascii.eqb_spec a "+") as [->|]; [discriminate|]. reflexivity. }
      rewrite Sn, A. reflexivity.
Qed.

Lemma digit_of a : is_digit a = true -> exists d, d < 10 /\ a = digit_char d.
Proof.
  unfold is_digit, digit_char. intros E. apply andb_true_iff in E as (E1 & E2). apply Nat.leb_le in E1, E2. exists (nat_of_ascii a - 48). split; [lia|].
  replace (48 + (nat_of_ascii a - 48)) with (nat_of_ascii a) by lia. now rewrite ascii_nat_embedding.
Qed.

Lemma digits_of g : forallb is_digit g = true -> exists ds, digits ds /\ g = map digit_char ds.
Proof.
  induction g as [|a g IH]; intros E; [exists []; split; [constructor|reflexivity]|]. cbn [forallb] in E. apply andb_true_iff in E as (E1 & E2). destruct (digit_of a E1) as (d & L & ->), (IH E2) as (ds & D & ->).
  exists (d :: ds). split; [now constructor|reflexivity].
Qed.

Lemma groups_of gs : Forall group gs -> exists dss, Forall (fun g => digits g /\ g <> []) dss /\ gs = map (map digit_char) dss.
Proof.
  induction 1 as [|g gs (N & D) F (dss & Fd & ->)]; [exists []; split; [constructor|reflexivity]|]. destruct (digits_of g D) as (ds & Dd & ->). exists (ds :: dss). split; [|reflexivity].
  constructor; auto. split; auto. intros ->. now apply N.
Qed.

Lemma concat_map_digits dss : List.concat (map (map digit_char) dss) = map digit_char (List.concat dss).
Proof. induction dss as [|d dss IH]; [reflexivity|]. cbn [map List.concat]. now rewrite IH, map_app. Qed.

Lemma joined_digits g gs : joined (map (map digit_char) (g :: gs)) = map digit_char g ++ flat_map (fun g => "_"%char :: map digit_char g) gs.
Proof. cbn [map joined]. f_equal. induction gs as [|a gs IH]; [reflexivity|]. cbn [map flat_map]. now rewrite IH. Qed.

Lemma digits_concat gs : Forall (fun g => digits g /\ g <> []) gs -> digits (List.concat gs).
Proof. induction 1 as [|g gs (D & _) F IH]; [constructor|]. cbn [List.concat]. apply Forall_app. auto. Qed.

Lemma read_int_word w z : read_int w = Ok z <-> int_word w z.
Proof.
  rewrite read_int_words. unfold int_word. split.
  - intros (sg & neg & gs & -> & S & N & F & ->). destruct (groups_of gs F) as (dss & Fd & ->). destruct dss as [|g gs]; [contradiction|]. exists sg, neg, g, gs. sp; auto; [now rewrite joined_digits|].
    rewrite concat_map_digits, digits_value_text by (now apply digits_concat). now destruct neg.
  - intros (sg & neg & g & gs & S & F & -> & ->). exists sg, neg, (map (map digit_char) (g :: gs)). rewrite joined_digits. sp; auto; [discriminate| |].
    + apply Forall_map. apply Forall_forall. intros d I. rewrite Forall_forall in F. destruct (F d I) as (D & N). split; [destruct d; [contradiction|discriminate]|now apply digits_all].
    + rewrite concat_map_digits, digits_value_text by (now apply digits_concat). now destruct neg.
Qed.

(** ** The first word of a row *)

Section First.
Variable V : variant.

Lemma not_header w ws : ~ In w (headers V) -> head_of V (w :: ws) = HNone.
Proof.
  intros N. assert (X : forall s, In (word_of s) (headers V) -> text_eqb w (word s) = false) by (intros s I; apply text_eqb_false; intros ->; contradiction).
  unfold head_of. rewrite !X by (cbn; auto 8). destruct (v_demands V) eqn:D; [|reflexivity]. rewrite !X by (unfold headers; rewrite D; cbn; auto 10). reflexivity.
Qed.

Lemma first_word_row name cols c w ws fl : layout name = Some cols -> holds_rows cols fl (the_table name c) -> w <> word_of "];" -> 
  match read_whole V w with
  | Err e => rows V (w :: ws) (open (matrix_head name) no_flags) c = Err e
  | Ok z => ws = [] -> exists c', rows V [w] (open (matrix_head name) no_flags) c = Ok (open (matrix_head name) no_flags, c') /\
      forall vs, d_get (first_column name) (the_table name c) = Some vs -> d_get (first_column name) (the_table name c') = Some (vs ++ [VI z])
  end.
Proof.
  intros L (_ & H) NC.
  assert (CL : forall us, closes (w :: us) = false) by (intros us; unfold closes; now apply text_eqb_false).
  assert (G : exists vs, d_get (first_column name) (the_table name c) = Some vs) by (destruct (layout_name name cols L) as [->|[->| ->]]; injection L as <-; destruct (H 0 _ _ eq_refl) as (vs & G & _); exists vs; exact G).
  destruct G as (vs & G). clear H.
  destruct (read_whole V w) as [z|e] eqn:R.
  - intros ->. destruct (layout_name name cols L) as [->|[->| ->]]; clear L; unfold rows; rewrite CL; cbn [matrix_head String.eqb Ascii.eqb Bool.eqb open no_flags f_bus f_gen f_branch f_cost f_dp f_dq];
    change (the_table "bus" c) with (k_bus c) in *; change (the_table "gen" c) with (k_gen c) in *; change (the_table "branch" c) with (k_branch c) in *.
    + change (first_column "bus") with "BUS_I" in *.
      assert (B : bus_row V [w] (k_bus c, k_slack c) = Ok (d_set "BUS_I" (vs ++ [VI z]) (k_bus c), k_slack c)).
      { unfold bus_row, bus_columns. cbn [combine foldM String.eqb Ascii.eqb Bool.eqb]. unfold cell. cbn [String.eqb Ascii.eqb Bool.eqb existsb orb]. rewrite R. cbn [rbind fst snd]. unfold append. rewrite G. reflexivity. }
      eexists. split; [eapply bind_to; [exact B|]; reflexivity|]. intros vs' G'. rewrite G in G'. injection G' as <-. change (the_table "bus" ?k) with (k_bus k). cbn [k_bus fst]. rewrite ContainerProofs.d_get_set. reflexivity.
    + change (first_column "gen") with "GEN_BUS" in *.
      assert (B : gen_row V [w] (k_gen c) = Ok (d_set "GEN_BUS" (vs ++ [VI z]) (k_gen c))).
      { unfold gen_row, read_row, gen_columns. cbn [combine foldM fst snd]. unfold cell. cbn [String.eqb Ascii.eqb Bool.eqb existsb orb]. rewrite R. cbn [rbind fst snd]. unfold append. rewrite G. reflexivity. }
      eexists. split; [cbn [rbind]; eapply bind_to; [exact B|]; reflexivity|]. intros vs' G'. rewrite G in G'. injection G' as <-. change (the_table "gen" ?k) with (k_gen k). cbn [k_gen fst]. rewrite ContainerProofs.d_get_set. reflexivity.
    + change (first_column "branch") with "F_BUS" in *.
      assert (B : branch_row V [w] (k_branch c) = Ok (d_set "F_BUS" (vs ++ [VI z]) (k_branch c))).
      { unfold branch_row, read_row, branch_columns. cbn [combine foldM fst snd]. unfold cell. cbn [String.eqb Ascii.eqb Bool.eqb existsb orb]. rewrite R. cbn [rbind fst snd]. unfold append. rewrite G. reflexivity. }
      eexists. split; [cbn [rbind]; eapply bind_to; [exact B|]; reflexivity|]. intros vs' G'. rewrite G in G'. injection G' as <-. change (the_table "branch" ?k) with (k_branch k). cbn [k_branch fst]. rewrite ContainerProofs.d_get_set. reflexivity.
  - assert (BE : forall {A B} (m : res A) (k : A -> res B), m = Err e -> rbind m k = Err e) by (now intros A B m k ->).
    destruct (layout_name name cols L) as [->|[->| ->]]; clear L; unfold rows; rewrite CL; cbn [matrix_head String.eqb Ascii.eqb Bool.eqb open no_flags f_bus f_gen f_branch f_cost f_dp f_dq].
    + apply BE. unfold bus_row, bus_columns. cbn [combine foldM String.eqb Ascii.eqb Bool.eqb]. unfold cell at 1. cbn [String.eqb Ascii.eqb Bool.eqb existsb orb]. rewrite R. reflexivity.
    + rewrite bind_ok. cbv beta. apply BE. unfold gen_row, read_row, gen_columns. cbn [combine foldM fst snd]. unfold cell at 1. cbn [String.eqb Ascii.eqb Bool.eqb existsb orb]. rewrite R. reflexivity.
    + rewrite !bind_ok. cbv beta. apply BE. unfold branch_row, read_row, branch_columns. cbn [combine foldM fst snd]. unfold cell at 1. cbn [String.eqb Ascii.eqb Bool.eqb existsb orb]. rewrite R. reflexivity.
Qed.

(** The first word of the first row of a table. *)
Lemma first_word_bad ss name h l w ws rest e : Forall (section_ok V) ss -> layout name <> None -> begins (mpc name) h -> written l (w :: ws) -> ~ In w (headers V) -> w <> word_of "];" ->
  read_whole V w = Err e -> convert V (flat_map section_lines ss ++ h :: l :: rest) = Err e.
Proof.
  intros F L B W NH NC R. destruct (convert_prefix V ss F) as (c & E & H). rewrite E. rewrite (table_header V name) by auto. destruct (layout name) as [cols|] eqn:EL; [|contradiction].
  assert (Q : quiet V l) by (unfold quiet; rewrite (split_written _ _ W); now apply not_header). rewrite (quiet_line V _ _ _ _ Q), (split_written _ _ W).
  destruct H as (_ & _ & HT & _). pose proof (first_word_row name cols c w ws _ EL (HT name cols EL) NC) as X. rewrite R in X. now rewrite X.
Qed.

Lemma first_word_good ss name h l w z : Forall (section_ok V) ss -> layout name <> None -> begins (mpc name) h -> written l [w] -> ~ In w (headers V) -> w <> word_of "];" ->
  read_whole V w = Ok z -> exists c c' vs, convert V (flat_map section_lines ss) = Ok c /\ convert V (flat_map section_lines ss ++ [h; l]) = Ok c' /\
  d_get (first_column name) (the_table name c) = Some vs /\ d_get (first_column name) (the_table name c') = Some (vs ++ [VI z]).
Proof.
  intros F L B W NH NC R. destruct (convert_prefix V ss F) as (c & E & H). rewrite E. rewrite (table_header V name) by auto. destruct (layout name) as [cols|] eqn:EL; [|contradiction].
  assert (Q : quiet V l) by (unfold quiet; rewrite (split_written _ _ W); now apply not_header). rewrite (quiet_line V _ _ _ _ Q), (split_written _ _ W).
  destruct H as (_ & _ & HT & _). pose proof (first_word_row name cols c w [] _ EL (HT name cols EL) NC) as X. rewrite R in X. destruct (X eq_refl) as (c' & X' & G). rewrite X'.
  assert (G0 : exists vs, d_get (first_column name) (the_table name c) = Some vs) by (destruct (HT name cols EL) as (_ & T); destruct (layout_name name cols EL) as [->|[->| ->]]; injection EL as <-; destruct (T 0 _ _ eq_refl) as (vs & G0 & _); exists vs; exact G0).
  destruct G0 as (vs & G0). exists c, c', vs. sp; auto. specialize (E []). now rewrite List.app_nil_r in E.
Qed.
End First.

Lemma int_word_chars w z : int_word w z -> w <> [] /\ Forall (fun a => a = "-"%char \/ a = "+"%char \/ a = "_"%char \/ is_digit a = true) w.
Proof.
  intros (sg & neg & g & gs & S & F & -> & _). inversion F as [|? ? (D & N) F']; subst. split.
  - destruct g as [|d g]; [contradiction|]. destruct sg; discriminate.
  - assert (X : forall g, digits g -> Forall (fun a => a = "-"%char \/ a = "+"%char \/ a = "_"%char \/ is_digit a = true) (map digit_char g)).
    { intros g0 D0. pose proof (digits_all g0 D0) as A. rewrite forallb_forall in A. apply Forall_forall. intros a I. auto. }
    apply Forall_app. split; [destruct S as [(-> & _)|([->| ->] & _)]; [apply Forall_cons; auto|apply Forall_cons; auto|auto]|]. apply Forall_app. split; [auto|]. clear - F' X. induction F' as [|g' gs (D & _) F IH]; [constructor|]. cbn [flat_map app]. constructor; auto. apply Forall_app. auto.
Qed.
