(** PSS/E raw files: whole files, and files that are rejected. *)
From Coq Require Import List String Ascii Bool Arith ZArith QArith Qminmax Lqa Lia.
From Verif Require Import Base GraphDataProofs Reader NumeralSpec NumeralProofs MatFile Converter ConverterSpec ConverterProofs ConverterMore Psse PsseSpec PsseProofs PsseRead.
Import ListNotations.
Open Scope string_scope.
Open Scope nat_scope.
Open Scope list_scope.

Local Ltac sp := repeat match goal with |- _ /\ _ => split end.

(** ** A quote in a number *)

Lemma take_keeps a : is_digit a = false -> forall l d t, take_digits l = (d, t) -> In a l -> In a t.
Proof.
  intros D. induction l as [|b l IH]; intros d t E I; [destruct I|]. cbn [take_digits] in E. destruct (is_digit b) eqn:B.
  - destruct (take_digits l) as (d', t') eqn:T. injection E as <- <-. destruct I as [->|I]; [congruence|]. eapply IH; eauto.
  - injection E as <- <-. exact I.
Qed.
Lemma sign_keeps a l : a <> "-"%char -> a <> "+"%char -> In a l -> In a (snd (sign l)).
Proof.
  intros N1 N2 I. destruct l as [|b l]; [destruct I|]. cbn [sign]. destruct (Ascii.eqb_spec b "-") as [->|]; [destruct I; [congruence|auto]|]. destruct (Ascii.eqb_spec b "+") as [->|]; [destruct I; [congruence|auto]|exact I].
Qed.
Lemma all_digits_not a l : is_digit a = false -> In a l -> all_digits l = false.
Proof. intros D I. unfold all_digits. destruct l as [|b u]; [reflexivity|]. destruct (forallb is_digit (b :: u)) eqn:F; [|reflexivity]. rewrite forallb_forall in F. apply F in I. congruence. Qed.
Lemma quote_float w : In "'"%char w -> read_float w = Err ValueError.
Proof.
  intros I. unfold read_float. destruct (drop_underscores false w) as [l|] eqn:E; [|reflexivity]. pose proof (drop_keeps _ w false l E I ltac:(discriminate)) as Il.
  pose proof (sign_keeps "'"%char l ltac:(discriminate) ltac:(discriminate) Il) as Iu. destruct (sign l) as (neg, u). cbn [snd] in Iu. cbv zeta.
  assert (Iv : In "'"%char (map lower u)) by (change "'"%char with (lower "'"%char); now apply in_map).
  assert (NV : forall s, ~ In "'"%char s -> text_eqb (map lower u) s = false) by (intros s N; apply text_eqb_false; intros X; apply N; now rewrite <- X).
  rewrite !NV by (cbn; intuition discriminate). cbn [orb]. destruct (take_digits u) as (i, r) eqn:T. pose proof (take_keeps "'"%char eq_refl _ _ _ T Iu) as Ir.
  destruct r as [|b r]; [destruct Ir|]. assert (G : exists f r2, (if Ascii.eqb b "." then take_digits r else ([], b :: r)) = (f, r2) /\ In "'"%char r2).
  { destruct (Ascii.eqb_spec b ".") as [->|].
    - destruct (take_digits r) as (f, r2) eqn:T2. exists f, r2. split; [reflexivity|]. eapply (take_keeps "'"%char eq_refl); [exact T2|]. destruct Ir; [discriminate|assumption].
    - exists [], (b :: r). auto. }
  destruct G as (f & r2 & G & I2). match goal with |- (let (_, _) := ?z in _) = _ => replace z with (f, r2) end. destruct (i ++ f); [reflexivity|]. destruct r2 as [|c r2]; [destruct I2|]. destruct (Ascii.eqb_spec (lower c) "e"); [|reflexivity].
  assert (I3 : In "'"%char r2) by (destruct I2 as [->|I2]; [discriminate|assumption]). apply (sign_keeps "'"%char) in I3; [|discriminate|discriminate]. destruct (sign r2) as (eneg, d). cbn [snd] in I3. now rewrite (all_digits_not "'"%char).
Qed.
Lemma skip_keeps a l : is_c_space a = false -> In a l -> In a (skip_blanks l).
Proof. intros N. induction l as [|b l IH]; intros I; [destruct I|]. cbn [skip_blanks]. destruct (is_c_space b) eqn:B; [|exact I]. destruct I as [->|I]; [congruence|auto]. Qed.
Lemma strip_keeps a l : is_c_space a = false -> In a l -> In a (strip l).
Proof. intros N I. unfold strip. rewrite <- in_rev. apply skip_keeps; [exact N|]. rewrite <- in_rev. now apply skip_keeps. Qed.
Lemma quote_field w : In "'"%char w -> float_of w = Err ValueError.
Proof. intros I. unfold float_of. now rewrite (quote_float (strip w)) by (now apply strip_keeps). Qed.

(** ** The buses *)

Lemma nodes_parsed f fc : nodes_part f fc -> 2 <= List.length (fi_buses f) -> exists ns, parse_nodes fc = Ok ns /\ Forall2 bus_is (fi_buses f) ns.
Proof.
  intros (l0 & l1 & l2 & bls & e & rest & -> & H & F & E) L. destruct F as [|b l bs bls B F]; [cbn in L; lia|]. cbn [app]. unfold parse_nodes. cbn [field nth_error rbind skipn].
  destruct (bus_node b l B) as (_ & b' & N & BI). rewrite N. cbn [rbind]. destruct (nodes_read bs bls e rest F E) as (bs' & NR & FB). rewrite NR. cbn [rbind].
  destruct FB as [|c c' bs bs' C FB]; [cbn in L; lia|]. eexists. split; [reflexivity|]. auto.
Qed.
Lemma nodes_prefix bs bls tail : Forall2 bus_line_is bs bls -> forall e, nodes tail = Err e -> nodes (bls ++ tail) = Err e.
Proof.
  intros F e E. induction F as [|b l bs bls H F IH]; [exact E|]. cbn [app nodes]. destruct (bus_node b l H) as (NE & b' & N & B). now rewrite NE, N, IH.
Qed.
(** A bus line whose third field holds a quote. *)
Lemma bad_bus w0 w1 w2 more z l : line_is l (w0 :: w1 :: w2 :: more) -> int_field w0 z -> In "'"%char w2 -> ends l = false /\ node l = Err ValueError.
Proof.
  intros L I Q. split; [eapply not_end; [|exact L|exact I]; discriminate|]. unfold node. rewrite (line_cut _ _ _ L). erewrite int_at_field; [|reflexivity|exact I]. cbn [rbind]. unfold float_at. cbn [field nth_error rbind]. now rewrite quote_field.
Qed.
Lemma bad_nodes l0 l1 l2 bs bls bad rest w0 w1 w2 more z : Forall2 bus_line_is bs bls -> line_is bad (w0 :: w1 :: w2 :: more) -> int_field w0 z -> In "'"%char w2 ->
  parse_nodes (l0 :: l1 :: l2 :: bls ++ bad :: rest) = Err ValueError.
Proof.
  intros F L I Q. destruct (bad_bus _ _ _ _ _ _ L I Q) as (NE & NB). unfold parse_nodes. destruct F as [|b l bs bls H F]; cbn [app field nth_error rbind skipn].
  - now rewrite NB.
  - destruct (bus_node b l H) as (_ & b' & N & _). rewrite N. cbn [rbind]. rewrite (nodes_prefix bs bls (bad :: rest) F ValueError); [reflexivity|]. cbn [nodes]. now rewrite NE, NB.
Qed.

(** ** Whole files *)

Section Root.
Variable root : Q -> Q.
Hypothesis ROOT : root_ok root.
Variable junk : row * row.

Lemma start_ok f fc : nodes_part f fc -> 2 <= List.length (fi_buses f) -> exists s ns,
  read_raw root junk fc = (do t <- parse_trafos root junk (s_base s) fc;
    Ok (mkRaw (if (Z.eqb (fi_version f) 31 || Z.eqb (fi_version f) 33 || Z.eqb (fi_version f) 34)%bool then Some (fi_version f) else None) s ns (t_conv t) (t_star t))) /\
  (s_base s == fi_base f)%Q /\ (s_frequency s == fi_freq f)%Q /\ s_trafo_units s = fi_tu f /\ s_other_units s = fi_ou f /\ Forall2 bus_is (fi_buses f) ns.
Proof.
  intros NP L. destruct (nodes_parsed f fc NP L) as (ns & EN & FN). destruct NP as (l0 & l1 & l2 & bls & e & rest & -> & H & F & E). destruct (header_system _ _ _ _ _ _ (l1 :: l2 :: bls ++ e :: rest) H) as (V & s & S0 & B & Fr & TU & OU).
  exists s, ns. sp; auto. unfold read_raw. rewrite V, S0, EN. reflexivity.
Qed.
Lemma trafos_at f fc : trafos_part f fc -> exists tls e rest, skipn first_trafo fc = List.concat tls ++ e :: rest /\ Forall2 trafo_lines (fi_trafos f) tls /\ end_line e.
Proof. intros (before & tls & e & rest & -> & L & F & E). exists tls, e, rest. sp; auto. rewrite <- L, skipn_app, skipn_all, Nat.sub_diag. reflexivity. Qed.
(** The rows before the first transformer of a kind are what np.empty(1) holds. *)
Definition or_junk (rs : list row) (j : row) : list row := match rs with [] => [j] | _ => rs end.
Lemma file_read f fc : nodes_part f fc -> trafos_part f fc -> 2 <= List.length (fi_buses f) -> Forall (sound_trafo root (fi_base f)) (fi_trafos f) -> exists w conv star,
  read_raw root junk fc = Ok w /\ w_version w = (if (Z.eqb (fi_version f) 31 || Z.eqb (fi_version f) 33 || Z.eqb (fi_version f) 34)%bool then Some (fi_version f) else None) /\
  (s_base (w_system w) == fi_base f)%Q /\ (s_frequency (w_system w) == fi_freq f)%Q /\ s_trafo_units (w_system w) = fi_tu f /\ s_other_units (w_system w) = fi_ou f /\
  Forall2 bus_is (fi_buses f) (w_nodes w) /\ w_conv w = or_junk conv (fst junk) /\ w_star w = or_junk star (snd junk) /\
  (forall k, rows_are root (fi_base f) k (filter is_two (fi_trafos f)) conv) /\ rows_are root (fi_base f) 1 (filter (fun t => negb (is_two t)) (fi_trafos f)) star.
Proof.
  intros NP TP L S0. destruct (start_ok f fc NP L) as (s & ns & ER & B & Fr & TU & OU & FN). destruct (trafos_at f fc TP) as (tls & e & rest & SK & F & E).
  destruct (read_ok root ROOT (fi_base f) (s_base s) B (fi_trafos f) tls e rest F S0 E (mkTrafos 0 0 [fst junk] [snd junk])) as (t' & conv & star & RT & C & D & RC & RS); [reflexivity|reflexivity|].
  unfold parse_trafos in ER. rewrite SK, RT in ER. cbn [rbind] in ER. eexists _, conv, star. split; [exact ER|]. cbn [w_version w_system w_nodes w_conv w_star]. cbn [t_two t_three t_conv t_star] in *.
  sp; auto.
Qed.
(** The transformers up to the first that stops the reader. *)
Lemma file_stops f fc pre b1 b2 b3 cz p q r post r12 x12 r23 x23 r31 x31 m : nodes_part f fc -> trafos_part f fc -> 2 <= List.length (fi_buses f) ->
  fi_trafos f = pre ++ Three b1 b2 b3 cz p q r :: post -> Forall (sound_trafo root (fi_base f)) pre -> sound (fi_base f) cz p -> sound (fi_base f) cz q -> sound (fi_base f) cz r ->
  impedance root (fi_base f) cz p r12 x12 -> impedance root (fi_base f) cz q r23 x23 -> impedance root (fi_base f) cz r r31 x31 -> least m x12 x23 x31 -> (m == 0)%Q ->
  read_raw root junk fc = Err ZeroDivisionError.
Proof.
  intros NP TP L EF S0 S1 S2 S3 I1 I2 I3 LM MZ. destruct (start_ok f fc NP L) as (s & ns & ER & B & _). destruct (trafos_at f fc TP) as (tls & e & rest & SK & F & E).
  rewrite EF in F. apply Forall2_app_inv_l in F as (tls1 & tls2 & F1 & F2 & ->). inversion F2 as [|? ls ? tls3 T F3]; subst. rewrite ER. unfold parse_trafos. rewrite SK, concat_app. cbn [List.concat]. rewrite <- !app_assoc.
  destruct (read_prefix root ROOT (fi_base f) (s_base s) B pre tls1 (ls ++ List.concat tls3 ++ e :: rest) F1 S0 (mkTrafos 0 0 [fst junk] [snd junk])) as (t' & _ & _ & RT & _); [reflexivity|reflexivity|]. rewrite RT.
  destruct (three_least root ROOT (fi_base f) (s_base s) B _ _ _ _ _ _ _ _ _ _ _ _ _ _ _ T S1 S2 S3 I1 I2 I3 LM) as (l0 & l1 & l2 & l3 & l4 & -> & EN & B3 & NZ & ZD & _).
  cbn [app read_trafos]. rewrite EN, B3. cbn [rbind]. rewrite (proj2 (Z.eqb_neq b3 0) NZ), (ZD MZ). reflexivity.
Qed.
Lemma file_two_stops f fc pre b1 b2 cz p post e : nodes_part f fc -> trafos_part f fc -> 2 <= List.length (fi_buses f) ->
  fi_trafos f = pre ++ Two b1 b2 cz p :: post -> Forall (sound_trafo root (fi_base f)) pre ->
  (forall base r x s, base == fi_base f -> r == p_r p -> x == p_x p -> s == p_s p -> to_base root base cz r x s = Err e)%Q -> read_raw root junk fc = Err e.
Proof.
  intros NP TP L EF S0 BAD. destruct (start_ok f fc NP L) as (s & ns & ER & B & _). destruct (trafos_at f fc TP) as (tls & en & rest & SK & F & E).
  rewrite EF in F. apply Forall2_app_inv_l in F as (tls1 & tls2 & F1 & F2 & ->). inversion F2 as [|? ls ? tls3 T F3]; subst. rewrite ER. unfold parse_trafos. rewrite SK, concat_app. cbn [List.concat]. rewrite <- !app_assoc.
  destruct (read_prefix root ROOT (fi_base f) (s_base s) B pre tls1 (ls ++ List.concat tls3 ++ en :: rest) F1 S0 (mkTrafos 0 0 [fst junk] [snd junk])) as (t' & _ & _ & RT & _); [reflexivity|reflexivity|]. rewrite RT.
  destruct (two_bad root (s_base s) b1 b2 cz p ls e T) as (l0 & l1 & l2 & l3 & -> & EN & B3 & ZD); [intros r x s'; now apply BAD|].
  cbn [app read_trafos]. rewrite EN, B3. cbn [rbind Z.eqb]. rewrite ZD. reflexivity.
Qed.
Lemma file_uncapped f fc b1 b2 b3 cz p q r r12 x12 r23 x23 r31 x31 m : nodes_part f fc -> trafos_part f fc -> 2 <= List.length (fi_buses f) ->
  fi_trafos f = [Three b1 b2 b3 cz p q r] -> sound (fi_base f) cz p -> sound (fi_base f) cz q -> sound (fi_base f) cz r ->
  impedance root (fi_base f) cz p r12 x12 -> impedance root (fi_base f) cz q r23 x23 -> impedance root (fi_base f) cz r r31 x31 -> least m x12 x23 x31 -> (m < 0)%Q ->
  exists w a b c, read_raw root junk fc = Ok w /\ w_star w = [a; b; c] /\ star_of (r_r a) (r_r b) (r_r c) r12 r23 r31 /\ star_of (r_x a) (r_x b) (r_x c) x12 x23 x31.
Proof.
  intros NP TP L EF S1 S2 S3 I1 I2 I3 LM MN. destruct (start_ok f fc NP L) as (s & ns & ER & B & _). destruct (trafos_at f fc TP) as (tls & e & rest & SK & F & E).
  rewrite EF in F. inversion F as [|? ls ? tls3 T F3]; subst. inversion F3; subst. unfold parse_trafos in ER. rewrite SK in ER. cbn [List.concat] in ER. rewrite List.app_nil_r in ER.
  destruct (three_least root ROOT (fi_base f) (s_base s) B _ _ _ _ _ _ _ _ _ _ _ _ _ _ _ T S1 S2 S3 I1 I2 I3 LM) as (l0 & l1 & l2 & l3 & l4 & -> & EN & B3 & NZ & _ & NEG).
  destruct (NEG MN 1 (e :: rest)) as (a & b & c & TW & SR & SX). cbn [app read_trafos] in ER. rewrite EN, B3 in ER. cbn [rbind] in ER. rewrite (proj2 (Z.eqb_neq b3 0) NZ) in ER. cbn [t_three] in ER. rewrite TW in ER. cbn [rbind] in ER.
  rewrite (end_ends e E) in ER. cbn [rbind t_conv t_star t_two t_three] in ER. eexists _, a, b, c. split; [exact ER|]. sp; auto.
Qed.
End Root.

