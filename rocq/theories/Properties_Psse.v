(** PSS/E raw files (PI:299-539). *)
From Coq Require Import List String Ascii Bool Arith ZArith QArith Qminmax Qabs Lqa Lia.
From Verif Require Import Base NumeralSpec MatFile Converter ConverterSpec ConverterProofs Psse PsseSpec PsseProofs PsseRead PsseFail PsseSample.
Import ListNotations.
Open Scope string_scope.
Open Scope nat_scope.
Open Scope list_scope.

Local Ltac sp := repeat match goal with |- _ /\ _ => split end.
Local Lemma id_ok : root_ok (fun q => q).
Proof. intros p q E. exact E. Qed.

Local Lemma rows_some root base k t ts rs : rows_are root base k (t :: ts) rs -> rs <> [].
Proof. intros (a & b & -> & R & _). pose proof (rows_nonempty _ _ _ _ _ R). destruct a; [congruence|discriminate]. Qed.
Local Lemma or_junk_some rs j : rs <> [] -> or_junk rs j = rs.
Proof. destruct rs; [congruence|reflexivity]. Qed.
Local Lemma filter_some {A} (p : A -> bool) x l : In x l -> p x = true -> exists y ys, filter p l = y :: ys.
Proof. intros I P. assert (J : In x (filter p l)) by (apply filter_In; auto). destruct (filter p l); [destruct J|eauto]. Qed.

(** ** C276 *)
(** A raw file with a header, two or more buses and, from line 14553 on, transformers of both kinds is read as it says: base,
    frequency, units, buses in order; a row for each transformer of two windings and three, of a star whose branches in
    series are the impedances of the pairs, for each of three windings. *)
Theorem C276_raw_file_read : forall root junk f fc, root_ok root -> nodes_part f fc -> trafos_part f fc -> 2 <= List.length (fi_buses f) ->
  Forall (sound_trafo root (fi_base f)) (fi_trafos f) -> (exists t, In t (fi_trafos f) /\ is_two t = true) -> (exists t, In t (fi_trafos f) /\ is_two t = false) ->
  exists w, read_raw root junk fc = Ok w /\
    (s_base (w_system w) == fi_base f)%Q /\ (s_frequency (w_system w) == fi_freq f)%Q /\ s_trafo_units (w_system w) = fi_tu f /\ s_other_units (w_system w) = fi_ou f /\
    Forall2 (fun b n => fst n = fst b /\ (snd n == snd b)%Q) (fi_buses f) (w_nodes w) /\
    exists conv star, written_rows w = conv ++ star /\ rows_are root (fi_base f) 1 (filter is_two (fi_trafos f)) conv /\
      rows_are root (fi_base f) 1 (filter (fun t => negb (is_two t)) (fi_trafos f)) star.
Proof.
  intros root junk f fc R NP TP L S0 (t & It & Tt) (u & Iu & Tu). destruct (file_read root R junk f fc NP TP L S0) as (w & conv & star & E & V & B & Fr & TU & OU & N & C & D & RC & RS).
  exists w. sp; auto. exists conv, star. sp; auto. unfold written_rows. rewrite C, D. f_equal; apply or_junk_some.
  - destruct (filter_some is_two t _ It Tt) as (y & ys & EY). specialize (RC 1). rewrite EY in RC. exact (rows_some _ _ _ _ _ _ RC).
  - destruct (filter_some (fun t => negb (is_two t)) u _ Iu (f_equal negb Tu)) as (y & ys & EY). rewrite EY in RS. exact (rows_some _ _ _ _ _ _ RS).
Qed.
Print Assumptions C276_raw_file_read.
(** A version that is supported is kept. *)
Theorem C276_version : forall root junk f fc w, nodes_part f fc -> 2 <= List.length (fi_buses f) -> read_raw root junk fc = Ok w -> In (fi_version f) [31; 33; 34]%Z -> w_version w = Some (fi_version f).
Proof.
  intros root junk f fc w NP L E I. destruct (start_ok root junk f fc NP L) as (s & ns & ER & _). rewrite ER in E. destruct (parse_trafos root junk (s_base s) fc); [|discriminate]. injection E as <-. cbn [w_version].
  destruct I as [<-|[<-|[<-|[]]]]; reflexivity.
Qed.
Print Assumptions C276_version.
Local Definition ts1 : list trafo := [Three 1 2 3 1 (zpair 1 4 100) (zpair 2 5 100) (zpair 3 900 100); Two 1 2 2 (zpair 1 3 50)].
Local Definition tl1 : list (list text) := [three_lines 1 2 3 1 1 4 100 2 5 100 3 900 100; two_lines 1 2 2 1 3 50].
Local Lemma tl1_ok : Forall2 trafo_lines ts1 tl1.
Proof. constructor; [now apply three_sample|]. constructor; [apply two_sample|constructor]. Qed.
Local Lemma ts1_sound root : Forall (sound_trafo root (inject_Z 100)) ts1.
Proof.
  constructor; [|constructor; [|constructor]].
  - cbn [sound_trafo]. unfold sound. sp; try (intros X; discriminate X). intros r12 x12 r23 x23 r31 x31 (_ & A) (_ & B) (_ & C). rewrite A, B, C. cbn. repeat split; reflexivity.
  - cbn [sound_trafo]. unfold sound. sp; [intros _; discriminate|intros X; discriminate X].
Qed.
Example C276_witness : exists f fc, nodes_part f fc /\ trafos_part f fc /\ 2 <= List.length (fi_buses f) /\ Forall (sound_trafo (fun q => q) (fi_base f)) (fi_trafos f) /\
  (exists t, In t (fi_trafos f) /\ is_two t = true) /\ (exists t, In t (fi_trafos f) /\ is_two t = false) /\ In (fi_version f) [31; 33; 34]%Z.
Proof.
  exists (sample 100 33 [(1, 220); (2, 110); (3, 20)]%Z ts1), (sample_lines 100 33 [(1, 220); (2, 110); (3, 20)]%Z tl1). split; [apply nodes_sample|]. split; [apply trafos_sample; [cbn; lia|exact tl1_ok]|].
  split; [cbn; lia|]. split; [apply ts1_sound|]. split; [eexists; split; [right; left; reflexivity|reflexivity]|]. split; [eexists; split; [left; reflexivity|reflexivity]|cbn; auto].
Qed.

(* ------------------------------------------------------------------ *)
(** ** C277 *)
(** Only transformers of the file are written: refuted.  A file without transformers of a kind gives a row that np.empty left. *)
Theorem C277_no_two_windings : forall root junk f fc, root_ok root -> nodes_part f fc -> trafos_part f fc -> 2 <= List.length (fi_buses f) ->
  Forall (sound_trafo root (fi_base f)) (fi_trafos f) -> (forall t, In t (fi_trafos f) -> is_two t = false) ->
  exists w star, read_raw root junk fc = Ok w /\ written_rows w = fst junk :: star.
Proof.
  intros root junk f fc R NP TP L S0 N. destruct (file_read root R junk f fc NP TP L S0) as (w & conv & star & E & V & B & Fr & TU & OU & NN & C & D & RC & RS).
  exists w, (w_star w). split; [exact E|]. unfold written_rows. specialize (RC 1). assert (X : filter is_two (fi_trafos f) = []).
  { clear -N. induction (fi_trafos f) as [|t ts IH]; [reflexivity|]. cbn [filter]. rewrite (N t) by now left. apply IH. intros u I. apply N. now right. }
  rewrite X in RC. cbn [rows_are] in RC. subst conv. rewrite C. reflexivity.
Qed.
Print Assumptions C277_no_two_windings.
Theorem C277_no_three_windings : forall root junk f fc, root_ok root -> nodes_part f fc -> trafos_part f fc -> 2 <= List.length (fi_buses f) ->
  Forall (sound_trafo root (fi_base f)) (fi_trafos f) -> (forall t, In t (fi_trafos f) -> is_two t = true) ->
  exists w conv, read_raw root junk fc = Ok w /\ written_rows w = conv ++ [snd junk].
Proof.
  intros root junk f fc R NP TP L S0 N. destruct (file_read root R junk f fc NP TP L S0) as (w & conv & star & E & V & B & Fr & TU & OU & NN & C & D & RC & RS).
  exists w, (w_conv w). split; [exact E|]. unfold written_rows. assert (X : filter (fun t => negb (is_two t)) (fi_trafos f) = []).
  { clear -N. induction (fi_trafos f) as [|t ts IH]; [reflexivity|]. cbn [filter]. rewrite (N t) by now left. apply IH. intros u I. apply N. now right. }
  rewrite X in RS. cbn [rows_are] in RS. subst star. rewrite D. reflexivity.
Qed.
Print Assumptions C277_no_three_windings.
Theorem C277_only_transformers_refuted : exists root f fc, root_ok root /\ nodes_part f fc /\ trafos_part f fc /\
  forall x, exists junk w, read_raw root junk fc = Ok w /\ In x (written_rows w) /\ List.length (fi_trafos f) = 1.
Proof.
  exists (fun q => q), (sample 100 33 [(1, 220); (2, 110)]%Z [Two 1 2 2 (zpair 1 3 50)]), (sample_lines 100 33 [(1, 220); (2, 110)]%Z [two_lines 1 2 2 1 3 50]).
  assert (NP := nodes_sample 100 33 [(1, 220); (2, 110)]%Z [Two 1 2 2 (zpair 1 3 50)] [two_lines 1 2 2 1 3 50]).
  assert (TP : trafos_part (sample 100 33 [(1, 220); (2, 110)]%Z [Two 1 2 2 (zpair 1 3 50)]) (sample_lines 100 33 [(1, 220); (2, 110)]%Z [two_lines 1 2 2 1 3 50])) by (apply trafos_sample; [cbn; lia|constructor; [apply two_sample|constructor]]).
  split; [exact id_ok|]. split; [exact NP|]. split; [exact TP|]. intros x. exists (x, x).
  destruct (C277_no_three_windings (fun q => q) (x, x) _ _ id_ok NP TP) as (w & conv & E & W).
  - cbn; lia.
  - constructor; [|constructor]. cbn [sound_trafo]. unfold sound. sp; [intros _; discriminate|intros X; discriminate X].
  - intros t [<-|[]]. reflexivity.
  - exists w. split; [exact E|]. split; [rewrite W; apply in_or_app; right; now left|reflexivity].
Qed.
Print Assumptions C277_only_transformers_refuted.
Example C277_witness : exists f fc, nodes_part f fc /\ trafos_part f fc /\ 2 <= List.length (fi_buses f) /\ Forall (sound_trafo (fun q => q) (fi_base f)) (fi_trafos f) /\ fi_trafos f <> [] /\ (forall t, In t (fi_trafos f) -> is_two t = false).
Proof.
  exists (sample 100 33 [(1, 220); (2, 110)]%Z [Three 1 2 3 1 (zpair 1 4 100) (zpair 2 5 100) (zpair 3 900 100)]), (sample_lines 100 33 [(1, 220); (2, 110)]%Z [three_lines 1 2 3 1 1 4 100 2 5 100 3 900 100]).
  split; [apply nodes_sample|]. split; [apply trafos_sample; [cbn; lia|constructor; [now apply three_sample|constructor]]|]. split; [cbn; lia|].
  pose proof (ts1_sound (fun q => q)) as S1. inversion S1; subst. split; [constructor; [assumption|constructor]|]. split; [discriminate|]. intros t [<-|[]]. reflexivity.
Qed.

(* ------------------------------------------------------------------ *)
(** ** C278 *)
(** Every number of buses is read: refuted.  A single bus stops the reader with TypeError, none with ValueError. *)
Theorem C278_one_bus : forall root junk f fc, nodes_part f fc -> List.length (fi_buses f) = 1 -> read_raw root junk fc = Err TypeError.
Proof.
  intros root junk f fc (l0 & l1 & l2 & bls & e & rest & -> & H & F & E) L. destruct (header_system _ _ _ _ _ _ (l1 :: l2 :: bls ++ e :: rest) H) as (V & s & S0 & _). unfold read_raw. rewrite V, S0. cbn [rbind].
  destruct F as [|b l bs bls B F]; [discriminate|]. destruct F; [|discriminate]. unfold parse_nodes. cbn [app field nth_error rbind skipn]. destruct (bus_node b l B) as (_ & b' & N & _). rewrite N. cbn [rbind nodes]. now rewrite (end_ends e E).
Qed.
Print Assumptions C278_one_bus.
Theorem C278_no_bus : forall root junk f l0 l1 l2 e rest, header_is l0 (fi_base f) (fi_version f) (fi_tu f) (fi_ou f) (fi_freq f) -> end_line e -> read_raw root junk (l0 :: l1 :: l2 :: e :: rest) = Err ValueError.
Proof.
  intros root junk f l0 l1 l2 e rest H (more & EE). destruct (header_system _ _ _ _ _ _ (l1 :: l2 :: e :: rest) H) as (V & s & S0 & _). unfold read_raw. rewrite V, S0. cbn [rbind]. unfold parse_nodes. cbn [field nth_error rbind].
  assert (NE : node e = Err ValueError); [|now rewrite NE].
  rewrite EE. unfold node. cbv zeta. assert (C : exists w ws, cut "," (word "0 /" ++ more) = (word "0 /" ++ w) :: ws).
  { clear EE. unfold cut. rewrite cut_from_run by (cbn; intuition discriminate). cbn [app]. generalize (word "0 /") as p. induction more as [|a m IH]; intros p; cbn [cut_from].
    - exists [], []. now rewrite List.app_nil_r.
    - destruct (Ascii.eqb a ","); [exists [], (cut_from "," [] m); now rewrite List.app_nil_r|]. destruct (IH (p ++ [a])) as (w & ws & X). exists (a :: w), ws. rewrite X, <- app_assoc. reflexivity. }
  destruct C as (w & ws & ->). unfold int_at at 1. cbn [field nth_error rbind]. unfold int_of. rewrite (ConverterMore.read_int_bad _ "/"%char); [reflexivity| |reflexivity|discriminate|discriminate|discriminate].
  apply strip_keeps; [reflexivity|]. apply in_or_app. left. cbn. auto.
Qed.
Print Assumptions C278_no_bus.
Theorem C278_every_number_of_buses_refuted : exists f fc, nodes_part f fc /\ trafos_part f fc /\ (forall root junk, read_raw root junk fc = Err TypeError).
Proof.
  exists (sample 100 33 [(1, 220)]%Z ts1), (sample_lines 100 33 [(1, 220)]%Z tl1). assert (NP := nodes_sample 100 33 [(1, 220)]%Z ts1 tl1). split; [exact NP|]. split; [apply trafos_sample; [cbn; lia|exact tl1_ok]|].
  intros root junk. now apply (C278_one_bus root junk (sample 100 33 [(1, 220)]%Z ts1)).
Qed.
Print Assumptions C278_every_number_of_buses_refuted.
Example C278_witness : exists f fc, nodes_part f fc /\ List.length (fi_buses f) = 1.
Proof. exists (sample 100 33 [(1, 220)]%Z ts1), (sample_lines 100 33 [(1, 220)]%Z tl1). split; [apply nodes_sample|reflexivity]. Qed.

(* ------------------------------------------------------------------ *)
(** ** C279 *)
(** The transformers are found wherever their section begins: refuted.  What comes before line 14553 counts for nothing, and a file
    that is shorter stops the reader with IndexError. *)
Theorem C279_short_file : forall root junk f fc, nodes_part f fc -> 2 <= List.length (fi_buses f) -> (Z.of_nat (List.length fc) <= 14553)%Z -> read_raw root junk fc = Err IndexError.
Proof.
  intros root junk f fc NP L S0. destruct (start_ok root junk f fc NP L) as (s & ns & ER & _). rewrite ER. unfold parse_trafos. rewrite skipn_all2 by (unfold first_trafo; lia). reflexivity.
Qed.
Print Assumptions C279_short_file.
Theorem C279_section_found_refuted : exists f l0 l1 l2 bls e tls e', header_is l0 (fi_base f) (fi_version f) (fi_tu f) (fi_ou f) (fi_freq f) /\ Forall2 bus_line_is (fi_buses f) bls /\ end_line e /\
  Forall2 trafo_lines (fi_trafos f) tls /\ end_line e' /\ fi_trafos f <> [] /\ forall root junk, read_raw root junk (l0 :: l1 :: l2 :: bls ++ e :: List.concat tls ++ [e']) = Err IndexError.
Proof.
  exists (sample 100 33 [(1, 220); (2, 110)]%Z ts1), (line [0; 100; 33; 0; 1; 50]%Z), [], [], (map (fun b => line [fst b; 7; snd b]%Z) [(1, 220); (2, 110)]%Z), (word "0 /"), tl1, (word "0 /").
  split; [apply header_sample|]. split; [apply buses_sample|]. split; [apply end_sample|]. split; [exact tl1_ok|]. split; [apply end_sample|]. split; [discriminate|]. intros root junk.
  apply (C279_short_file root junk (sample 100 33 [(1, 220); (2, 110)]%Z ts1)); [|cbn; lia|cbn; lia]. eexists _, _, _, _, _, _. sp; [reflexivity|apply header_sample|apply buses_sample|apply end_sample].
Qed.
Print Assumptions C279_section_found_refuted.
(** The two sections are read independently: the rows depend on the base and on the lines from 14553 on only. *)
Theorem C279_lines_before : forall root junk f fc fc' w w', nodes_part f fc -> nodes_part f fc' -> 2 <= List.length (fi_buses f) -> firstn 1 fc = firstn 1 fc' ->
  (exists before before' rest, fc = before ++ rest /\ fc' = before' ++ rest /\ Z.of_nat (List.length before) = 14553%Z /\ List.length before' = List.length before) ->
  read_raw root junk fc = Ok w -> read_raw root junk fc' = Ok w' -> written_rows w = written_rows w'.
Proof.
  intros root junk f fc fc' w w' (l0 & l1 & l2 & bls & e & rest0 & E0 & H & _) (l0' & l1' & l2' & bls' & e' & rest0' & E0' & H' & _) L HD (b & b' & rest & E & E' & LB & LB') R R'.
  assert (SK : skipn first_trafo fc = skipn first_trafo fc').
  { rewrite E, E'. rewrite !skipn_app. rewrite (skipn_all2 b), (skipn_all2 b') by (unfold first_trafo; lia). rewrite LB'. reflexivity. }
  unfold read_raw in R, R'. assert (F0 : field fc 0 = field fc' 0) by (rewrite E0, E0' in HD |- *; cbn in HD |- *; injection HD as ->; reflexivity).
  assert (PS : parse_system fc = parse_system fc') by (unfold parse_system; now rewrite F0). destruct (version fc) as [v|]; [|discriminate]. destruct (version fc') as [v'|]; [|discriminate]. cbn [rbind] in R, R'. rewrite PS in R.
  destruct (parse_system fc') as [s|]; [|discriminate]. cbn [rbind] in R, R'. destruct (parse_nodes fc) as [n|]; [|discriminate]. destruct (parse_nodes fc') as [n'|]; [|discriminate]. cbn [rbind] in R, R'.
  unfold parse_trafos in R, R'. rewrite SK in R. destruct (read_trafos root (s_base s) (skipn first_trafo fc') (mkTrafos 0 0 [fst junk] [snd junk])) as [t|]; [|discriminate]. cbn [rbind] in R, R'. injection R as <-. injection R' as <-. reflexivity.
Qed.
Print Assumptions C279_lines_before.
Example C279_witness : exists f fc, nodes_part f fc /\ 2 <= List.length (fi_buses f) /\ (Z.of_nat (List.length fc) <= 14553)%Z.
Proof.
  exists (sample 100 33 [(1, 220); (2, 110)]%Z ts1), (line [0; 100; 33; 0; 1; 50]%Z :: [] :: [] :: map (fun b => line [fst b; 7; snd b]%Z) [(1, 220); (2, 110)]%Z ++ [word "0 /"]).
  split; [|split; cbn; lia]. eexists _, _, _, _, _, _. sp; [reflexivity|apply header_sample|apply buses_sample|apply end_sample].
Qed.

(* ------------------------------------------------------------------ *)
(** ** C280 *)
(** The star buses are new: they differ from the buses of the file, whose numbers stay below a million, and between transformers. *)
Local Lemma star_number root base ts : Forall (fun t => is_two t = false) ts -> forall k rs, rows_are root base k ts rs -> List.length rs = 3 * List.length ts /\
  forall i r, nth_error rs i = Some r -> r_to r = (1000000 + Z.of_nat (k + i / 3))%Z.
Proof.
  intros F. induction F as [|t ts T F IH]; intros k rs R; cbn [rows_are] in R.
  - subst rs. split; [reflexivity|]. intros i r E. destruct i; discriminate.
  - destruct R as (a & b & -> & RT & R). destruct (IH _ _ R) as (L & N). destruct t as [|b1 b2 b3 cz p q r0]; [discriminate|]. cbn [rows_of_trafo] in RT. destruct RT as (x & y & z & -> & _ & _ & _ & T1 & T2 & T3 & _).
    split; [rewrite app_length, L; cbn [List.length]; lia|]. intros i r E. destruct i as [|[|[|i]]]; cbn [app nth_error] in E.
    + injection E as <-. rewrite T1. change (0 / 3) with 0. f_equal. lia.
    + injection E as <-. rewrite T2. change (1 / 3) with 0. f_equal. lia.
    + injection E as <-. rewrite T3. change (2 / 3) with 0. f_equal. lia.
    + rewrite (N i r E). replace (S (S (S i))) with (i + 1 * 3) by lia. rewrite Nat.div_add by lia. f_equal. lia.
Qed.
Theorem C280_star_buses_new : forall root junk f fc, root_ok root -> nodes_part f fc -> trafos_part f fc -> 2 <= List.length (fi_buses f) ->
  Forall (sound_trafo root (fi_base f)) (fi_trafos f) -> (exists t, In t (fi_trafos f) /\ is_two t = false) -> (forall b, In b (fi_buses f) -> (fst b <= 1000000)%Z) ->
  exists w, read_raw root junk fc = Ok w /\ List.length (w_star w) = 3 * List.length (filter (fun t => negb (is_two t)) (fi_trafos f)) /\
    (forall r b, In r (w_star w) -> In b (fi_buses f) -> r_to r <> fst b) /\
    (forall i j r s, nth_error (w_star w) i = Some r -> nth_error (w_star w) j = Some s -> (r_to r = r_to s <-> i / 3 = j / 3)).
Proof.
  intros root junk f fc R NP TP L S0 (u & Iu & Tu) SM. destruct (file_read root R junk f fc NP TP L S0) as (w & conv & star & E & V & B & Fr & TU & OU & N & C & D & RC & RS).
  assert (W : w_star w = star). { rewrite D. apply or_junk_some. destruct (filter_some (fun t => negb (is_two t)) u _ Iu (f_equal negb Tu)) as (y & ys & EY). rewrite EY in RS. exact (rows_some _ _ _ _ _ _ RS). }
  assert (FT : Forall (fun t => is_two t = false) (filter (fun t => negb (is_two t)) (fi_trafos f))). { apply Forall_forall. intros t I. apply filter_In in I as (_ & I). now apply negb_true_iff. }
  destruct (star_number root (fi_base f) _ FT 1 star RS) as (LS & NS). exists w. rewrite W. split; [exact E|]. split; [exact LS|]. split.
  - intros r b I Ib. apply In_nth_error in I as (i & I). rewrite (NS i r I). specialize (SM b Ib). lia.
  - intros i j r s I J. rewrite (NS i r I), (NS j s J). lia.
Qed.
Print Assumptions C280_star_buses_new.
Example C280_witness : exists f fc, nodes_part f fc /\ trafos_part f fc /\ 2 <= List.length (fi_buses f) /\ Forall (sound_trafo (fun q => q) (fi_base f)) (fi_trafos f) /\
  (exists t, In t (fi_trafos f) /\ is_two t = false) /\ (forall b, In b (fi_buses f) -> (fst b <= 1000000)%Z).
Proof.
  destruct C276_witness as (f & fc & _). exists (sample 100 33 [(1, 220); (2, 110); (3, 20)]%Z ts1), (sample_lines 100 33 [(1, 220); (2, 110); (3, 20)]%Z tl1). split; [apply nodes_sample|]. split; [apply trafos_sample; [cbn; lia|exact tl1_ok]|].
  split; [cbn; lia|]. split; [apply ts1_sound|]. split; [eexists; split; [left; reflexivity|reflexivity]|]. intros b [<-|[<-|[<-|[]]]]; cbn; lia.
Qed.

(* ------------------------------------------------------------------ *)
(** ** C281 *)
(** A three-winding transformer with a pair without reactance is read: refuted.  The reader divides by the least of the three. *)
Theorem C281_least_zero : forall root junk f fc pre b1 b2 b3 cz p q r post r12 x12 r23 x23 r31 x31, root_ok root -> nodes_part f fc -> trafos_part f fc -> 2 <= List.length (fi_buses f) ->
  fi_trafos f = pre ++ Three b1 b2 b3 cz p q r :: post -> Forall (sound_trafo root (fi_base f)) pre -> sound (fi_base f) cz p -> sound (fi_base f) cz q -> sound (fi_base f) cz r ->
  impedance root (fi_base f) cz p r12 x12 -> impedance root (fi_base f) cz q r23 x23 -> impedance root (fi_base f) cz r r31 x31 -> least 0 x12 x23 x31 ->
  read_raw root junk fc = Err ZeroDivisionError.
Proof. intros. eapply file_stops; eauto. reflexivity. Qed.
Print Assumptions C281_least_zero.
Local Definition t0 : trafo := Three 1 2 3 1 (zpair 1 0 100) (zpair 2 5 100) (zpair 3 9 100).
Local Lemma t0_lines : trafos_part (sample 100 33 [(1, 220); (2, 110)]%Z (ts1 ++ [t0])) (sample_lines 100 33 [(1, 220); (2, 110)]%Z (tl1 ++ [three_lines 1 2 3 1 1 0 100 2 5 100 3 9 100])).
Proof. apply trafos_sample; [cbn; lia|]. apply Forall2_app; [exact tl1_ok|]. constructor; [now apply three_sample|constructor]. Qed.
Theorem C281_no_reactance_refuted : exists f fc, nodes_part f fc /\ trafos_part f fc /\ forall root junk, root_ok root -> read_raw root junk fc = Err ZeroDivisionError.
Proof.
  exists (sample 100 33 [(1, 220); (2, 110)]%Z (ts1 ++ [t0])), (sample_lines 100 33 [(1, 220); (2, 110)]%Z (tl1 ++ [three_lines 1 2 3 1 1 0 100 2 5 100 3 9 100])).
  split; [apply nodes_sample|]. split; [exact t0_lines|]. intros root junk R.
  eapply (C281_least_zero root junk _ _ ts1 1 2 3 1 _ _ _ [] 1 0 2 5 3 9 R (nodes_sample 100 33 _ (ts1 ++ [t0]) _) t0_lines).
  - cbn; lia.
  - reflexivity.
  - apply ts1_sound.
  - split; intros X; discriminate X.
  - split; intros X; discriminate X.
  - split; intros X; discriminate X.
  - split; reflexivity.
  - split; reflexivity.
  - split; reflexivity.
  - unfold least. sp; [left; reflexivity|discriminate..].
Qed.
Print Assumptions C281_no_reactance_refuted.
Example C281_witness : exists base cz p q r r12 x12 r23 x23 r31 x31, sound base cz p /\ sound base cz q /\ sound base cz r /\ impedance (fun q => q) base cz p r12 x12 /\ impedance (fun q => q) base cz q r23 x23 /\
  impedance (fun q => q) base cz r r31 x31 /\ least 0 x12 x23 x31.
Proof. exists 100%Q, 1%Z, (zpair 1 0 100), (zpair 2 5 100), (zpair 3 9 100), 1%Q, 0%Q, 2%Q, 5%Q, 3%Q, 9%Q. unfold sound, least. sp; try (intros X; discriminate X); try reflexivity; try discriminate; try (split; reflexivity). left. reflexivity. Qed.

(* ------------------------------------------------------------------ *)
(** ** C282 *)
(** No reactance of a pair counts more than a hundred times the least in size: refuted.  With a negative one nothing is limited. *)
Theorem C282_negative_unlimited : forall root junk f fc b1 b2 b3 cz p q r r12 x12 r23 x23 r31 x31 m, root_ok root -> nodes_part f fc -> trafos_part f fc -> 2 <= List.length (fi_buses f) ->
  fi_trafos f = [Three b1 b2 b3 cz p q r] -> sound (fi_base f) cz p -> sound (fi_base f) cz q -> sound (fi_base f) cz r ->
  impedance root (fi_base f) cz p r12 x12 -> impedance root (fi_base f) cz q r23 x23 -> impedance root (fi_base f) cz r r31 x31 -> least m x12 x23 x31 -> (m < 0)%Q ->
  exists w a b c, read_raw root junk fc = Ok w /\ w_star w = [a; b; c] /\ star_of (r_r a) (r_r b) (r_r c) r12 r23 r31 /\ star_of (r_x a) (r_x b) (r_x c) x12 x23 x31.
Proof. intros. eapply file_uncapped; eauto. Qed.
Print Assumptions C282_negative_unlimited.
Local Lemma t2_lines : trafos_part (sample 100 33 [(1, 220); (2, 110)]%Z [Three 1 2 3 1 (zpair 1 (-1) 100) (zpair 2 5 100) (zpair 3 900 100)]) (sample_lines 100 33 [(1, 220); (2, 110)]%Z [three_lines 1 2 3 1 1 (-1) 100 2 5 100 3 900 100]).
Proof. apply trafos_sample; [cbn; lia|]. constructor; [now apply three_sample|constructor]. Qed.
Theorem C282_limited_refuted : exists f fc, nodes_part f fc /\ trafos_part f fc /\ forall root junk, root_ok root -> exists w a b c, read_raw root junk fc = Ok w /\ w_star w = [a; b; c] /\
  (100 * Qabs (r_x a + r_x b) < Qabs (r_x a + r_x c))%Q.
Proof.
  exists (sample 100 33 [(1, 220); (2, 110)]%Z [Three 1 2 3 1 (zpair 1 (-1) 100) (zpair 2 5 100) (zpair 3 900 100)]), (sample_lines 100 33 [(1, 220); (2, 110)]%Z [three_lines 1 2 3 1 1 (-1) 100 2 5 100 3 900 100]). split; [apply nodes_sample|]. split; [exact t2_lines|]. intros root junk R.
  destruct (C282_negative_unlimited root junk _ _ 1 2 3 1 (zpair 1 (-1) 100) (zpair 2 5 100) (zpair 3 900 100) 1 (-1) 2 5 3 900 (-1) R (nodes_sample 100 33 [(1, 220); (2, 110)]%Z [Three 1 2 3 1 (zpair 1 (-1) 100) (zpair 2 5 100) (zpair 3 900 100)] [three_lines 1 2 3 1 1 (-1) 100 2 5 100 3 900 100]) t2_lines) as (w & a & b & c & E & W & _ & (X1 & X2 & X3)).
  - cbn; lia.
  - reflexivity.
  - split; intros X; discriminate X.
  - split; intros X; discriminate X.
  - split; intros X; discriminate X.
  - split; reflexivity.
  - split; reflexivity.
  - split; reflexivity.
  - unfold least. sp; [left; reflexivity|discriminate..].
  - reflexivity.
  - exists w, a, b, c. split; [exact E|]. split; [exact W|]. rewrite X1, (Qplus_comm (r_x a) (r_x c)), X3. reflexivity.
Qed.
Print Assumptions C282_limited_refuted.
Example C282_witness : exists base cz p q r r12 x12 r23 x23 r31 x31 m, sound base cz p /\ sound base cz q /\ sound base cz r /\ impedance (fun q => q) base cz p r12 x12 /\ impedance (fun q => q) base cz q r23 x23 /\
  impedance (fun q => q) base cz r r31 x31 /\ least m x12 x23 x31 /\ (m < 0)%Q.
Proof. exists 100%Q, 1%Z, (zpair 1 (-1) 100), (zpair 2 5 100), (zpair 3 900 100), 1%Q, (-1)%Q, 2%Q, 5%Q, 3%Q, 900%Q, (-1)%Q. unfold sound, least. sp; try (intros X; discriminate X); try reflexivity; try discriminate; try (split; reflexivity). left. reflexivity. Qed.

(* ------------------------------------------------------------------ *)
(** ** C283 *)
(** Impedances of code 3 are taken from the base of the windings to that of the system: refuted.  The base of the windings is not used. *)
Theorem C283_winding_base_unused : forall root junk f f' fc fc', root_ok root -> nodes_part f fc -> trafos_part f fc -> nodes_part f' fc' -> trafos_part f' fc' ->
  2 <= List.length (fi_buses f) -> 2 <= List.length (fi_buses f') -> (fi_base f == fi_base f')%Q ->
  forall b1 b2 r x s s', fi_trafos f = [Two b1 b2 3 (mkPair r x s)] -> fi_trafos f' = [Two b1 b2 3 (mkPair r x s')] -> sound (fi_base f) 3 (mkPair r x s) ->
  exists w w' a a', read_raw root junk fc = Ok w /\ read_raw root junk fc' = Ok w' /\ w_conv w = [a] /\ w_conv w' = [a'] /\ (r_r a == r_r a')%Q /\ (r_x a == r_x a')%Q.
Proof.
  intros root junk f f' fc fc' R NP TP NP' TP' L L' EB b1 b2 r x s s' ET ET' SO.
  assert (SO' : sound (fi_base f') 3 (mkPair r x s')). { destruct SO as (_ & S3). specialize (S3 eq_refl). cbn [p_r p_x p_s] in S3. split; [intros X; discriminate X|]. intros _. cbn [p_r p_x p_s]. rewrite <- EB. exact S3. }
  destruct (file_read root R junk f fc NP TP L ltac:(rewrite ET; constructor; [exact SO|constructor])) as (w & conv & star & E & _ & _ & _ & _ & _ & _ & C & _ & RC & _).
  destruct (file_read root R junk f' fc' NP' TP' L' ltac:(rewrite ET'; constructor; [exact SO'|constructor])) as (w' & conv' & star' & E' & _ & _ & _ & _ & _ & _ & C' & _ & RC' & _).
  specialize (RC 1). specialize (RC' 1). rewrite ET in RC. rewrite ET' in RC'. cbn [filter is_two rows_are rows_of_trafo] in RC, RC'.
  destruct RC as (u & v & -> & (a & -> & _ & _ & (A1 & A2)) & ->). destruct RC' as (u' & v' & -> & (a' & -> & _ & _ & (B1 & B2)) & ->). cbn [p_r p_x p_s] in *.
  assert (ER : (r_r a == r_r a')%Q) by (rewrite A1, B1, EB; reflexivity). exists w, w', a, a'. sp; auto. rewrite A2, B2. apply R. rewrite ER. reflexivity.
Qed.
Print Assumptions C283_winding_base_unused.
Theorem C283_code_three_refuted : exists f fc s, nodes_part f fc /\ trafos_part f fc /\ fi_trafos f = [Two 1 2 3 (mkPair 0 8 s)] /\ (0 < s /\ 0 < fi_base f)%Q /\
  forall root junk, root_ok root -> (root 64 == 8)%Q -> exists w a, read_raw root junk fc = Ok w /\ w_conv w = [a] /\ ~ (r_x a == 8 * fi_base f / s)%Q.
Proof.
  exists (sample 100 33 [(1, 220); (2, 110)]%Z [Two 1 2 3 (zpair 0 8 50)]), (sample_lines 100 33 [(1, 220); (2, 110)]%Z [two_lines 1 2 3 0 8 50]), 50%Q.
  assert (NP := nodes_sample 100 33 [(1, 220); (2, 110)]%Z [Two 1 2 3 (zpair 0 8 50)] [two_lines 1 2 3 0 8 50]).
  assert (TP : trafos_part (sample 100 33 [(1, 220); (2, 110)]%Z [Two 1 2 3 (zpair 0 8 50)]) (sample_lines 100 33 [(1, 220); (2, 110)]%Z [two_lines 1 2 3 0 8 50])) by (apply trafos_sample; [cbn; lia|constructor; [apply two_sample|constructor]]).
  split; [exact NP|]. split; [exact TP|]. split; [reflexivity|]. split; [split; reflexivity|]. intros root junk R R64.
  destruct (file_read root R junk _ _ NP TP) as (w & conv & star & E & _ & _ & _ & _ & _ & _ & C & _ & RC & _).
  - cbn; lia.
  - constructor; [|constructor]. split; [intros X; discriminate X|]. intros _. split; discriminate.
  - specialize (RC 1). cbn in RC. destruct RC as (u & v & -> & (a & -> & _ & _ & (A1 & A2)) & ->). exists w, a. split; [exact E|]. split; [exact C|]. cbn [sample fi_base]. rewrite A2.
    rewrite (R _ 64%Q); [rewrite R64; discriminate|]. rewrite A1. reflexivity.
Qed.
Print Assumptions C283_code_three_refuted.
Example C283_witness : sound 100 3 (mkPair 0 8 50) /\ exists root, root_ok root /\ (root 64 == 8)%Q.
Proof.
  split; [split; [intros X; discriminate X|intros _; split; discriminate]|]. exists (fun q => (q / 8)%Q). split; [intros p q E; now rewrite E|reflexivity].
Qed.

(* ------------------------------------------------------------------ *)
(** ** C284 *)
(** A file of a version that is not supported is rejected: refuted.  All that the version changes is that none is stored. *)
Theorem C284_other_version_read : forall root junk f fc, root_ok root -> nodes_part f fc -> trafos_part f fc -> 2 <= List.length (fi_buses f) ->
  Forall (sound_trafo root (fi_base f)) (fi_trafos f) -> ~ In (fi_version f) [31; 33; 34]%Z -> exists w, read_raw root junk fc = Ok w /\ w_version w = None /\ Forall2 bus_is (fi_buses f) (w_nodes w).
Proof.
  intros root junk f fc R NP TP L S0 NV. destruct (file_read root R junk f fc NP TP L S0) as (w & conv & star & E & V & _ & _ & _ & _ & N & _). exists w. sp; auto. rewrite V. cbn in NV.
  destruct (Z.eqb_spec (fi_version f) 31) as [X|_]; [destruct NV; auto|]. destruct (Z.eqb_spec (fi_version f) 33) as [X|_]; [destruct NV; auto|]. destruct (Z.eqb_spec (fi_version f) 34) as [X|_]; [destruct NV; auto|]. reflexivity.
Qed.
Print Assumptions C284_other_version_read.
Theorem C284_version_rejected_refuted : exists f fc, nodes_part f fc /\ trafos_part f fc /\ fi_version f = 35%Z /\ forall root junk, root_ok root -> exists w, read_raw root junk fc = Ok w.
Proof.
  exists (sample 100 35 [(1, 220); (2, 110)]%Z ts1), (sample_lines 100 35 [(1, 220); (2, 110)]%Z tl1). assert (NP := nodes_sample 100 35 [(1, 220); (2, 110)]%Z ts1 tl1).
  assert (TP : trafos_part (sample 100 35 [(1, 220); (2, 110)]%Z ts1) (sample_lines 100 35 [(1, 220); (2, 110)]%Z tl1)) by (apply trafos_sample; [cbn; lia|exact tl1_ok]).
  split; [exact NP|]. split; [exact TP|]. split; [reflexivity|]. intros root junk R. destruct (C284_other_version_read root junk _ _ R NP TP) as (w & E & _); [cbn; lia|apply ts1_sound|cbn; intuition discriminate|]. eauto.
Qed.
Print Assumptions C284_version_rejected_refuted.
Example C284_witness : exists f fc, nodes_part f fc /\ trafos_part f fc /\ 2 <= List.length (fi_buses f) /\ Forall (sound_trafo (fun q => q) (fi_base f)) (fi_trafos f) /\ ~ In (fi_version f) [31; 33; 34]%Z.
Proof.
  exists (sample 100 35 [(1, 220); (2, 110)]%Z ts1), (sample_lines 100 35 [(1, 220); (2, 110)]%Z tl1). split; [apply nodes_sample|]. split; [apply trafos_sample; [cbn; lia|exact tl1_ok]|]. split; [cbn; lia|]. split; [apply ts1_sound|cbn; intuition discriminate].
Qed.

(* ------------------------------------------------------------------ *)
(** ** C285 *)
(** A bus whose quoted name holds a comma is read: refuted.  At any position, it stops the reader with ValueError. *)
Theorem C285_comma_in_name : forall root junk f l0 l1 l2 bs bls num left right volt more z rest, header_is l0 (fi_base f) (fi_version f) (fi_tu f) (fi_ou f) (fi_freq f) -> Forall2 bus_line_is bs bls ->
  int_field num z -> ~ In ","%char num -> ~ In ","%char left -> ~ In ","%char right -> ~ In ","%char volt -> Forall (fun w => ~ In ","%char w) more ->
  read_raw root junk (l0 :: l1 :: l2 :: bls ++ join (num :: (word "'" ++ left ++ word "," ++ right ++ word "'") :: volt :: more) :: rest) = Err ValueError.
Proof.
  intros root junk f l0 l1 l2 bs bls num left right volt more z rest H F I N0 N1 N2 N3 N4. set (bad := join (num :: (word "'" ++ left ++ word "," ++ right ++ word "'") :: volt :: more)).
  destruct (header_system _ _ _ _ _ _ (l1 :: l2 :: bls ++ bad :: rest) H) as (V & s & S0 & _). unfold read_raw. rewrite V, S0. cbn [rbind].
  rewrite (bad_nodes l0 l1 l2 bs bls bad rest num (word "'" ++ left) (right ++ word "'") (volt :: more) z F); [reflexivity| |exact I|apply in_or_app; right; now left].
  split.
  - constructor; [exact N0|]. constructor; [|constructor; [|constructor; [exact N3|exact N4]]].
    + intros X. apply in_app_or in X as [X|X]; [cbn in X; intuition discriminate|auto].
    + intros X. apply in_app_or in X as [X|X]; [auto|cbn in X; intuition discriminate].
  - unfold bad. cbn [join]. f_equal. f_equal. rewrite <- !app_assoc. reflexivity.
Qed.
Print Assumptions C285_comma_in_name.
Theorem C285_name_refuted : exists fc, (exists name, In (line [2]%Z ++ word "," ++ name ++ word "," ++ line [110]%Z) fc /\ name = word "'UP, LOW'") /\ forall root junk, read_raw root junk fc = Err ValueError.
Proof.
  exists (line [0; 100; 33; 0; 1; 50]%Z :: [] :: [] :: map (fun b => line [fst b; 7; snd b]%Z) [(1, 220)]%Z ++ join (line [2]%Z :: (word "'" ++ word "UP" ++ word "," ++ word " LOW" ++ word "'") :: line [110]%Z :: []) :: [word "0 /"]).
  split.
  - exists (word "'UP, LOW'"). split; [|reflexivity]. do 3 right. apply in_or_app. right. left. reflexivity.
  - intros root junk. apply (C285_comma_in_name root junk (sample 100 33 [] ts1) _ _ _ (map zbus [(1, 220)]%Z) _ _ _ _ _ _ 2%Z).
    + apply header_sample.
    + apply buses_sample.
    + apply int_word.
    + apply word_no_comma.
    + cbn; intuition discriminate.
    + cbn; intuition discriminate.
    + apply word_no_comma.
    + constructor.
Qed.
Print Assumptions C285_name_refuted.
Example C285_witness : exists l0 num z bs bls, header_is l0 100 33 0 1 50 /\ int_field num z /\ Forall2 bus_line_is bs bls /\ bls <> [].
Proof.
  exists (line [0; 100; 33; 0; 1; 50]%Z), (word (str_Z 2)), 2%Z, (map zbus [(1, 220)]%Z), (map (fun b => line [fst b; 7; snd b]%Z) [(1, 220)]%Z). split; [exact (header_sample 100 33)|]. split; [apply int_word|]. split; [apply buses_sample|discriminate].
Qed.

(* ------------------------------------------------------------------ *)
(** ** C314 *)
(** The first transformer whose impedance does not exist stops the reader, with an exception that tells losses above the
    impedance from bases that are zero. *)
Theorem C314_losses : forall root junk f fc pre b1 b2 p post, root_ok root -> nodes_part f fc -> trafos_part f fc -> 2 <= List.length (fi_buses f) ->
  fi_trafos f = pre ++ Two b1 b2 3 p :: post -> Forall (sound_trafo root (fi_base f)) pre -> (0 < fi_base f)%Q -> (0 <= p_x p)%Q -> (p_x p * (fi_base f * 1000000) < p_r p)%Q ->
  read_raw root junk fc = Err ValueError.
Proof.
  intros root junk f fc pre b1 b2 p post R NP TP L EF S0 B X P. eapply file_two_stops; eauto. intros base r x s EB ER EX ES. unfold to_base. cbn [Z.eqb Pos.eqb]. change (inject_Z 1000000) with (1000000#1).
  assert (PB : (0 < base * 1000000)%Q) by (rewrite EB; lra). unfold over. destruct (Qeq_bool (base * (1000000 # 1)) 0) eqn:Z; [apply Qeq_bool_iff in Z; lra|]. cbn [rbind]. unfold sqrt_of. destruct (Qle_bool 0 _) eqn:Q; [exfalso|reflexivity].
  apply Qle_bool_iff in Q. assert (XR : (x < r / (base * (1000000#1)))%Q) by (apply Qlt_shift_div_l; [exact PB|]; rewrite EX, EB, ER; exact P). rewrite <- EX in X. set (y := (r / (base * (1000000#1)))%Q) in *.
  assert (x * x < y * y)%Q by nra. lra.
Qed.
Print Assumptions C314_losses.
Theorem C314_zero_base : forall root junk f fc pre b1 b2 cz p post, root_ok root -> nodes_part f fc -> trafos_part f fc -> 2 <= List.length (fi_buses f) ->
  fi_trafos f = pre ++ Two b1 b2 cz p :: post -> Forall (sound_trafo root (fi_base f)) pre ->
  (cz = 2%Z /\ p_s p == 0 /\ ~ fi_base f == 0 \/ cz = 3%Z /\ fi_base f == 0)%Q -> read_raw root junk fc = Err ZeroDivisionError.
Proof.
  intros root junk f fc pre b1 b2 cz p post R NP TP L EF S0 H. eapply file_two_stops; eauto. intros base r x s EB ER EX ES. unfold to_base, over. destruct H as [(-> & S1 & B)|(-> & B)]; cbn [Z.eqb Pos.eqb].
  - destruct (Qeq_bool s base) eqn:E; [apply Qeq_bool_iff in E; exfalso; apply B; rewrite <- EB, <- E, ES; exact S1|]. rewrite (proj2 (Qeq_bool_iff s 0)) by (rewrite ES; exact S1). reflexivity.
  - rewrite (proj2 (Qeq_bool_iff (base * inject_Z 1000000) 0)) by (rewrite EB, B; reflexivity). reflexivity.
Qed.
Print Assumptions C314_zero_base.
Local Definition lossy : list trafo := [Two 1 2 1 (zpair 1 8 50); Two 1 2 3 (zpair 900000000 8 50)].
Local Definition lossy_lines : list (list text) := [two_lines 1 2 1 1 8 50; two_lines 1 2 3 900000000 8 50].
Example C314_witness : exists f fc, nodes_part f fc /\ trafos_part f fc /\ List.length (fi_buses f) = 2 /\ fi_trafos f = lossy /\ (p_x (zpair 900000000 8 50) * (fi_base f * 1000000) < p_r (zpair 900000000 8 50))%Q /\ Forall (sound_trafo (fun q => q) (fi_base f)) (firstn 1 lossy).
Proof.
  exists (sample 100 33 [(1, 220); (2, 110)]%Z lossy), (sample_lines 100 33 [(1, 220); (2, 110)]%Z lossy_lines). split; [apply nodes_sample|]. split; [apply trafos_sample; [cbn; lia|constructor; [apply two_sample|constructor; [apply two_sample|constructor]]]|].
  sp; try reflexivity. constructor; [|constructor]. split; intros X; discriminate X.
Qed.
