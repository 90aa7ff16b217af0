(** Properties C119-C130 and C143: the converter of MATPOWER case files. *)
From Coq Require Import List String Ascii Bool Arith ZArith QArith Lia.
From Verif Require Import Base Container GraphDataProofs NumeralSpec NumeralProofs Reader MatFile MatFileSpec MatFileProofs
  Converter ConverterSpec ConverterProofs ConverterFile ConverterInv ConverterMore ConverterAgree ConverterOpen.
From Verif Require Screening ScreeningSpec ScreeningPlans ScreeningProofs Properties_Screening ConverterScreen.
Import ListNotations.
Open Scope string_scope.
Open Scope nat_scope.
Open Scope list_scope.

Local Ltac sp := repeat match goal with |- _ /\ _ => split end.

(** ** Concrete lines for the examples *)

Definition line (ss : list string) : text := List.concat (map (fun s => " "%char :: word_of s) ss).
Lemma written_line ss : forallb (fun s => negb (String.eqb s "") && forallb (fun a => negb (is_space a)) (word_of s)) ss = true -> written (line ss) (map word_of ss).
Proof.
  intros H. unfold line. replace (map (fun s => " "%char :: word_of s) ss) with (map (fun w : text => " "%char :: w) (map word_of ss)) by apply map_map.
  apply written_spaces. rewrite forallb_forall in H. apply Forall_forall. intros w I. apply in_map_iff in I as (s & <- & I). apply H, andb_true_iff in I as [A B].
  split; [intros E; destruct s; discriminate|]. apply Forall_forall. intros a Ia. rewrite forallb_forall in B. apply B in Ia. apply not_blank. now destruct (is_space a).
Qed.
Definition num (d : nat) : numeral := mkNum false [d] None None.
Lemma num_ok d : d < 10 -> numeral_ok (num d).
Proof. intros L. split; unfold num, digits; cbn; try discriminate; constructor; auto. Qed.
Lemma num_plain d : plain (num d).
Proof. split; reflexivity. Qed.

(** Rows of digits, the last of them with a semicolon. *)
Definition dword (last : bool) (d : nat) : text := digit_char d :: if last then [";"%char] else [].
Fixpoint dwords (ds : list nat) : list text := match ds with [] => [] | d :: r => dword (match r with [] => true | _ => false end) d :: dwords r end.
Definition dline (ds : list nat) : text := List.concat (map (fun w => " "%char :: w) (dwords ds)).
Definition drow (ds : list nat) : list entry := map (fun d => Num (num d)) ds.
Lemma dwords_nth ds : forall j d, nth_error ds j = Some d -> nth_error (dwords ds) j = Some (dword (S j =? List.length ds) d).
Proof.
  induction ds as [|d ds IH]; intros [|j] e E; cbn in E; try discriminate.
  - injection E as <-. cbn. destruct ds; reflexivity.
  - cbn [dwords nth_error]. rewrite (IH j e E). reflexivity.
Qed.
Lemma dwords_length ds : List.length (dwords ds) = List.length ds.
Proof. induction ds; cbn; congruence. Qed.
Lemma digit_not_blank d : d < 10 -> ~ blank (digit_char d).
Proof. intros L. apply not_blank. do 10 (destruct d as [|d]; [reflexivity|]). lia. Qed.
Lemma dline_written ds : Forall (fun d => d < 10) ds -> written (dline ds) (dwords ds).
Proof.
  intros F. apply written_spaces. induction F as [|d ds L F IH]; cbn [dwords]; constructor; auto. split; [discriminate|]. unfold dword. constructor; [now apply digit_not_blank|].
  destruct ds; constructor; [|constructor]. apply not_blank. reflexivity.
Qed.
Lemma digit_holds lax k last d : d < 10 -> (k = Final \/ last = false) -> holds lax k (Num (num d)) (dword last d).
Proof.
  intros L H. assert (OK := num_ok d L). destruct k; cbn [holds].
  - destruct H as [H|H]; [discriminate|subst]. exists (num d). sp; auto. destruct lax; [exact I|apply num_plain].
  - destruct H as [H|H]; [discriminate|subst]. auto.
  - split; [exact OK|]. destruct last; [exists [";"%char]|exists []]; (split; [reflexivity|]); repeat constructor.
Qed.
Lemma last_final name cols j c k : layout name = Some cols -> nth_error cols j = Some (c, k) -> S j = List.length cols -> k = Final.
Proof. intros L E Lj. destruct (layout_name name cols L) as [->|[->| ->]]; injection L as <-; cbn in Lj; injection Lj as ->; injection E as _ <-; reflexivity. Qed.
Lemma drow_ok lax name cols ds : layout name = Some cols -> List.length ds = List.length cols -> Forall (fun d => d < 10) ds -> row_ok lax cols (drow ds) (dline ds).
Proof.
  intros L Ld F. exists (dwords ds), []. rewrite List.app_nil_r, dwords_length. unfold drow. rewrite map_length. sp; auto; [now apply dline_written|].
  intros j c k e w E Ee Ew. rewrite nth_error_map in Ee. destruct (nth_error ds j) as [d|] eqn:Ed; [|discriminate]. injection Ee as <-. rewrite (dwords_nth ds j d Ed) in Ew. injection Ew as <-.
  apply digit_holds; [rewrite Forall_forall in F; apply F; eapply nth_error_In; eauto|]. destruct (S j =? List.length ds) eqn:X; [left|right; exact X]. apply Nat.eqb_eq in X. eapply last_final; eauto. congruence.
Qed.
Local Ltac dig := repeat first [apply Forall_nil|apply Forall_cons|apply conj|reflexivity|lia].

Definition header (name : string) : text := line [("mpc." ++ name)%string; "="; "["].
Definition closing : text := line ["];"].
Lemma closing_ok : begins (word_of "];") closing.
Proof. exists []. apply (written_line ["];"]). reflexivity. Qed.
Lemma header_ok name : In name ["bus"; "gen"; "branch"; "gencost"; "demandP"; "demandQ"] -> begins (mpc name) (header name).
Proof. intros I. exists [word_of "="; word_of "["]. cbn in I. decompose [or] I; subst; try contradiction; apply (written_line [_; _; _]); reflexivity. Qed.

(** A table of digit rows. *)
Definition dtable (name : string) (rows : list (list nat)) : section := Matrix name (header name) (map (fun ds => (Some (drow ds), dline ds)) rows) closing.
Lemma dtable_ok V name cols rows : layout name = Some cols -> Forall (fun ds => List.length ds = List.length cols /\ Forall (fun d => d < 10) ds) rows -> section_ok V (dtable name rows).
Proof.
  intros L F. exists cols. sp; [exact L|apply header_ok; destruct (layout_name name cols L) as [->|[->| ->]]; cbn; auto| |apply closing_ok].
  unfold body_ok. apply Forall_map. eapply Forall_impl; [|exact F]. cbn. intros ds [A B]. now apply (drow_ok _ name).
Qed.

(** A quadratic cost: MODEL, STARTUP, SHUTDOWN, NCOST and three coefficients. *)
Definition dcost (a b c : nat) : cost := mkCost (num 2) (Num (num 0)) (Num (num 0)) (num 3) [Num (num a); Num (num b)] (Num (num c)).
Definition dcost_line (a b c : nat) : text := dline [2; 0; 0; 3; a; b; c].
Lemma dcost_ok V a b c : a < 10 -> b < 10 -> c < 10 -> cost_ok V (dcost a b c) (dcost_line a b c).
Proof.
  intros La Lb Lc. exists (dword false 2), (dword false 0), (dword false 0), (dword false 3), [dword false a; dword false b], (dword true c), []. sp.
  - apply (dline_written [2; 0; 0; 3; a; b; c]). dig.
  - apply (digit_holds false Whole); auto; lia.
  - apply digit_holds; auto; lia.
  - apply digit_holds; auto; lia.
  - apply (digit_holds false Whole); auto; lia.
  - reflexivity.
  - constructor; [apply digit_holds; auto|constructor; [apply digit_holds; auto|constructor]].
  - apply digit_holds; auto; lia.
  - destruct (v_keeps_text V); [exact I|]. exists (num c). split; [reflexivity|apply num_plain].
Qed.
Definition dcosts (rows : list (nat * nat * nat)) : section :=
  Costs (header "gencost") (map (fun '(a, b, c) => (Some (dcost a b c), dcost_line a b c)) rows) closing.
Lemma dcosts_ok V rows : Forall (fun '(a, b, c) => a < 10 /\ b < 10 /\ c < 10) rows -> section_ok V (dcosts rows).
Proof.
  intros F. cbn [section_ok dcosts]. sp; [apply header_ok; cbn; auto 6| |apply closing_ok]. unfold body_ok. apply Forall_map. eapply Forall_impl; [|exact F]. intros ((a, b), c) (A & B & C). now apply dcost_ok.
Qed.
Definition base (d : nat) : section := BaseMVA (Num (num d)) (List.concat (map (fun w => " "%char :: w) [mpc "baseMVA"; word_of "="; dword true d])).
Lemma base_ok V d : d < 10 -> section_ok V (base d).
Proof.
  intros L. exists (word_of "="), (dword true d), []. split; [|apply digit_holds; auto]. apply written_spaces. repeat constructor; try discriminate; try (apply not_blank; reflexivity). now apply digit_not_blank.
Qed.
Definition note (ss : list string) : section := Note (line ss).
Lemma note_ok V ss : forallb (fun s => negb (String.eqb s "") && forallb (fun a => negb (is_space a)) (word_of s)) ss = true ->
  match ss with [] => True | s :: _ => existsb (text_eqb (word_of s)) (headers V) = false end -> section_ok V (note ss).
Proof.
  intros W H. exists (map word_of ss). split; [now apply written_line|]. destruct ss as [|s ss]; [exact I|]. cbn [map]. intros I.
  assert (X : existsb (text_eqb (word_of s)) (headers V) = true) by (apply existsb_exists; exists (word_of s); split; [exact I|]; now apply text_eqb_spec). congruence.
Qed.

(** Two buses, two generators at them and one branch. *)
Definition bus_rows : list (list nat) := [[1; 3; 0; 0; 0; 0; 1; 1; 0; 9; 1; 2; 0]; [2; 1; 5; 1; 0; 0; 1; 1; 0; 9; 1; 2; 0]].
Definition gen_rows (g : nat) : list (list nat) :=
  [[1; 0; 0; 0; 0; 1; 9; 1; g; 0; 0; 0; 0; 0; 0; 0; 0; 0; 0; 0; 0]; [2; 0; 0; 0; 0; 1; 9; 1; 4; 0; 0; 0; 0; 0; 0; 0; 0; 0; 0; 0; 0]].
Definition branch_rows : list (list nat) := [[1; 2; 0; 1; 0; 9; 9; 9; 0; 0; 1; 0; 0]].
Definition small_file (g : nat) : list section :=
  [note ["function"; "mpc"; "="; "case2"]; note []; note ["mpc.version"; "="; "'2';"]; base 9; dtable "bus" bus_rows; note ["%%"; "generators"];
   dtable "gen" (gen_rows g); dtable "branch" branch_rows; dcosts [(1, 2, 0); (0, 3, 0)]; note ["%"; "end"]].
Lemma small_file_ok V g : g < 10 -> Forall (section_ok V) (small_file g).
Proof.
  intros L. unfold small_file. repeat apply Forall_cons; try apply Forall_nil.
  - apply note_ok; [reflexivity|]. destruct V as [[|] [|] [|] [|]]; reflexivity.
  - apply note_ok; [reflexivity|exact I].
  - apply note_ok; [reflexivity|]. destruct V as [[|] [|] [|] [|]]; reflexivity.
  - apply base_ok. lia.
  - eapply dtable_ok; [reflexivity|]. dig.
  - apply note_ok; [reflexivity|]. destruct V as [[|] [|] [|] [|]]; reflexivity.
  - eapply dtable_ok; [reflexivity|]. dig.
  - eapply dtable_ok; [reflexivity|]. dig.
  - apply dcosts_ok. dig.
  - apply note_ok; [reflexivity|]. destruct V as [[|] [|] [|] [|]]; reflexivity.
Qed.

(* ------------------------------------------------------------------ *)
(** ** C119 *)

(** Every copy of the converter reads every file made of notes, baseMVA, tables with closing line, cost and demand
    tables exactly: numbers, whole numbers without fraction, the last bus of type 3 as slack bus, and the numbers
    of buses, branches and generators are those of their rows. *)
Theorem C119_converted_exactly : forall V ss, Forall (section_ok V) ss -> exists c, convert V (flat_map section_lines ss) = Ok c /\ holds_file V ss c /\
  k_no_bus c = List.length (rows_of "bus" ss) /\ k_no_branch c = List.length (rows_of "branch" ss) /\ k_no_gen c = List.length (rows_of "gen" ss).
Proof.
  intros V ss F. destruct (convert_ok V ss F) as (c & E & H). exists c. sp; auto; destruct H as (_ & _ & HT & _).
  - destruct (HT "bus" _ eq_refl) as (_ & T). destruct (T 0 "BUS_I" Whole eq_refl) as (vs & G & FF). change (the_table "bus" c) with (k_bus c) in G. unfold k_no_bus, count. rewrite G. symmetry. eapply GraphDataProofs.Forall2_length; eauto.
  - destruct (HT "branch" _ eq_refl) as (_ & T). destruct (T 0 "F_BUS" Whole eq_refl) as (vs & G & FF). change (the_table "branch" c) with (k_branch c) in G. unfold k_no_branch, count. rewrite G. symmetry. eapply GraphDataProofs.Forall2_length; eauto.
  - destruct (HT "gen" _ eq_refl) as (_ & T). destruct (T 0 "GEN_BUS" Whole eq_refl) as (vs & G & FF). change (the_table "gen" c) with (k_gen c) in G. unfold k_no_gen, count. rewrite G. symmetry. eapply GraphDataProofs.Forall2_length; eauto.
Qed.
Print Assumptions C119_converted_exactly.

(** The two copies for the planner and for the optimiser read the demands of a file: the first word of each row. *)
Theorem C119_demands : forall V ss, V = planner_copy \/ V = optimiser_copy -> Forall (section_ok V) ss -> forall (active : bool) h body cl,
  begins (mpc (if active then "demandP" else "demandQ")) h ->
  body_ok (fun e l => exists w more, written l (w :: more) /\ holds false Real e w) body -> begins (word_of "];") cl ->
  exists c, convert V (flat_map section_lines ss ++ h :: map snd body ++ [cl]) = Ok c /\
  Forall2 float_is (demands_of active ss ++ given body) (if active then k_demand_p c else k_demand_q c).
Proof.
  intros V ss CV F active h body cl H B C.
  assert (D : v_demands V = true) by (destruct CV as [->| ->]; reflexivity).
  assert (OK : section_ok V (Demand active h body cl)) by (cbn [section_ok]; auto).
  destruct (convert_ok V (ss ++ [Demand active h body cl])) as (c & E & _ & _ & _ & _ & HP & HQ); [apply Forall_app; auto|].
  exists c. rewrite flat_map_app in E. cbn [flat_map section_lines] in E. rewrite List.app_nil_r in E. split; [exact E|].
  unfold demands_of in *. rewrite flat_map_app in HP, HQ. destruct active; cbn [flat_map Bool.eqb] in *; rewrite ?List.app_nil_r in *; auto.
Qed.
Print Assumptions C119_demands.

Example C119_witness : forall V, Forall (section_ok V) (small_file 5) /\ exists c, convert V (flat_map section_lines (small_file 5)) = Ok c /\ k_no_bus c = 2 /\ k_slack c = Some 1%Z.
Proof. intros V. split; [apply small_file_ok; lia|]. destruct V as [[|] [|] [|] [|]]; eexists; (split; [vm_compute; reflexivity|]); split; reflexivity. Qed.

(* ------------------------------------------------------------------ *)
(** ** C120 *)

(** The columns of a table may differ in length: a row of two words only extends two of them. *)
Theorem C120_refuted : forall V, exists ls c lb lp, convert V ls = Ok c /\ d_get "BUS_I" (k_bus c) = Some lb /\ d_get "PD" (k_bus c) = Some lp /\ List.length lb = 2 /\ List.length lp = 1.
Proof.
  intros V. exists [header "bus"; dline (hd [] bus_rows); line ["2"; "1"]; closing]. destruct V as [[|] [|] [|] [|]]; do 3 eexists; (split; [vm_compute; reflexivity|]); (split; [reflexivity|]); (split; [reflexivity|]); split; reflexivity.
Qed.
Print Assumptions C120_refuted.

(** Whatever the file, all columns exist, a column is never longer than one to its left, and the numbers of
    buses, branches and generators are the lengths of the longest columns. *)
Theorem C120_columns_partial : forall V ls c, convert V ls = Ok c -> forall name cols, layout name = Some cols -> map fst (the_table name c) = map fst cols /\
  forall i j a b k k' la lb, i <= j -> nth_error cols i = Some (a, k) -> nth_error cols j = Some (b, k') -> d_get a (the_table name c) = Some la -> d_get b (the_table name c) = Some lb ->
  List.length lb <= List.length la.
Proof.
  intros V ls c E name cols L. pose proof (convert_shaped V ls c E) as SH. split; [|exact (columns_nested name cols c L SH)].
  destruct SH as ((A & _) & (B & _) & (C & _)). rewrite (layout_columns name cols L). destruct (layout_name name cols L) as [->|[->| ->]]; assumption.
Qed.
Print Assumptions C120_columns_partial.

Example C120_witness : exists ls c, convert planner_copy ls = Ok c /\ k_no_bus c = 2 /\ count "VMIN" (k_bus c) = 1.
Proof. exists [header "bus"; dline (hd [] bus_rows); line ["2"; "1"]; closing]. eexists. split; [vm_compute; reflexivity|]. split; reflexivity. Qed.

(* ------------------------------------------------------------------ *)
(** ** C121 *)

(** The slack bus need not be the bus that the columns show as type 3: a row of one word shifts them. *)
Theorem C121_refuted : forall V, exists ls c, convert V ls = Ok c /\ k_slack c = Some 1%Z /\ d_get "BUS_I" (k_bus c) = Some [VI 7; VI 1; VI 2] /\ d_get "BUS_TYPE" (k_bus c) = Some [VI 3; VI 1].
Proof.
  intros V. exists ([header "bus"; line ["7"]] ++ map dline bus_rows ++ [closing]). destruct V as [[|] [|] [|] [|]]; eexists; (split; [vm_compute; reflexivity|]); (split; [reflexivity|]); split; reflexivity.
Qed.
Print Assumptions C121_refuted.

(** Whatever the file, the slack bus is the number of some bus, and some bus has type 3. *)
Theorem C121_slack_partial : forall V ls c z, convert V ls = Ok c -> k_slack c = Some z ->
  (exists l, d_get "BUS_I" (k_bus c) = Some l /\ In (VI z) l) /\ (exists l, d_get "BUS_TYPE" (k_bus c) = Some l /\ In (VI 3) l).
Proof. intros V ls c z E S0. exact (slack_in_bus V ls c z E S0). Qed.
Print Assumptions C121_slack_partial.

(** In a well-formed file it is the last bus of type 3, at the same position of both columns. *)
Theorem C121_last_partial : forall V ss c z, Forall (section_ok V) ss -> convert V (flat_map section_lines ss) = Ok c -> k_slack c = Some z ->
  exists bi bt i, d_get "BUS_I" (k_bus c) = Some bi /\ d_get "BUS_TYPE" (k_bus c) = Some bt /\ nth_error bi i = Some (VI z) /\ nth_error bt i = Some (VI 3) /\
    forall j, i < j -> nth_error bt j <> Some (VI 3).
Proof.
  intros V ss c z F E S0. destruct (convert_ok V ss F) as (c' & E' & _ & HS & HT & _). rewrite E in E'. injection E' as <-. destruct (HT "bus" _ eq_refl) as (_ & T). change (the_table "bus" c) with (k_bus c) in T.
  destruct (T 0 "BUS_I" Whole eq_refl) as (bi & G0 & F0). destruct (T 1 "BUS_TYPE" Whole eq_refl) as (bt & G1 & F1). rewrite S0 in HS. destruct HS as (b & r & a & R & T3 & Tz & AF). exists bi, bt, (List.length b).
  assert (AT : forall j vs k rj, Forall2 (fun (r : list entry) v => exists e, nth_error r j = Some e /\ stored Whole e v) (rows_of "bus" ss) vs -> nth_error (rows_of "bus" ss) k = Some rj ->
     exists z, nth_error vs k = Some (VI z) /\ is_num (nth_error rj j) z).
  { intros j vs k rj. revert k. generalize (rows_of "bus" ss) as rows. intros rows k FF. revert k. induction FF as [|x v rows vs (e & Ee & Se) FF IH]; intros [|k] En; cbn in En; try discriminate; [|now apply IH].
    injection En as <-. destruct v as [zv| |]; try contradiction. destruct Se as (n & -> & W). exists zv. split; [reflexivity|]. rewrite Ee. exact W. }
  assert (Hr : nth_error (rows_of "bus" ss) (List.length b) = Some r) by (rewrite R, nth_error_app2, Nat.sub_diag by lia; reflexivity).
  assert (UN : forall e z z', is_num e z -> is_num e z' -> z = z') by (intros [[n|]|] y y' A B; try contradiction; exact (whole_unique _ _ _ A B)).
  destruct (AT 0 bi (List.length b) r F0 Hr) as (z0 & X0 & Y0). destruct (AT 1 bt (List.length b) r F1 Hr) as (z1 & X1 & Y1).
  rewrite (UN _ _ _ Y0 Tz) in X0. rewrite (UN _ _ _ Y1 T3) in X1. sp; auto. intros j Lj E3.
  assert (Lr : j < List.length (rows_of "bus" ss)) by (rewrite (GraphDataProofs.Forall2_length _ _ _ F1); apply nth_error_Some; congruence).
  destruct (nth_error (rows_of "bus" ss) j) as [rj|] eqn:Ej; [|apply nth_error_None in Ej; lia]. destruct (AT 1 bt j rj F1 Ej) as (zj & Xj & Yj). rewrite E3 in Xj. injection Xj as <-.
  rewrite R, nth_error_app2 in Ej by lia. destruct (j - List.length b) as [|m] eqn:D; [lia|]. cbn in Ej. apply nth_error_In in Ej. rewrite Forall_forall in AF. exact (AF rj Ej Yj).
Qed.
Print Assumptions C121_last_partial.

Example C121_witness : exists c, Forall (section_ok planner_copy) (small_file 5) /\ convert planner_copy (flat_map section_lines (small_file 5)) = Ok c /\ k_slack c = Some 1%Z.
Proof. eexists. split; [apply small_file_ok; lia|]. split; [vm_compute; reflexivity|reflexivity]. Qed.

(* ------------------------------------------------------------------ *)
(** ** C122 *)

(** Whatever the file, the five lists of gencost are of equal length and every row of COST has as many entries as
    NCOST says. *)
Theorem C122_costs_consistent : forall V ls c, convert V ls = Ok c -> let g := k_costs c in
  List.length (c_startup g) = List.length (c_model g) /\ List.length (c_shutdown g) = List.length (c_model g) /\ List.length (c_ncost g) = List.length (c_model g) /\ List.length (c_cost g) = List.length (c_model g) /\
  forall i n l, nth_error (c_ncost g) i = Some n -> nth_error (c_cost g) i = Some l -> List.length l = Z.to_nat n.
Proof.
  intros V ls c E g. destruct (convert_costs V ls c E) as ((A & B & C & D) & _). fold g in A, B, C, D. pose proof (GraphDataProofs.Forall2_length _ _ _ D) as L. sp; auto; [congruence|].
  clear - D. intros i n l. revert i. induction D as [|n' l' ns lss H D IH]; intros [|i] En El; cbn in En, El; try discriminate; [congruence|]. exact (IH i En El).
Qed.
Print Assumptions C122_costs_consistent.

Example C122_witness : exists c, convert planner_copy (flat_map section_lines (small_file 5)) = Ok c /\ c_ncost (k_costs c) = [3; 3]%Z /\ map (@List.length value) (c_cost (k_costs c)) = [3; 3].
Proof. eexists. split; [vm_compute; reflexivity|]. split; reflexivity. Qed.

(* ------------------------------------------------------------------ *)
(** ** C123 *)

(** The copy in pyeneI.py leaves texts among the coefficients. *)
Theorem C123_refuted : exists c, convert engine_copy (flat_map section_lines (small_file 5)) = Ok c /\ nth_error (c_cost (k_costs c)) 0 = Some [VF (Fin 1); VF (Fin 2); VT (word_of "0")].
Proof. eexists. split; vm_compute; reflexivity. Qed.
Print Assumptions C123_refuted.

(** It always does: the last entry of every non-empty row is a text.  The other two copies never store a
    text. *)
Theorem C123_texts_partial : forall V ls c, convert V ls = Ok c -> forall i n l, nth_error (c_ncost (k_costs c)) i = Some n -> nth_error (c_cost (k_costs c)) i = Some l ->
  (v_keeps_text V = true -> (0 < n)%Z -> exists fs t, l = fs ++ [VT t]) /\ (v_keeps_text V = false -> Forall (fun v => forall t, v <> VT t) l).
Proof.
  intros V ls c E i n l En El. destruct (convert_costs V ls c E) as (_ & T & N). split; intros K.
  - specialize (T K). clear - T En El. revert i En El. induction T as [|n' l' ns lss H T IH]; intros [|i] En El; cbn in En, El; try discriminate; [|eauto]. injection En as <-. injection El as <-. exact H.
  - specialize (N K). rewrite Forall_forall in N. apply nth_error_In in El. specialize (N l El). eapply Forall_impl; [|exact N]. intros v H t ->. exact H.
Qed.
Print Assumptions C123_texts_partial.

Example C123_witness : exists c, convert planner_copy (flat_map section_lines (small_file 5)) = Ok c /\ nth_error (c_cost (k_costs c)) 0 = Some [VF (Fin 1); VF (Fin 2); VI 0].
Proof. eexists. split; vm_compute; reflexivity. Qed.

(* ------------------------------------------------------------------ *)
(** ** C124 *)

(** Two piecewise-linear costs that differ in their second point: COST 0 at 0 MW and 9 (or 3) at 5 (or 8) MW. *)
Definition piecewise (x y : nat) : text := dline [1; 0; 0; 2; 0; 0; x; y].
Definition piecewise_cost : cost := mkCost (num 1) (Num (num 0)) (Num (num 0)) (num 2) [Num (num 0)] (Num (num 0)).
Lemma piecewise_ok V x y : x < 10 -> y < 10 -> cost_ok V piecewise_cost (piecewise x y).
Proof.
  intros Lx Ly. exists (dword false 1), (dword false 0), (dword false 0), (dword false 2), [dword false 0], (dword false 0), [dword false x; dword true y]. sp.
  - apply (dline_written [1; 0; 0; 2; 0; 0; x; y]). dig.
  - apply (digit_holds false Whole); auto; lia.
  - apply digit_holds; auto; lia.
  - apply digit_holds; auto; lia.
  - apply (digit_holds false Whole); auto; lia.
  - reflexivity.
  - constructor; [apply digit_holds; auto; lia|constructor].
  - apply digit_holds; auto; lia.
  - destruct (v_keeps_text V); [exact I|]. exists (num 0). split; [reflexivity|apply num_plain].
Qed.
(** NCOST counts the points of a piecewise-linear cost, and each point has two numbers; half of them is lost. *)
Theorem C124_refuted : forall V, exists l l', l <> l' /\ forall rest, convert V (header "gencost" :: l :: rest) = convert V (header "gencost" :: l' :: rest).
Proof.
  intros V. exists (piecewise 5 9), (piecewise 8 3). split; [discriminate|]. intros rest.
  apply (same_cost_file V [] (header "gencost") [] closing piecewise_cost); [constructor| |apply piecewise_ok; lia|apply piecewise_ok; lia].
  cbn [section_ok]. sp; [apply header_ok; cbn; auto 6|constructor|apply closing_ok].
Qed.
Print Assumptions C124_refuted.

(** In every file: the words of a cost row after the first 4 + NCOST have no effect. *)
Theorem C124_tail_partial : forall V ss h b cl r l l' rest, Forall (section_ok V) ss -> section_ok V (Costs h b cl) -> cost_ok V r l -> cost_ok V r l' ->
  convert V (flat_map section_lines ss ++ (h :: map snd b) ++ l :: rest) = convert V (flat_map section_lines ss ++ (h :: map snd b) ++ l' :: rest).
Proof. intros V ss h b cl r l l' rest. exact (same_cost_file V ss h b cl r l l' rest). Qed.
Print Assumptions C124_tail_partial.

Example C124_witness : forall V, cost_ok V piecewise_cost (piecewise 5 9) /\ cost_ok V piecewise_cost (piecewise 8 3) /\ section_ok V (dcosts [(1, 2, 0)]).
Proof. intros V. sp; [apply piecewise_ok; lia|apply piecewise_ok; lia|apply dcosts_ok; dig]. Qed.

(* ------------------------------------------------------------------ *)
(** ** C125 *)

(** A cost row whose constant term is 0.5. *)
Definition half : numeral := mkNum false [0] (Some [5]) None.
Lemma half_ok : numeral_ok half.
Proof. split; unfold half, digits; cbn; try discriminate; repeat constructor; lia. Qed.
Definition decimal_cost_row : cost := mkCost (num 2) (Num (num 0)) (Num (num 0)) (num 2) [Num (num 3)] (Num half).
Definition decimal_line : text := line ["2"; "0"; "0"; "2"; "3"; "0.5;"].
Lemma decimal_line_is : cost_row_is decimal_cost_row decimal_line.
Proof.
  exists (dword false 2), (dword false 0), (dword false 0), (dword false 2), [dword false 3], (word_of "0.5;"), []. sp.
  - apply (written_line ["2"; "0"; "0"; "2"; "3"; "0.5;"]). reflexivity.
  - apply (digit_holds false Whole); auto; lia.
  - apply digit_holds; auto; lia.
  - apply digit_holds; auto; lia.
  - apply (digit_holds false Whole); auto; lia.
  - reflexivity.
  - constructor; [apply digit_holds; auto; lia|constructor].
  - split; [exact half_ok|]. exists [";"%char]. split; [reflexivity|repeat constructor].
Qed.
(** It is rejected. *)
Theorem C125_refuted : forall V, v_keeps_text V = false -> exists r l, cost_row_is r l /\ (numeral_value (co_model r) == 2)%Q /\ convert V [header "gencost"; l; closing] = Err ValueError.
Proof.
  intros V K. exists decimal_cost_row, decimal_line. sp; [exact decimal_line_is|reflexivity|]. destruct V as [[|] [|] [|] [|]]; try discriminate; vm_compute; reflexivity.
Qed.
Print Assumptions C125_refuted.

(** The copies that read the last coefficient as an integer reject every file with a cost row whose last coefficient
    has a point or an exponent or is infinite. *)
Theorem C125_decimal_partial : forall V ss h b cl r l rest, v_keeps_text V = false -> Forall (section_ok V) ss -> section_ok V (Costs h b cl) -> cost_row_is r l ->
  ~ (exists n, co_last r = Num n /\ plain n) -> convert V (flat_map section_lines ss ++ (h :: map snd b) ++ l :: rest) = Err ValueError.
Proof. intros V ss h b cl r l rest. exact (decimal_cost_file V ss h b cl r l rest). Qed.
Print Assumptions C125_decimal_partial.

Example C125_witness : v_keeps_text planner_copy = false /\ section_ok planner_copy (dcosts [(1, 2, 0)]) /\ cost_row_is decimal_cost_row decimal_line /\ ~ (exists n, co_last decimal_cost_row = Num n /\ plain n).
Proof. sp; [reflexivity|apply dcosts_ok; dig|exact decimal_line_is|]. intros (n & E & P & _). injection E as <-. discriminate. Qed.

(* ------------------------------------------------------------------ *)
(** ** C126 *)

(** A comment line between the rows of a table stops the conversion. *)
Theorem C126_refuted : forall V, exists a b l, convert V (a ++ [l] ++ b) = Err ValueError /\ (exists c, convert V (a ++ b) = Ok c) /\ exists w ws, written l (w :: ws) /\ comment w.
Proof.
  intros V. exists [header "bus"; dline (hd [] bus_rows)], (map dline (tl bus_rows) ++ [closing]), (line ["%"; "load"; "bus"]). sp.
  - destruct V as [[|] [|] [|] [|]]; vm_compute; reflexivity.
  - destruct V as [[|] [|] [|] [|]]; eexists; vm_compute; reflexivity.
  - exists (word_of "%"), [word_of "load"; word_of "bus"]. split; [apply (written_line ["%"; "load"; "bus"]); reflexivity|]. exists []. reflexivity.
Qed.
Print Assumptions C126_refuted.

(** In every table of every file, after any number of rows. *)
Theorem C126_inside_partial : forall V ss s l w ws rest, Forall (section_ok V) ss -> section_ok V s -> match s with Note _ | BaseMVA _ _ => False | _ => True end -> written l (w :: ws) -> (exists r, w = "%"%char :: r) ->
  convert V (flat_map section_lines ss ++ open_lines s ++ l :: rest) = Err ValueError.
Proof. intros V ss s l w ws rest. exact (comment_stops V ss s l w ws rest). Qed.
Print Assumptions C126_inside_partial.

(** Between the tables comments have no effect. *)
Theorem C126_between_partial : forall V ss l w ws rest, Forall (section_ok V) ss -> written l (w :: ws) -> (exists r, w = "%"%char :: r) ->
  convert V (flat_map section_lines ss ++ l :: rest) = convert V (flat_map section_lines ss ++ rest).
Proof.
  intros V ss l w ws rest F W C. destruct (convert_prefix V ss F) as (c & E & _). rewrite !E. rewrite quiet_line by exact (comment_quiet V w ws l W C). rewrite (split_written _ _ W).
  assert (R : rows V (w :: ws) no_flags c = Ok (no_flags, c)).
  { unfold rows. destruct (closes (w :: ws)); [reflexivity|]. cbn [no_flags f_bus f_gen f_branch f_cost f_dp f_dq rbind fst snd]. now destruct c. }
  rewrite R. reflexivity.
Qed.
Print Assumptions C126_between_partial.

Example C126_witness : forall V, section_ok V (dtable "bus" bus_rows) /\ Forall (section_ok V) (small_file 5) /\ written (line ["%"; "load"]) [word_of "%"; word_of "load"].
Proof. intros V. sp; [eapply dtable_ok; [reflexivity|]; dig|apply small_file_ok; lia|apply (written_line ["%"; "load"]); reflexivity]. Qed.

(* ------------------------------------------------------------------ *)
(** ** C127 *)

(** The reader of C89 finds the table after "mpc.bus=[", the converter does not, and does not complain. *)
Theorem C127_refuted : forall V, exists ls vars, build_mat ls = Ok vars /\ (exists t, d_get "bus" vars = Some (Table t) /\ List.length t = 2) /\ convert V ls = Ok empty_case.
Proof.
  intros V. exists (line ["mpc.bus=["] :: map dline bus_rows ++ [closing]). eexists. sp.
  - vm_compute. reflexivity.
  - eexists. split; reflexivity.
  - destruct V as [[|] [|] [|] [|]]; vm_compute; reflexivity.
Qed.
Print Assumptions C127_refuted.

(** A file in which no line begins with one of the known names as a word of its own is converted to the empty case,
    without error. *)
Theorem C127_silent_partial : forall V ls, Forall (fun l => exists ws, written l ws /\ match ws with [] => True | w :: _ => ~ In w (headers V) end) ls -> convert V ls = Ok empty_case.
Proof.
  intros V ls F. unfold convert. generalize empty_case as c. induction F as [|l ls (ws & W & N) F IH]; intros c; [reflexivity|]. rewrite <- (IH c).
  assert (OK : section_ok V (Note l)) by (exists ws; auto). destruct (convert_prefix V [Note l]) as (c1 & E & _); [constructor; auto|].
  assert (K : quiet V l).
  { unfold quiet. rewrite (split_written _ _ W). destruct ws as [|w ws]; [reflexivity|]. unfold head_of.
    assert (X : forall s, In (word_of s) (headers V) -> text_eqb w (word s) = false) by (intros s I; apply text_eqb_false; intros ->; contradiction).
    unfold headers in X. rewrite map_app in X. rewrite !X by (rewrite in_app_iff; left; apply in_map; cbn; tauto).
    destruct (v_demands V); cbn [andb]; auto. rewrite !X by (rewrite in_app_iff; right; apply in_map; cbn; tauto). reflexivity. }
  rewrite quiet_line by exact K. rewrite (split_written _ _ W). destruct ws as [|w ws]; [reflexivity|].
  assert (R : rows V (w :: ws) no_flags c = Ok (no_flags, c)).
  { unfold rows. destruct (closes (w :: ws)); [reflexivity|]. cbn [no_flags f_bus f_gen f_branch f_cost f_dp f_dq rbind fst snd]. now destruct c. }
  rewrite R. reflexivity.
Qed.
Print Assumptions C127_silent_partial.

(** On every file that is well-formed for both, with each table given once, they agree: baseMVA and every number of bus,
    gen and branch (whole numbers without fraction). *)
Theorem C127_agreement_partial : forall V ss ps, Forall2 both ss ps -> Forall (section_ok V) ss -> Forall part_ok ps -> (forall name, layout name <> None -> once name ss) ->
  exists c vars, convert V (flat_map section_lines ss) = Ok c /\ build_mat (flat_map section_lines ss) = Ok vars /\
    (match k_base c, d_get "baseMVA" vars with Some (Fin p), Some (Scalar q) => (p == q)%Q | None, None => True | _, _ => False end) /\
    forall name cols j col k, layout name = Some cols -> nth_error cols j = Some (col, k) -> exists vs, d_get col (the_table name c) = Some vs /\
      match d_get name vars with Some (Table t) => Forall2 (fun row v => exists q, nth_error row j = Some q /\ agrees k q v) t vs | Some (Scalar _) => False | None => vs = [] end.
Proof. exact readers_agree. Qed.
Print Assumptions C127_agreement_partial.

Definition dpart (name : string) (rows : list (list nat)) : part := MatFileSpec.Matrix name (header name) (map (fun ds => (map num ds, dline ds)) rows) closing.
Lemma dpart_both name rows : layout name <> None -> both (dtable name rows) (dpart name rows).
Proof.
  intros L. constructor; [exact L|]. induction rows as [|ds rows IH]; constructor; auto. split; [|reflexivity]. cbn [fst]. unfold drow. now rewrite map_map.
Qed.
Lemma digit_number_word last d : d < 10 -> number_word (num d) (dword last d).
Proof.
  intros L. split; [now apply num_ok|]. exists [], (if last then [";"%char] else []). sp; auto. destruct last; repeat constructor; cbn; auto.
Qed.
Lemma dpart_ok name cols rows : layout name = Some cols -> Forall (fun ds => List.length ds = List.length cols /\ Forall (fun d => d < 10) ds) rows -> part_ok (dpart name rows).
Proof.
  intros L F. exists (List.length cols). sp.
  - destruct (layout_name name cols L) as [->|[->| ->]]; injection L as <-; reflexivity.
  - exists (mpc name), [word_of "="; word_of "["]. sp.
    + destruct (layout_name name cols L) as [->|[->| ->]]; apply (written_line [_; _; _]); reflexivity.
    + split; [|now left]. destruct (layout_name name cols L) as [->|[->| ->]]; cbn; intuition discriminate.
    + destruct (layout_name name cols L) as [->|[->| ->]]; injection L as <-; cbn; lia.
  - intros ns l I. apply in_map_iff in I as (ds & E & I). injection E as <- <-. rewrite Forall_forall in F. destruct (F ds I) as [Ld Fd]. exists (dwords ds), []. rewrite List.app_nil_r, map_length. sp; auto; [now apply dline_written|].
    clear - Fd. induction Fd as [|d ds Ld Fd IH]; cbn [map dwords]; constructor; auto. now apply digit_number_word.
  - exists [word_of "];"]. split; [apply (written_line ["];"]); reflexivity|]. destruct (layout_name name cols L) as [->|[->| ->]]; injection L as <-; cbn; lia.
Qed.
Example C127_witness : forall V, exists ss ps, Forall2 both ss ps /\ Forall (section_ok V) ss /\ Forall part_ok ps /\ (forall name, layout name <> None -> once name ss) /\ List.length (rows_of "bus" ss) = 2.
Proof.
  intros V. exists [dtable "bus" bus_rows; dtable "branch" branch_rows], [dpart "bus" bus_rows; dpart "branch" branch_rows]. sp.
  - repeat constructor; try apply dpart_both; discriminate.
  - repeat constructor; eapply dtable_ok; try reflexivity; dig.
  - repeat constructor; eapply dpart_ok; try reflexivity; dig.
  - intros name L. destruct (layout name) as [cols|] eqn:E; [|congruence]. destruct (layout_name name cols E) as [->|[->| ->]]; vm_compute; lia.
  - reflexivity.
Qed.

(* ------------------------------------------------------------------ *)
(** ** C128 *)

(** A file that describes a network (finite numbers, branches and generators at buses of the file, a reference bus, one
    polynomial cost per generator, no branch without reactance) is converted to a well-formed case, and the screening
    model accepts it exactly if PMAX of its first generator is positive. *)
Theorem C128_file_is_screened : forall V ss A, v_keeps_text V = false -> Forall (section_ok V) ss -> ConverterScreen.network ss -> ConverterScreen.fits ss A ->
  exists c M, convert V (flat_map section_lines ss) = Ok c /\ ConverterScreen.as_mpc c = Some M /\ ScreeningSpec.well_formed M A /\
    ((exists cs, Screening.constraints M A = Ok cs) <-> exists r rest q, rows_of "gen" ss = r :: rest /\ ConverterScreen.number_at r 8 q /\ (0 < q)%Q).
Proof.
  intros V ss A K F N Ft. destruct (convert_ok V ss F) as (c & E & H). destruct (ConverterScreen.file_is_network V ss c K H N) as (M & EM & P & W). exists c, M. specialize (W A Ft). sp; auto.
  rewrite (Properties_Screening.C115_accepted_partial M A W). pose proof (ScreeningSpec.wf_pmax M A W) as Lp. pose proof (ScreeningSpec.wf_gen M A W) as Lg. inversion P as [Eg Ep|r q rest qs Nq FF Eg Ep]; [rewrite <- Ep in Lp; cbn in Lp; lia|]. cbn [nth]. split.
  - intros X. exists r, rest, q. auto.
  - intros (r' & rest' & q' & E' & (n' & En' & Q') & X). injection E' as <- <-. destruct Nq as (n & En & Qn). rewrite En in En'. injection En' as <-. now rewrite <- Qn, Q'.
Qed.
Print Assumptions C128_file_is_screened.

Definition small_setup : Screening.setup := Screening.mkSetup false true 1 10 [[1%Z]] [0%Q] [] [] [1; 1]%Q [0; 0]%Q 1.
Example C128_witness : Forall (section_ok planner_copy) (small_file 5) /\ ConverterScreen.network (small_file 5) /\ ConverterScreen.fits (small_file 5) small_setup.
Proof.
  assert (W : forall ds j d, nth_error ds j = Some d -> d < 10 -> ConverterScreen.whole_at (drow ds) j (Z.of_nat d)).
  { intros ds j d E L. exists (num d). unfold drow. rewrite nth_error_map, E. split; [reflexivity|]. apply whole_exact. do 10 (destruct d as [|d]; [reflexivity|]). lia. }
  assert (N : forall ds j d, nth_error ds j = Some d -> d < 10 -> ConverterScreen.number_at (drow ds) j (inject_Z (Z.of_nat d))).
  { intros ds j d E L. exists (num d). unfold drow. rewrite nth_error_map, E. split; [reflexivity|]. do 10 (destruct d as [|d]; [reflexivity|]). lia. }
  assert (B : rows_of "bus" (small_file 5) = map drow bus_rows) by reflexivity. assert (G : rows_of "gen" (small_file 5) = map drow (gen_rows 5)) by reflexivity. assert (R : rows_of "branch" (small_file 5) = map drow branch_rows) by reflexivity.
  split; [apply small_file_ok; lia|]. split; constructor; rewrite ?B, ?G, ?R; try discriminate; try reflexivity.
  - exists (num 9). split; [reflexivity|discriminate].
  - repeat apply Forall_cons; try apply Forall_nil; split; eexists; apply N; try reflexivity; lia.
  - repeat apply Forall_cons; try apply Forall_nil; split; [|eexists; apply N; [reflexivity|lia]]. eexists. split; [apply N; [reflexivity|lia]|discriminate].
  - repeat apply Forall_cons; try apply Forall_nil; split; eexists; apply N; try reflexivity; lia.
  - repeat apply Forall_cons; try apply Forall_nil. exists 1%Z, (drow (nth 0 bus_rows [])). sp; [apply (W _ 0 1); [reflexivity|lia]|now left|apply (W _ 0 1); [reflexivity|lia]].
  - repeat apply Forall_cons; try apply Forall_nil. exists 2%Z, (drow (nth 1 bus_rows [])). sp; [apply (W _ 1 2); [reflexivity|lia]|right; now left|apply (W _ 0 2); [reflexivity|lia]].
  - repeat apply Forall_cons; try apply Forall_nil.
    + exists 1%Z, (drow (nth 0 bus_rows [])). sp; [apply (W _ 0 1); [reflexivity|lia]|now left|apply (W _ 0 1); [reflexivity|lia]].
    + exists 2%Z, (drow (nth 1 bus_rows [])). sp; [apply (W _ 0 2); [reflexivity|lia]|right; now left|apply (W _ 0 2); [reflexivity|lia]].
  - exists (drow (nth 0 bus_rows [])). split; [now left|]. apply (W _ 1 3); [reflexivity|lia].
  - repeat apply Forall_cons; try apply Forall_nil; (split; [reflexivity|]); repeat constructor.
  - repeat constructor.
  - now left.
  - now left.
Qed.

(* ------------------------------------------------------------------ *)
(** ** C129 *)

(** Two buses 1.2 and 1.7. *)
Definition odd_bus (n s : string) : text := line [n; "1"; "0"; "0"; "0"; "0"; "1"; "1"; "0"; "9"; "1"; "2"; "0;"].
(** The copy used by the planner gives both the number 1, without complaint; the other two reject the file. *)
Theorem C129_refuted : exists ls, (exists c, convert planner_copy ls = Ok c /\ d_get "BUS_I" (k_bus c) = Some [VI 1; VI 1]) /\
  convert optimiser_copy ls = Err ValueError /\ convert engine_copy ls = Err ValueError.
Proof.
  exists [header "bus"; odd_bus "1.2" ""; odd_bus "1.7" ""; closing]. sp; [eexists; split; vm_compute; reflexivity| |]; vm_compute; reflexivity.
Qed.
Print Assumptions C129_refuted.

(** In a well-formed file the whole columns hold the entries without fraction, hence every entry that is a whole
    number, however it is written, is stored exactly. *)
Theorem C129_whole_partial : forall V ss c, Forall (section_ok V) ss -> convert V (flat_map section_lines ss) = Ok c ->
  forall name cols j col, layout name = Some cols -> nth_error cols j = Some (col, Whole) -> exists vs, d_get col (the_table name c) = Some vs /\
  Forall2 (fun r v => exists n z, nth_error r j = Some (Num n) /\ v = VI z /\ (forall m, (numeral_value n == inject_Z m)%Q -> z = m) /\ (0 <= numeral_value n -> inject_Z z <= numeral_value n /\ numeral_value n < inject_Z (z + 1))%Q) (rows_of name ss) vs.
Proof.
  intros V ss c F E name cols j col L En. destruct (convert_ok V ss F) as (c' & E' & _ & _ & HT & _). rewrite E in E'. injection E' as <-. destruct (HT name cols L) as (_ & T). destruct (T j col Whole En) as (vs & G & FF). exists vs. split; [exact G|].
  clear - FF. induction FF as [|r v rs vs (e & Ee & S0) FF IH]; constructor; [|exact IH]. destruct v as [z| |]; try contradiction. destruct S0 as (n & -> & W). exists n, z. sp; auto.
  - intros m Em. apply (whole_unique z m _ W). apply whole_exact. now symmetry.
  - apply W.
Qed.
Print Assumptions C129_whole_partial.

(** An infinite number in the first column of a table stops every copy. *)
Theorem C129_infinite_partial : forall V ss name h l neg ws rest, Forall (section_ok V) ss -> layout name <> None -> begins (mpc name) h ->
  written l (entry_text (Infinite neg) :: ws) -> convert V (flat_map section_lines ss ++ h :: l :: rest) = Err ValueError.
Proof.
  intros V ss name h l neg ws rest F L B W. apply (first_word_bad V ss name h l (entry_text (Infinite neg)) ws rest); auto; [|destruct neg; discriminate|apply infinite_whole].
  unfold headers. intros I. apply in_map_iff in I as (s & E & I). apply in_app_iff in I as [I|I]; [|destruct (v_demands V)]; cbn in I; decompose [or] I; subst; try contradiction; destruct neg; discriminate E.
Qed.
Print Assumptions C129_infinite_partial.

Example C129_witness : Forall (section_ok planner_copy) (small_file 5) /\ exists cols, layout "bus" = Some cols /\ nth_error cols 0 = Some ("BUS_I", Whole).
Proof. split; [apply small_file_ok; lia|]. eexists. split; reflexivity. Qed.

(* ------------------------------------------------------------------ *)
(** ** C130 *)

(** A table that is not closed by a line starting with "];" takes the rows of the next table: here two buses become two
    costs. *)
Theorem C130_refuted : forall V, exists ls c, convert V (line ["mpc.gencost"; "="; "[2"; "0"; "0"; "2"; "0"; "0];"] :: line [] :: ls) = Ok c /\
  convert V ls <> Ok c /\ ls = header "bus" :: map dline [[1; 0; 0; 0; 0; 0; 1; 1; 0; 9; 1; 2; 0]; [2; 0; 5; 1; 0; 0; 1; 1; 0; 9; 1; 2; 0]] ++ [closing] /\
  c_model (k_costs c) = [1; 2]%Z /\ k_no_bus c = 2.
Proof.
  intros V. exists (header "bus" :: map dline [[1; 0; 0; 0; 0; 0; 1; 1; 0; 9; 1; 2; 0]; [2; 0; 5; 1; 0; 0; 1; 1; 0; 9; 1; 2; 0]] ++ [closing]).
  destruct V as [[|] [|] [|] [|]]; eexists; (split; [vm_compute; reflexivity|]); (split; [vm_compute; discriminate|]); (split; [reflexivity|]); split; reflexivity.
Qed.
Print Assumptions C130_refuted.

(** With the header of another table right after that of an unclosed gencost, as in
    mpc.gencost = [2 0 0 2 0 0]; mpc.bus = [ on two lines, the copies that take the line after the header as a row stop. *)
Theorem C130_header_partial : forall V ss h l w ws rest, v_row_at_once V = true -> Forall (section_ok V) ss -> begins (mpc "gencost") h -> written l (w :: ws) -> In w (headers V) ->
  convert V (flat_map section_lines ss ++ h :: l :: rest) = Err ValueError.
Proof.
  intros V ss h l w ws rest VR F (hs & Wh) W I. destruct (convert_prefix V ss F) as (c & E & _). rewrite E. cbn [convert_lines]. rewrite (split_written _ _ Wh). change (head_of V (mpc "gencost" :: hs)) with HCost. cbn match. rewrite VR, (split_written _ _ W).
  assert (M : exists r, w = "m"%char :: r).
  { unfold headers in I. apply in_map_iff in I as (s & <- & I). apply in_app_iff in I as [I|I]; [|destruct (v_demands V)]; cbn in I; decompose [or] I; subst; try contradiction; eexists; reflexivity. }
  destruct M as (r & ->).
  assert (NB : closes (("m"%char :: r) :: ws) = false) by (unfold closes; apply text_eqb_false; discriminate).
  unfold rows. match goal with |- context [closes ?x] => replace (closes x) with false by (symmetry; exact NB) end. cbn [open no_flags f_bus f_gen f_branch f_cost f_dp f_dq rbind fst snd].
  unfold cost_row, nth_word. cbn [nth_error]. rewrite bind_ok; cbv beta. rewrite (read_int_bad _ "m"%char); [reflexivity|now left|reflexivity|discriminate|discriminate|discriminate].
Qed.
Print Assumptions C130_header_partial.

(** While the tables [names] are open, every line that is a row of each of them is stored in each of them, and in
    no other table. *)
Theorem C130_open_partial : forall V ss names hs l R, Forall (section_ok V) ss -> names <> [] -> Forall2 (fun n h => layout n <> None /\ begins (mpc n) h) names hs ->
  (forall n cols, In n names -> layout n = Some cols -> row_ok (v_truncates V) cols (R n) l) ->
  exists c, convert V (flat_map section_lines ss ++ hs ++ [l]) = Ok c /\
  forall n cols, layout n = Some cols -> (In n names -> holds_rows cols (rows_of n ss ++ [R n]) (the_table n c)) /\ (~ In n names -> holds_rows cols (rows_of n ss) (the_table n c)).
Proof.
  intros V ss names hs l R F N FH RO. destruct (convert_prefix V ss F) as (c & E & H). rewrite E, (table_headers V names hs) by auto.
  assert (FL : Forall (fun n => layout n <> None) names) by (clear - FH; induction FH as [|n h ns hs (L & _) FH IH]; constructor; auto).
  destruct (open_row V names ss c l R H N FL RO) as (Q & c' & EC & HC). rewrite (quiet_line V _ _ _ _ Q), EC. exists c'. split; [reflexivity|]. intros n cols L. specialize (HC n cols L). split; intros I.
  - replace (existsb (String.eqb n) names) with true in HC; [exact HC|]. symmetry. apply existsb_exists. exists n. split; [exact I|apply String.eqb_refl].
  - replace (existsb (String.eqb n) names) with false in HC; [now rewrite List.app_nil_r in HC|]. symmetry. apply Bool.not_true_is_false. intros X. apply existsb_exists in X as (n' & I' & X). apply String.eqb_eq in X. now subst.
Qed.
Print Assumptions C130_open_partial.

(** A bus and a branch at once: the header of branch follows that of bus. *)
Example C130_open_witness : Forall2 (fun n h => layout n <> None /\ begins (mpc n) h) ["bus"; "branch"] [header "bus"; header "branch"] /\
  forall V n cols, In n ["bus"; "branch"] -> layout n = Some cols -> row_ok (v_truncates V) cols (drow [1; 3; 0; 0; 0; 0; 1; 1; 0; 9; 1; 2; 0]) (dline [1; 3; 0; 0; 0; 0; 1; 1; 0; 9; 1; 2; 0]).
Proof.
  split; [repeat constructor; try discriminate; apply header_ok; cbn; auto|]. intros V n cols I L. apply (drow_ok _ n); auto; [|dig]. destruct I as [<-|[<-|[]]]; injection L as <-; reflexivity.
Qed.

Example C130_witness : v_row_at_once planner_copy = true /\ begins (mpc "gencost") (line ["mpc.gencost"; "="; "[2"; "0"; "0"; "2"; "0"; "0];"]) /\ written (header "bus") [mpc "bus"; word_of "="; word_of "["] /\ In (mpc "bus") (headers planner_copy).
Proof. sp; [reflexivity|eexists; apply (written_line (_ :: _)); reflexivity|apply (written_line [_; _; _]); reflexivity|cbn; auto]. Qed.

(* ------------------------------------------------------------------ *)
(** ** C143 *)

(** The words that are whole numbers, and their values. *)
Theorem C143_whole_words : forall w z, read_int w = Ok z <-> int_word w z.
Proof. exact read_int_word. Qed.
Print Assumptions C143_whole_words.

(** In the copies that do not truncate, a table whose first row has a first word that is no whole number stops the
    conversion, whatever follows; a row of one whole number extends the first column by it. *)
Theorem C143_first_column : forall V ss name h l w ws rest, v_truncates V = false -> Forall (section_ok V) ss -> layout name <> None -> begins (mpc name) h ->
  written l (w :: ws) -> ~ In w (headers V) -> w <> word_of "];" ->
  ((forall z, ~ int_word w z) -> convert V (flat_map section_lines ss ++ h :: l :: rest) = Err ValueError) /\
  (forall z, int_word w z -> ws = [] -> exists c c' vs, convert V (flat_map section_lines ss) = Ok c /\ convert V (flat_map section_lines ss ++ [h; l]) = Ok c' /\
     d_get (first_column name) (the_table name c) = Some vs /\ d_get (first_column name) (the_table name c') = Some (vs ++ [VI z])).
Proof.
  intros V ss name h l w ws rest VT F L B W NH NC. split.
  - intros N. eapply (first_word_bad V ss name); eauto. unfold read_whole. rewrite VT. destruct (read_int w) as [z|e] eqn:R; [exfalso; apply (N z); now apply read_int_word|].
    unfold read_int in R. destruct (drop_underscores false w); [|now injection R as <-]. destruct (sign t) as (neg, u). destruct (all_digits u); [discriminate|now injection R as <-].
  - intros z Z ->. eapply (first_word_good V ss name); eauto. unfold read_whole. rewrite VT. now apply read_int_word.
Qed.
Print Assumptions C143_first_column.

(** 1_0 is ten; 1__0, _1, 1_ and 1.0 are no whole numbers. *)
Example C143_witness : v_truncates engine_copy = false /\ int_word (word_of "-1_0") (-10) /\ ~ In (word_of "-1_0") (headers engine_copy) /\
  Forall (fun w => forall z, ~ int_word (word_of w) z) ["1__0"; "_1"; "1_"; "1.0"; "+-1"; ""].
Proof.
  sp; [reflexivity|apply read_int_word; reflexivity|cbn; intuition discriminate|]. repeat constructor; intros z H; apply read_int_word in H; discriminate.
Qed.
