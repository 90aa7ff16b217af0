(** The rows of the written tables, and the sections of the written file. *)
From Coq Require Import List String Ascii Bool Arith ZArith QArith Lia.
From Verif Require Import Base Container GraphDataProofs Reader NumeralSpec NumeralProofs MatFile MatFileSpec MatFileProofs Converter ConverterSpec ConverterProofs ConverterFile
  MatWriter MatWriterSpec MatWriterProofs.
Import ListNotations.
Open Scope string_scope.
Open Scope nat_scope.
Open Scope list_scope.

Local Ltac sp := repeat match goal with |- _ /\ _ => split end.

Section Repr.
Variable repr : Q -> text.
Hypothesis RESP : respects repr.
Variable N : wnet.
Hypothesis BASE : writable repr (wn_base N).

Definition columns_of (name : string) : list (string * kind) := match layout name with Some c => c | None => [] end.
Lemma columns_final name cols : layout name = Some cols -> forall j c, nth_error cols j = Some (c, Final) -> S j = List.length cols.
Proof.
  intros L j c E. destruct (layout_name name cols L) as [->|[->| ->]]; injection L as <-; do 21 (destruct j as [|j]; [cbn in E |- *; first [discriminate|reflexivity]|]); destruct j; discriminate.
Qed.
Lemma columns_last name cols : layout name = Some cols -> exists c, nth_error cols (List.length cols - 1) = Some (c, Final).
Proof. intros L. destruct (layout_name name cols L) as [->|[->| ->]]; injection L as <-; eexists; reflexivity. Qed.

(** A row of a table: cells, of which those in whole columns are whole. *)
Lemma cells_row_ok lax name cols vqs ns l suf extra : layout name = Some cols -> Forall2 (cell_of repr) vqs ns -> List.length vqs = List.length cols ->
  written l ((map numeral_text (removelast ns) ++ [numeral_text (last ns (mkNum false [] None None)) ++ suf]) ++ extra) -> Forall (eq ";"%char) suf ->
  (forall j c n, nth_error cols j = Some (c, Whole) -> nth_error ns j = Some n -> plain n) ->
  row_ok lax cols (map Num ns) l /\ row_means (map snd vqs) (map Num ns).
Proof.
  intros L F LE W S P. split; [|eapply cells_means; eauto]. assert (LN : List.length ns = List.length cols) by (rewrite <- LE; symmetry; eapply GraphDataProofs.Forall2_length; eauto).
  apply (numerals_row lax cols ns l suf extra); auto.
  - intros ->. destruct (layout_name name cols L) as [->|[->| ->]]; injection L as <-; discriminate.
  - eapply cells_ok; eauto.
  - eapply columns_final; eauto.
  - eapply columns_last; eauto.
Qed.

Local Ltac wn H n P := destruct (writable_numeral repr _ H) as (n & ? & P).
Local Ltac wh H n P := let W := fresh in pose proof (whole_writable repr _ H) as W; destruct (writable_numeral repr _ W) as (n & ? & P); specialize (P H).
Local Ltac sc H w n E := destruct (scaled_value repr RESP _ _ BASE H) as (w & n & E & ?).
Local Ltac plains := intros j c n Ec En; do 21 (destruct j as [|j]; [cbn in Ec, En; first [discriminate Ec|injection En as <-; auto; fail]|]); destruct j; discriminate Ec.

Local Ltac cells := repeat first [apply Forall2_nil|apply Forall2_cons; [assumption|]].

Lemma bus_line_ok lax b : bus_ok repr (wn_base N) b -> exists l r, bus_line repr (wn_base N) b = Ok l /\ row_ok lax (columns_of "bus") r l /\ row_means (bus_numbers N b) r.
Proof.
  intros (A1 & A2 & A3 & A4 & A5 & A6 & A7). wh A1 n1 P1. wh A2 n2 P2. sc A3 w3 n3 E3. sc A4 w4 n4 E4. wn A5 n5 P5. wn A6 n6 P6. wn A7 n7 P7.
  destruct (zero_numeral repr) as (n0 & Z0 & P0).
  unfold bus_line. rewrite E3, E4. cbn [rbind]. clear E3 E4.
  pose (vqs := [(wb_number b, num (wb_number b)); (wb_type b, num (wb_type b)); (w3, num (wb_p b) * num (wn_base N)); (w4, num (wb_q b) * num (wn_base N));
    (zero, 0); (zero, 0); (zero, 0); (zero, 0); (zero, 0); (wb_kv b, num (wb_kv b)); (zero, 0); (wb_vmax b, num (wb_vmax b)); (wb_vmin b, num (wb_vmin b))]%Q).
  pose (ns := [n1; n2; n3; n4; n0; n0; n0; n0; n0; n5; n0; n6; n7]).
  assert (F : Forall2 (cell_of repr) vqs ns) by (unfold vqs, ns; cells).
  eexists _, (map Num ns). split; [reflexivity|].
  change (bus_numbers N b) with (map snd vqs).  pose proof (cells_solid repr _ _ F) as SO.
  apply (cells_row_ok lax "bus" _ vqs ns _ (word ";") []); auto.
  - pose proof (line_semicolon repr [wb_number b; wb_type b; w3; w4; zero; zero; zero; zero; zero; wb_kv b; zero] [wb_vmax b] (wb_vmin b) SO) as W.
    rewrite (words_last repr vqs ns ([wb_number b; wb_type b; w3; w4; zero; zero; zero; zero; zero; wb_kv b; zero] ++ [wb_vmax b]) (wb_vmin b) (word ";") F eq_refl) in W.
    rewrite List.app_nil_r. exact W.
  - repeat constructor.
  - plains.
Qed.

Lemma gen_line_ok lax g : gen_ok repr (wn_base N) g -> exists l r, gen_line repr (wn_base N) g = Ok l /\ row_ok lax (columns_of "gen") r l /\ row_means (gen_numbers N g) r.
Proof.
  intros (A1 & A2 & A3 & A4 & A5 & A6). wh A1 n1 P1. wh A2 n2 P2. wn A3 n3 P3. wn A4 n4 P4. sc A5 w5 n5 E5. sc A6 w6 n6 E6.
  destruct (zero_numeral repr) as (n0 & Z0 & P0). unfold gen_line. rewrite E5, E6. cbn [rbind]. clear E5 E6.
  pose (vqs := [(wg_bus g, num (wg_bus g)); (zero, 0); (zero, 0); (wg_qmax g, num (wg_qmax g)); (wg_qmin g, num (wg_qmin g)); (zero, 0); (zero, 0); (wg_status g, num (wg_status g));
    (w5, num (wg_pmax g) * num (wn_base N)); (w6, num (wg_pmin g) * num (wn_base N)); (zero, 0); (zero, 0); (zero, 0); (zero, 0); (zero, 0); (zero, 0); (zero, 0); (zero, 0); (zero, 0); (zero, 0); (zero, 0)]%Q).
  pose (ns := [n1; n0; n0; n3; n4; n0; n0; n2; n5; n6; n0; n0; n0; n0; n0; n0; n0; n0; n0; n0; n0]).
  assert (F : Forall2 (cell_of repr) vqs ns) by (unfold vqs, ns; cells).
  eexists _, (map Num ns). split; [reflexivity|]. change (gen_numbers N g) with (map snd vqs). pose proof (cells_solid repr _ _ F) as SO.
  apply (cells_row_ok lax "gen" _ vqs ns _ [] [word ";"]); auto.
  - pose (A := [wg_bus g; zero; zero; wg_qmax g; wg_qmin g; zero; zero; wg_status g; w5; w6; zero]).
    pose (B := [zero; zero; zero; zero; zero; zero; zero; zero; zero]).
    pose proof (line_apart repr A (B ++ [zero]) SO) as W.
    replace (map (show repr) (A ++ B ++ [zero])) with (map (show repr) (A ++ B) ++ [show repr zero ++ []]) in W by (rewrite app_assoc, (map_app _ (A ++ B)), List.app_nil_r; reflexivity).
    rewrite (words_last repr vqs ns (A ++ B) zero [] F eq_refl) in W. exact W.
  - plains.
Qed.

Lemma branch_line_ok lax trafo e : branch_ok repr (wn_base N) trafo e ->
  exists l r, branch_line repr trafo (wn_base N) e = Ok l /\ row_ok lax (columns_of "branch") r l /\ row_means (branch_numbers N (trafo, e)) r.
Proof.
  intros ((a & b & more & EE & A1 & A2) & A3 & A4 & A5 & A6 & A7 & A8). wh A1 n1 P1. wh A2 n2 P2. wh A3 n3 P3. wn A4 n4 P4. wn A5 n5 P5. wn A6 n6 P6. sc A7 w7 n7 E7.
  destruct (zero_numeral repr) as (n0 & Z0 & P0).
  destruct (writable_numeral repr (PInt (-360)) I) as (na & Na & _). destruct (writable_numeral repr (PInt 360) I) as (nb & Nb & _).
  assert (T : exists nt, numeral_of repr (if trafo then we_tap e else zero) (if trafo then num (we_tap e) else 0) nt).
  { destruct trafo; [|eauto]. destruct (writable_numeral repr _ (A8 eq_refl)) as (nt & Ht & _). eauto. }
  destruct T as (nt & Nt).
  unfold branch_line. rewrite EE. change (py_index (a :: b :: more) 0) with (Ok a). 
  assert (PB : py_index (a :: b :: more) 1 = Ok b) by (unfold py_index; reflexivity). rewrite PB, E7. cbn [rbind]. clear E7.
  assert (AN : exists n12 n13, numeral_of repr (if trafo then PInt (-360) else zero) (if trafo then inject_Z (-360) else 0) n12 /\ numeral_of repr (if trafo then PInt 360 else zero) (if trafo then inject_Z 360 else 0) n13).
  { destruct trafo; eauto. }
  destruct AN as (n12 & n13 & N12 & N13).
  pose (vqs := [(a, num a); (b, num b); (we_r e, num (we_r e)); (we_x e, num (we_x e)); (we_b e, num (we_b e)); (w7, num (we_limit e) * num (wn_base N)); (zero, 0); (zero, 0);
    (if trafo then we_tap e else zero, if trafo then num (we_tap e) else 0); (zero, 0); (we_status e, num (we_status e));
    (if trafo then PInt (-360) else zero, if trafo then inject_Z (-360) else 0); (if trafo then PInt 360 else zero, if trafo then inject_Z 360 else 0)]%Q).
  pose (ns := [n1; n2; n4; n5; n6; n7; n0; n0; nt; n0; n3; n12; n13]).
  assert (F : Forall2 (cell_of repr) vqs ns) by (unfold vqs, ns; cells).
  eexists _, (map Num ns). split; [reflexivity|].
  assert (BN : branch_numbers N (trafo, e) = map snd vqs) by (unfold branch_numbers, end_of; rewrite EE; destruct trafo; reflexivity). rewrite BN.
  pose proof (cells_solid repr _ _ F) as SO.
  apply (cells_row_ok lax "branch" _ vqs ns _ (word ";") []); auto.
  - pose (A := [a; b; we_r e; we_x e; we_b e; w7; zero; zero; if trafo then we_tap e else zero; zero; we_status e]).
    pose proof (line_semicolon repr A [if trafo then PInt (-360) else zero] (if trafo then PInt 360 else zero) SO) as W.
    rewrite (words_last repr vqs ns (A ++ [if trafo then PInt (-360) else zero]) (if trafo then PInt 360 else zero) (word ";") F eq_refl) in W.
    rewrite List.app_nil_r. destruct trafo; exact W.
  - repeat constructor.
  - plains.
Qed.

(** The costs. *)
Definition cost_means (g : wgen) (r : cost) : Prop :=
  (numeral_value (co_model r) == 2)%Q /\ (exists m, co_startup r = Num m /\ numeral_value m == 0)%Q /\ (exists m, co_shutdown r = Num m /\ numeral_value m == 0)%Q /\
  exists first last n, wg_costs g = first ++ [last] /\ row_means (map num first) (co_first r) /\ co_last r = Num n /\ numeral_of repr last (num last) n.
Lemma list_numerals vs : Forall (writable repr) vs -> exists ns, Forall2 (cell_of repr) (map (fun v => (v, num v)) vs) ns.
Proof.
  induction 1 as [|v vs W F IH]; [exists []; constructor|]. destruct IH as (ns & IH). destruct (writable_numeral repr v W) as (n & H & _). exists (n :: ns). constructor; auto.
Qed.
Lemma cells_reals vqs ns : Forall2 (cell_of repr) vqs ns -> Forall2 (holds false Real) (map Num ns) (map (show repr) (map fst vqs)).
Proof. induction 1 as [|vq n vqs ns (A & B & C) F IH]; cbn [map]; constructor; auto. split; [exact A|exact B]. Qed.
Lemma cost_line_ok V g : cost_fine repr V g -> exists l r, cost_line repr g = Ok l /\ cost_ok V r l /\ cost_means g r.
Proof.
  intros (first & z & EC & F1 & W & K). destruct (list_numerals first F1) as (ns & Fn). destruct (writable_numeral repr z W) as (m & (M1 & M2 & M3) & MP).
  destruct (writable_numeral repr (PInt 2) I) as (n2 & (T1 & T2 & T3) & T4). specialize (T4 (ex_intro _ _ eq_refl)). destruct (zero_numeral repr) as (n0 & (Z1 & Z2 & Z3) & Z4).
  destruct (writable_numeral repr (PInt (Z.of_nat (List.length (wg_costs g)))) I) as (nl & (L1 & L2 & L3) & L4). specialize (L4 (ex_intro _ _ eq_refl)).
  eexists _, (mkCost n2 (Num n0) (Num n0) nl (map Num ns) (Num m)). split; [reflexivity|].
  pose proof (cells_solid repr _ _ Fn) as SO. pose proof (cells_reals _ _ Fn) as RE. pose proof (cells_show repr _ _ Fn) as SH. pose proof (cells_means repr _ _ Fn) as ME.
  pose proof (GraphDataProofs.Forall2_length _ _ _ Fn) as LN. rewrite map_length in LN.
  assert (MF : map fst (map (fun v => (v, num v)) first) = first) by (rewrite map_map; apply map_id). rewrite MF in SO, RE, SH. rewrite map_map in ME. cbn [snd] in ME. split.
  - exists (show repr (PInt 2)), (show repr zero), (show repr zero), (show repr (PInt (Z.of_nat (List.length (wg_costs g))))), (map (show repr) first), (show repr z ++ word ";"), [].
    cbn [co_model co_startup co_shutdown co_ncost co_first co_last]. sp.
    + assert (S4 : Forall (fun v => solid (show repr v)) (([PInt 2; zero; zero; PInt (Z.of_nat (List.length (wg_costs g)))] ++ first) ++ [z])).
      { apply Forall_app. split; [apply Forall_app; split; auto|].
        - repeat (apply Forall_cons; [first [rewrite T2; now apply numeral_solid|rewrite Z2; now apply numeral_solid|rewrite L2; now apply numeral_solid]|]). apply Forall_nil.
        - repeat constructor; rewrite M2; now apply numeral_solid. }
      pose proof (line_plain repr _ _ S4) as X. rewrite EC at 2. rewrite app_assoc. rewrite map_app, <- app_assoc in X. exact X.
    + exists n2. sp; auto.
    + split; auto.
    + split; auto.
    + exists nl. sp; auto.
    + rewrite L3. unfold num, num_of. rewrite EC, app_length, map_length. cbn [List.length]. rewrite LN. now rewrite Nat.add_1_r.
    + exact RE.
    + split; [exact M1|]. exists (word ";"). split; [now rewrite M2|repeat constructor].
    + destruct (v_keeps_text V); [exact I|]. exists m. split; auto.
  - unfold cost_means. cbn [co_model co_startup co_shutdown co_first co_last]. sp; eauto. exists first, z, m. sp; auto. unfold numeral_of. auto.
Qed.
End Repr.
