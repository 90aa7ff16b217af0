(** Properties C269-C275: the MATPOWER case files that pyene2any.pyene2matpower writes. *)
From Coq Require Import List String Ascii Bool Arith ZArith QArith Lia.
From Coq Require QArith.Qcanon.
From Verif Require Import Base Container GraphDataProofs NumeralSpec NumeralProofs MatFile MatFileSpec Converter ConverterSpec ConverterProofs MatWriter MatWriterSpec MatWriterProofs MatWriterFail.
Import ListNotations.
Open Scope string_scope.
Open Scope nat_scope.
Open Scope list_scope.

Local Ltac sp := repeat match goal with |- _ /\ _ => split end.

(** A network of two buses with a generator, a line and a transformer, for the examples.  Its floating-point numbers are whole. *)
Definition sample_repr (q : Q) : text := word (str_Z (Qnum (Qred q))) ++ word ".0".
Lemma sample_respects : respects sample_repr.
Proof. intros p q E. unfold sample_repr. now rewrite (Qred_complete _ _ E). Qed.
Lemma sample_printed q z : (q == inject_Z z)%Q -> printed sample_repr q.
Proof.
  intros EQ. unfold printed, sample_repr. rewrite (Qred_complete _ _ EQ). assert (E : Qred (inject_Z z) = inject_Z z) by (apply QArith.Qcanon.Qred_identity; apply Z.gcd_1_r). rewrite E. cbn [Qnum inject_Z]. clear E.
  destruct (int_numeral z) as (n & O & (P1 & P2) & T & V). exists (mkNum (nu_neg n) (nu_int n) (Some [0]) None). destruct n as [ng di fr ex]. cbn [nu_neg nu_int nu_frac nu_exp] in *. subst fr ex. sp.
  - destruct O as [A B C D]. split; cbn [nu_int nu_exp frac_digits nu_frac] in *; auto; [repeat constructor|intros X; apply (f_equal (@List.length nat)) in X; rewrite app_length in X; cbn in X; lia].
  - rewrite T. unfold numeral_text, unsigned_text, mantissa_text, exponent_text. cbn [nu_neg nu_int nu_frac nu_exp]. rewrite !List.app_nil_r, <- app_assoc. reflexivity.
  - rewrite EQ, <- V. unfold numeral_value, unsigned_value. cbn [nu_neg nu_int nu_frac nu_exp frac_digits List.length positional].
    assert (X : forall a : Q, ((a + inject_Z 0 / 10 ^ Z.of_nat 1) * 10 ^ 0 == (a + inject_Z 0 / 10 ^ Z.of_nat 0) * 10 ^ 0)%Q) by (intros a; unfold Qpower, inject_Z; cbn; field).
    assert (Y : (Z.of_nat 0 * 10 ^ Z.of_nat 0 + 0)%Z = 0%Z) by reflexivity. destruct ng; rewrite Y, X; reflexivity.
Qed.
Definition sample_bus (n t : Z) (p : Q) : wbus := mkWBus (PInt n) (PInt t) (PFloat p) (PFloat 0) PNone PNone (PInt 1) (PInt 1) PNone (PFloat 220) (PInt 1) (PFloat 2) (PFloat 1).
Definition sample_gen (status pmax : pyval) (costs : list pyval) : wgen := mkWGen (PInt 4) (PFloat 1) (PFloat (-1)) status pmax (PFloat 0) (PInt 5) (PInt 5) costs.
Definition sample_branch (tap : pyval) : wbranch := mkWBranch [PInt 4; PInt 2] (PFloat 0) (PFloat 3) (PInt 0) (PFloat 2) PNone PNone tap (PInt 1).
Definition sample_net (gens hydro : list wgen) : wnet := mkWNet (PFloat 100) [sample_bus 4 3 0; sample_bus 2 1 1] gens hydro [] [sample_branch PNone] [sample_branch (PInt 1)].
Definition good_gen : wgen := sample_gen (PInt 1) (PFloat 1) [PFloat 0; PInt 20; PInt 7].

Local Ltac pr := match goal with |- printed _ ?q => let z := eval vm_compute in (Qnum (Qred q)) in apply (sample_printed _ z); reflexivity end.
Local Ltac fine := unfold whole, scalable, writable; cbn; repeat first [pr|exact I|discriminate|(right; pr)|split|(eexists; reflexivity)].
Lemma sample_base : writable sample_repr (PFloat 100).
Proof. fine. Qed.
Lemma sample_buses : Forall (bus_ok sample_repr (PFloat 100)) [sample_bus 4 3 0; sample_bus 2 1 1].
Proof. repeat (apply Forall_cons; [unfold bus_ok; sp; fine|]). constructor. Qed.
Lemma sample_gens status pmax costs z : status = PInt z -> pmax = PFloat 1 -> gen_ok sample_repr (PFloat 100) (sample_gen status pmax costs).
Proof. intros -> ->. unfold gen_ok. sp; fine. Qed.
Lemma sample_line : Forall (branch_ok sample_repr (PFloat 100) false) [sample_branch PNone].
Proof. constructor; [|constructor]. unfold branch_ok. sp; [exists (PInt 4), (PInt 2), []; sp; fine|..|discriminate]; fine. Qed.
Lemma sample_trafo : Forall (branch_ok sample_repr (PFloat 100) true) [sample_branch (PInt 1)].
Proof. constructor; [|constructor]. unfold branch_ok. sp; [exists (PInt 4), (PInt 2), []; sp; fine|..|intros _]; fine. Qed.
Lemma sample_tables gens hydro : Forall (gen_ok sample_repr (PFloat 100)) gens -> tables_ok sample_repr (sample_net gens hydro).
Proof. intros F. unfold tables_ok, sample_net. cbn [wn_base wn_bus wn_conv wn_lines wn_trafos]. sp; auto using sample_base, sample_buses, sample_line, sample_trafo. Qed.
Lemma good_cost V : cost_fine sample_repr V good_gen.
Proof. exists [PFloat 0; PInt 20], (PInt 7). sp; [reflexivity|repeat constructor; fine|exact I|intros _; eexists; reflexivity]. Qed.
Lemma sample_ok V : net_ok sample_repr V (sample_net [good_gen] []).
Proof. split; [apply sample_tables; constructor; [now apply (sample_gens _ _ _ 1)|constructor]|constructor; [apply good_cost|constructor]]. Qed.

(* ------------------------------------------------------------------------- *)
(** ** C269 *)

(** The file of a network whose numbers are printed as numerals is read by every copy of the converter as the network: the base,
    the slack bus, and one row for each bus, conventional generator, line and transformer, in this order, with active powers,
    reactive demand and limits of branches times the base; and the cost coefficients. *)
Theorem C269_written : forall repr V N, respects repr -> net_ok repr V N ->
  exists lines c, write_case repr N = (lines, None) /\ convert V lines = Ok c /\ case_is repr V N c.
Proof. intros repr V N R H. now apply written_case. Qed.
Print Assumptions C269_written.

Example C269_witness : respects sample_repr /\ net_ok sample_repr engine_copy (sample_net [good_gen] []) /\ net_ok sample_repr planner_copy (sample_net [good_gen] []) /\
  nth_error (fst (write_case sample_repr (sample_net [good_gen] []))) 12 =
  Some (flat_map (fun w => ascii_of_nat 9 :: word w) ["4"; "0"; "0"; "1.0"; "-1.0"; "0"; "0"; "1"; "100.0"; "0.0"; "0"] ++ repeat " "%char 16 ++ flat_map (fun w => ascii_of_nat 9 :: word w) ["0"; "0"; "0"; "0"; "0"; "0"; "0"; "0"; "0"; "0"] ++ repeat " "%char 16 ++ word ";").
Proof. sp; [exact sample_respects|apply sample_ok|apply sample_ok|vm_compute; reflexivity]. Qed.

(* ------------------------------------------------------------------------- *)
(** ** C270 *)

(** The limits of a generator are not in one unit: its active power is multiplied by the base and its reactive power is not. *)
Theorem C270_units_partial : forall repr V N, respects repr -> net_ok repr V N -> exists lines c pmax qmax,
  write_case repr N = (lines, None) /\ convert V lines = Ok c /\ d_get "PMAX" (k_gen c) = Some pmax /\ d_get "QMAX" (k_gen c) = Some qmax /\
  Forall2 (fun g v => exists x, v = VF (Fin x) /\ x == num (wg_pmax g) * num (wn_base N))%Q (wn_conv N) pmax /\
  Forall2 (fun g v => exists x, v = VF (Fin x) /\ x == num (wg_qmax g))%Q (wn_conv N) qmax.
Proof.
  intros repr V N R H. destruct (written_case repr R V N H) as (lines & c & W & E & (_ & _ & _ & T & _)).
  destruct (T _ eq_refl) as (_ & C). destruct (C 8 "PMAX" Real eq_refl) as (p & Gp & Fp). destruct (C 3 "QMAX" Real eq_refl) as (q & Gq & Fq).
  assert (X : forall l vs (f : wgen -> Q) j, (forall g, nth_error (gen_numbers N g) j = Some (f g)) -> Forall2 (fun a v => exists q, nth_error (gen_numbers N a) j = Some q /\ entry_is Real q v) l vs ->
    Forall2 (fun g v => exists x, v = VF (Fin x) /\ x == f g)%Q l vs).
  { intros l vs f j Hj F. induction F as [|g v l vs (y & Ey & Iy) F IH]; constructor; auto. rewrite Hj in Ey. injection Ey as <-. destruct v as [|[x| |]|]; cbn in Iy; try contradiction. eauto. }
  exists lines, c, p, q. sp; auto; [exact (X _ _ (fun g => num (wg_pmax g) * num (wn_base N))%Q 8 (fun g => eq_refl) Fp)|exact (X _ _ (fun g => num (wg_qmax g)) 3 (fun g => eq_refl) Fq)].
Qed.
Print Assumptions C270_units_partial.
Theorem C270_units_refuted : exists repr V N lines c qmax,
  respects repr /\ net_ok repr V N /\ write_case repr N = (lines, None) /\ convert V lines = Ok c /\ d_get "QMAX" (k_gen c) = Some qmax /\
  ~ Forall2 (fun g v => exists x, v = VF (Fin x) /\ x == num (wg_qmax g) * num (wn_base N))%Q (wn_conv N) qmax.
Proof.
  destruct (C270_units_partial sample_repr engine_copy (sample_net [good_gen] []) sample_respects (sample_ok _)) as (lines & c & p & q & W & E & _ & Gq & _ & F).
  exists sample_repr, engine_copy, (sample_net [good_gen] []), lines, c, q. sp; auto using sample_respects, sample_ok.
  intros F'. cbn [sample_net wn_conv] in F, F'. inversion F as [|? v ? vs (x & -> & X) _]; subst. inversion F' as [|? ? ? ? (y & EY & Y) _]; subst. injection EY as <-. rewrite X in Y. discriminate Y.
Qed.
Print Assumptions C270_units_refuted.

Example C270_witness : net_ok sample_repr optimiser_copy (sample_net [good_gen; good_gen] [good_gen]).
Proof. split; [apply sample_tables; repeat (constructor; [now apply (sample_gens _ _ _ 1)|]); constructor|repeat (constructor; [apply good_cost|]); constructor]. Qed.

(* ------------------------------------------------------------------------- *)
(** ** C271 *)

(** Networks that agree on the data that are written give the same file, whatever their shunts, areas, zones, initial voltages,
    costs of starting and stopping, short-term and emergency limits, hydropower and renewable generators are. *)
Theorem C271_lost_partial : forall repr N N', agree N N' -> write_case repr N = write_case repr N'.
Proof.
  intros repr N N' (EB & B & G & L & T).
  assert (X : forall A K (k : A -> K) (f f' : A -> res text) l l', (forall a b, k a = k b -> f a = f' b) -> map k l = map k l' -> write_each f l = write_each f' l').
  { intros A K k f f' l l' H. revert l'. induction l as [|a l IH]; intros [|b l'] E; try discriminate; [reflexivity|]. cbn [map] in E. assert (E1 : k a = k b) by congruence. assert (E2 : map k l = map k l') by congruence. cbn [write_each]. now rewrite (H a b E1), (IH l' E2). }
  unfold write_case. rewrite EB.
  rewrite (X _ _ bus_written (bus_line repr (wn_base N')) (bus_line repr (wn_base N')) _ _) with (2 := B).
  2:{ intros a b E. injection E as E1 E2 E3 E4 E5 E6 E7. unfold bus_line. now rewrite E1, E2, E3, E4, E5, E6, E7. }
  rewrite (X _ _ gen_written (gen_line repr (wn_base N')) (gen_line repr (wn_base N')) _ _) with (2 := G).
  2:{ intros a b E. injection E as E1 E2 E3 E4 E5 E6 E7. unfold gen_line. now rewrite E1, E2, E3, E4, E5, E6. }
  rewrite (X _ _ gen_written (cost_line repr) (cost_line repr) _ _) with (2 := G).
  2:{ intros a b E. injection E as E1 E2 E3 E4 E5 E6 E7. unfold cost_line. now rewrite E7. }
  assert (EN : forall a b, firstn 2 (we_ends a) = firstn 2 (we_ends b) -> py_index (we_ends a) 0 = py_index (we_ends b) 0 /\ py_index (we_ends a) 1 = py_index (we_ends b) 1).
  { intros a b. destruct (we_ends a) as [|x [|x' u]], (we_ends b) as [|y [|y' v]]; cbn [firstn]; intros E; try discriminate; try (split; reflexivity); injection E; intros; subst; split; reflexivity. }
  rewrite (X _ _ line_written (branch_line repr false (wn_base N')) (branch_line repr false (wn_base N')) _ _) with (2 := L).
  2:{ intros a b E. unfold line_written in E. assert (E0 : firstn 2 (we_ends a) = firstn 2 (we_ends b)) by congruence. destruct (EN a b E0) as (I0 & I1). injection E as _ E1 E2 E3 E4 E5. unfold branch_line. now rewrite I0, I1, E1, E2, E3, E4, E5. }
  rewrite (X _ _ trafo_written (branch_line repr true (wn_base N')) (branch_line repr true (wn_base N')) _ _) with (2 := T).
  2:{ intros a b E. unfold trafo_written in E. assert (E0 : firstn 2 (we_ends a) = firstn 2 (we_ends b)) by congruence. destruct (EN a b E0) as (I0 & I1). injection E as _ E1 E2 E3 E4 E5 E6. unfold branch_line. now rewrite I0, I1, E1, E2, E3, E4, E5, E6. }
  reflexivity.
Qed.
Print Assumptions C271_lost_partial.
Theorem C271_lost_refuted : exists repr V N N' lines, respects repr /\ net_ok repr V N /\ net_ok repr V N' /\ wn_hydro N <> wn_hydro N' /\
  write_case repr N = (lines, None) /\ write_case repr N' = (lines, None).
Proof.
  destruct (C269_written sample_repr engine_copy (sample_net [good_gen] []) sample_respects (sample_ok _)) as (lines & c & W & _).
  exists sample_repr, engine_copy, (sample_net [good_gen] []), (sample_net [good_gen] [good_gen]), lines. sp; [exact sample_respects|apply sample_ok|exact (sample_ok engine_copy)|discriminate|exact W|].
  rewrite <- W. apply C271_lost_partial. unfold agree. sp; reflexivity.
Qed.
Print Assumptions C271_lost_refuted.

Example C271_witness : agree (sample_net [good_gen] [good_gen]) (sample_net [mkWGen (PInt 4) (PFloat 1) (PFloat (-1)) (PInt 1) (PFloat 1) (PFloat 0) (PInt 900) PNone [PFloat 0; PInt 20; PInt 7]] []).
Proof. unfold agree. sp; reflexivity. Qed.

(* ------------------------------------------------------------------------- *)
(** ** C272 *)

(** The file of a network with a generator without cost coefficients is written without an error and rejected by every copy of the converter. *)
Theorem C272_costs_partial : forall repr V N g1 g g2, respects repr -> tables_ok repr N -> wn_conv N = g1 ++ g :: g2 -> Forall (cost_fine repr V) g1 -> wg_costs g = [] ->
  exists lines, write_case repr N = (lines, None) /\ convert V lines = Err ValueError.
Proof. intros repr V N g1 g g2 R T E F C. now apply (no_costs repr R V N g1 g g2). Qed.
Print Assumptions C272_costs_partial.
Theorem C272_costs_refuted : exists repr V N lines, respects repr /\ tables_ok repr N /\ write_case repr N = (lines, None) /\ convert V lines = Err ValueError.
Proof.
  assert (T : tables_ok sample_repr (sample_net [good_gen; sample_gen (PInt 1) (PFloat 1) []] [])) by (apply sample_tables; repeat (constructor; [now apply (sample_gens _ _ _ 1)|]); constructor).
  destruct (C272_costs_partial sample_repr engine_copy _ [good_gen] (sample_gen (PInt 1) (PFloat 1) []) [] sample_respects T eq_refl) as (lines & W & E); [constructor; [apply good_cost|constructor]|reflexivity|].
  exists sample_repr, engine_copy, (sample_net [good_gen; sample_gen (PInt 1) (PFloat 1) []] []), lines. auto using sample_respects.
Qed.
Print Assumptions C272_costs_refuted.

Example C272_witness : let N := sample_net [good_gen; sample_gen (PInt 0) (PFloat 1) []; good_gen] [] in
  tables_ok sample_repr N /\ wn_conv N = [good_gen] ++ sample_gen (PInt 0) (PFloat 1) [] :: [good_gen] /\ Forall (cost_fine sample_repr planner_copy) [good_gen].
Proof. cbv zeta. sp; [apply sample_tables; constructor; [now apply (sample_gens _ _ _ 1)|]; constructor; [now apply (sample_gens _ _ _ 0)|]; constructor; [now apply (sample_gens _ _ _ 1)|constructor]|reflexivity|constructor; [apply good_cost|constructor]]. Qed.

(* ------------------------------------------------------------------------- *)
(** ** C273 *)

(** The file of a network with a generator whose status is a Boolean or None is written without an error and rejected by every copy of the converter. *)
Theorem C273_status_partial : forall repr V N g1 g g2, respects repr -> writable repr (wn_base N) -> Forall (bus_ok repr (wn_base N)) (wn_bus N) ->
  Forall (branch_ok repr (wn_base N) false) (wn_lines N) -> Forall (branch_ok repr (wn_base N) true) (wn_trafos N) ->
  wn_conv N = g1 ++ g :: g2 -> Forall (gen_ok repr (wn_base N)) g1 -> Forall (gen_ok repr (wn_base N)) g2 -> gen_ok repr (wn_base N) (switched_on g) -> (exists b, wg_status g = PBool b) \/ wg_status g = PNone ->
  exists lines, write_case repr N = (lines, None) /\ convert V lines = Err ValueError.
Proof. intros repr V N g1 g g2 R WB FB FL FT E F1 F2 G B. now apply (no_status repr R V N g1 g g2 (wg_status g)). Qed.
Print Assumptions C273_status_partial.
Theorem C273_status_refuted : exists repr V N lines, respects repr /\ Forall (fun g => exists b, wg_status g = PBool b) (wn_conv N) /\ write_case repr N = (lines, None) /\ convert V lines = Err ValueError.
Proof.
  pose (g := sample_gen (PBool true) (PFloat 1) [PInt 7]).
  destruct (C273_status_partial sample_repr engine_copy (sample_net [g] []) [] g []) as (lines & W & E); auto using sample_respects, sample_base, sample_buses, sample_line, sample_trafo.
  - exact (sample_gens (PInt 1) (PFloat 1) _ 1 eq_refl eq_refl).
  - left. now exists true.
  - exists sample_repr, engine_copy, (sample_net [g] []), lines. sp; auto using sample_respects. constructor; [|constructor]. exists true. reflexivity.
Qed.
Print Assumptions C273_status_refuted.
(** Booleans in the limits of power count as 0 and 1: the line is that of the numbers. *)
Theorem C273_boolean_limits : forall repr base bus qmax qmin st a b c costs z, base = PInt z ->
  gen_line repr base (mkWGen bus qmax qmin st (PBool a) (PBool b) c PNone costs) = gen_line repr base (mkWGen bus qmax qmin st (PInt (if a then 1 else 0)) (PInt (if b then 1 else 0)) c PNone costs) /\
  exists l, gen_line repr base (mkWGen bus qmax qmin st (PBool a) (PBool b) c PNone costs) = Ok l.
Proof. intros repr base bus qmax qmin st a b c costs z ->. split; [destruct a, b; reflexivity|]. eexists. reflexivity. Qed.
Print Assumptions C273_boolean_limits.

Example C273_witness : let g := sample_gen (PBool false) (PFloat 1) [] in let N := sample_net [good_gen; g; good_gen] [] in
  wn_conv N = [good_gen] ++ g :: [good_gen] /\ gen_ok sample_repr (wn_base N) (switched_on g) /\ Forall (gen_ok sample_repr (wn_base N)) [good_gen] /\ wg_status g = PBool false.
Proof. cbv zeta. sp; [reflexivity|exact (sample_gens (PInt 1) (PFloat 1) _ 1 eq_refl eq_refl)|constructor; [now apply (sample_gens _ _ _ 1)|constructor]|reflexivity]. Qed.

(* ------------------------------------------------------------------------- *)
(** ** C274 *)

(** At a generator without a limit of active power the writer stops with an error; it leaves a file that every copy of the converter reads
    without an error, as a network with the generators before this one and without branches and costs. *)
Theorem C274_cut_partial : forall repr V N g1 g g2, respects repr -> writable repr (wn_base N) -> Forall (bus_ok repr (wn_base N)) (wn_bus N) -> Forall (gen_ok repr (wn_base N)) g1 ->
  wn_conv N = g1 ++ g :: g2 -> wg_pmax g = PNone -> exists lines c, write_case repr N = (lines, Some TypeError) /\ convert V lines = Ok c /\ gens_only N g1 c.
Proof. intros repr V N g1 g g2 R WB FB FG E P. now apply (stops repr R V N g1 g g2). Qed.
Print Assumptions C274_cut_partial.
Theorem C274_cut_refuted : exists repr V N lines c, respects repr /\ List.length (branches N) = 2 /\ write_case repr N = (lines, Some TypeError) /\ convert V lines = Ok c /\ k_no_bus c = 2 /\ k_no_branch c = 0.
Proof.
  pose (N := sample_net [good_gen; sample_gen (PInt 1) PNone [PInt 7]] []).
  destruct (C274_cut_partial sample_repr engine_copy N [good_gen] (sample_gen (PInt 1) PNone [PInt 7]) []) as (lines & c & W & E & (_ & _ & TB & _ & TE & _)); auto using sample_respects, sample_base, sample_buses.
  - constructor; [now apply (sample_gens _ _ _ 1)|constructor].
  - exists sample_repr, engine_copy, N, lines, c. sp; auto using sample_respects.
    + destruct (TB _ eq_refl) as (_ & C). destruct (C 0 _ _ eq_refl) as (vs & G & F). cbn [the_table String.eqb Ascii.eqb Bool.eqb] in G. unfold k_no_bus, count. rewrite G. symmetry. exact (GraphDataProofs.Forall2_length _ _ _ F).
    + destruct (TE _ eq_refl) as (_ & C). destruct (C 0 _ _ eq_refl) as (vs & G & F). cbn [the_table String.eqb Ascii.eqb Bool.eqb] in G. unfold k_no_branch, count. rewrite G. symmetry. exact (GraphDataProofs.Forall2_length _ _ _ F).
Qed.
Print Assumptions C274_cut_refuted.

Example C274_witness : let g := sample_gen (PInt 1) PNone [] in let N := sample_net [good_gen; good_gen; g; good_gen] [] in
  wn_conv N = [good_gen; good_gen] ++ g :: [good_gen] /\ wg_pmax g = PNone /\ Forall (gen_ok sample_repr (wn_base N)) [good_gen; good_gen].
Proof. cbv zeta. sp; try reflexivity. repeat (constructor; [now apply (sample_gens _ _ _ 1)|]). constructor. Qed.

(* ------------------------------------------------------------------------- *)
(** ** C275 *)

(** The copies of the converter that read the last cost coefficient as a whole number reject the file if it is a floating-point number. *)
Theorem C275_last_cost_partial : forall repr V N g1 g g2 first q, respects repr -> v_keeps_text V = false -> tables_ok repr N -> wn_conv N = g1 ++ g :: g2 -> Forall (cost_fine repr V) g1 ->
  wg_costs g = first ++ [PFloat q] -> Forall (writable repr) first -> printed repr q -> In "."%char (repr q) \/ In "e"%char (repr q) ->
  exists lines, write_case repr N = (lines, None) /\ convert V lines = Err ValueError.
Proof. intros repr V N g1 g g2 first q R K T E F C W P D. now apply (decimal_last repr R V N g1 g g2 first q). Qed.
Print Assumptions C275_last_cost_partial.
Theorem C275_last_cost_refuted : exists repr V V' N lines c, respects repr /\ net_ok repr V' N /\ write_case repr N = (lines, None) /\ convert V lines = Err ValueError /\ convert V' lines = Ok c.
Proof.
  pose (g := sample_gen (PInt 1) (PFloat 1) [PInt 20; PFloat 0]). pose (N := sample_net [g] []).
  assert (T : tables_ok sample_repr N) by (apply sample_tables; constructor; [now apply (sample_gens _ _ _ 1)|constructor]).
  destruct (C275_last_cost_partial sample_repr planner_copy N [] g [] [PInt 20] 0) as (lines & W & E); auto using sample_respects.
  - repeat constructor.
  - apply (sample_printed _ 0). reflexivity.
  - left. vm_compute. auto.
  - assert (OK : net_ok sample_repr engine_copy N).
    { split; [exact T|]. constructor; [|constructor]. exists [PInt 20], (PFloat 0). sp; [reflexivity|repeat constructor|apply (sample_printed _ 0); reflexivity|discriminate]. }
    destruct (C269_written sample_repr engine_copy N sample_respects OK) as (lines' & c & W' & E' & _). rewrite W in W'. injection W' as <-.
    exists sample_repr, planner_copy, engine_copy, N, lines, c. sp; auto using sample_respects.
Qed.
Print Assumptions C275_last_cost_refuted.

Example C275_witness : let g := sample_gen (PInt 1) (PFloat 1) [PInt 1; PFloat 3] in wg_costs g = [PInt 1] ++ [PFloat 3] /\ printed sample_repr 3 /\ In "."%char (sample_repr 3) /\ v_keeps_text optimiser_copy = false.
Proof. cbv zeta. sp; [reflexivity|apply (sample_printed _ 3); reflexivity|vm_compute; auto|reflexivity]. Qed.
