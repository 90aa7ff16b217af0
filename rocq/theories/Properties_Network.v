(** Properties C41-C46, C63, C64 and C98: the network an OPF run sees. *)
From Coq Require Import List String Bool Arith ZArith QArith Qround Lia Permutation.
From Verif Require Import Base Container Planner Graph GraphData GraphDataProofs Network NetworkSpec NetworkProofs NetworkFlex.
Import ListNotations.
Open Scope string_scope.
Open Scope nat_scope.
Open Scope list_scope.

Local Ltac sp := repeat match goal with |- _ /\ _ => split end.

(** A small network for the examples: three buses of 20, 20 and 10 kV, lines 0 and 1 starting
    at buses 0 and 2, loads 4 and 7 at buses 1 and 2, load 9 again at bus 2. *)
Definition ex_bus : table := mkTable [0; 1; 2]%Z ["vn_kv"] (fun l _ => VQ (if Z.eqb l 2 then 10 else 20)).
Definition ex_line : table := mkTable [0; 1]%Z ["from_bus"; "max_i_ka"; "r_ohm_per_km"; "x_ohm_per_km"; "in_service"]
  (fun l c => if String.eqb c "from_bus" then VZ (2 * l) else if String.eqb c "in_service" then VB (Z.eqb l 0)
              else if String.eqb c "max_i_ka" then VQ (inject_Z (l + 1)) else VQ (1 # 2)).
Definition ex_load : table := mkTable [4; 7; 9]%Z ["bus"; "p_mw"; "q_mvar"]
  (fun l c => if String.eqb c "bus" then VZ (if Z.eqb l 4 then 1 else 2) else VQ (inject_Z l)).
Definition ex_sgen : table := mkTable [0]%Z ["bus"; "max_p_mw"] (fun _ c => if String.eqb c "bus" then VZ 1 else VQ 0).
Definition ex_poly : table := mkTable [0; 1]%Z ["element"; "et"; "cp1_eur_per_mw"]
  (fun l c => if String.eqb c "element" then VZ 0 else if String.eqb c "et" then VS (if Z.eqb l 0 then "gen" else "sgen") else VQ 0).
Definition ex_net : network :=
  mkNet [("bus", ex_bus); ("line", ex_line); ("load", ex_load); ("sgen", ex_sgen); ("poly_cost", ex_poly)] [].
Definition ex_updates : list update :=
  [mkUpdate "line" "in_service" (PInt 1) (VB true) (CNum 7);
   mkUpdate "line" "in_service" (PList [2; 1]%Z) (VB true) (CList [14; 35]%Q)].

Lemma ex_line_data : line_data ex_net 0 20 1 (1 # 2) (1 # 2) /\ line_data ex_net 1 10 2 (1 # 2) (1 # 2).
Proof.
  split; unfold line_data; sp; try reflexivity; try (eexists; reflexivity); [exists 0%Z|exists 2%Z]; split; reflexivity.
Qed.

(* ------------------------------------------------------------------ *)
(** ** C41 *)

(** A list of reinforcements succeeds; the rating of every line grows by the MW asked for at its
    own voltage (MW = sqrt 3 x kV x kA), never shrinks, and resistance x rating and
    reactance x rating stay the same; the lines asked for are in service; no other cell of the
    network changes, no row or column appears or disappears. *)
Theorem C41_reinforcements : forall s3 orig us before, (0 < s3)%Q -> Forall line_update us ->
  (forall l c, In (l, c) (flat_map targets us) ->
     (0 <= c)%Q /\ exists v i r x, line_data orig l v i r x /\ (0 < v)%Q /\ (0 < i)%Q) ->
  exists n', update_multiple_parameters s3 orig us true before = Ok n' /\
    (forall l v i r x, line_data orig l v i r x -> (0 < v)%Q -> (0 < i)%Q ->
       exists i' r' x', line_data n' l v i' r' x' /\ ((i' - i) * s3 * v == total_mw l (flat_map targets us))%Q /\ (i <= i')%Q /\
         (r' * i' == r * i)%Q /\ (x' * i' == x * i)%Q) /\
    (forall l, In l (map fst (flat_map targets us)) -> cell n' "line" l "in_service" = Some (VB true)) /\
    (forall t l c, ~ (t = "line" /\ In l (map fst (flat_map targets us)) /\ In c line_columns) -> cell n' t l c = cell orig t l c) /\
    (forall t, shape n' t = shape orig t) /\ n_ctrl n' = n_ctrl orig.
Proof.
  intros s3 orig us before P Fu H. unfold update_multiple_parameters. rewrite updates_targets by auto. now apply reinforce_all_ok.
Qed.
Print Assumptions C41_reinforcements.

Example C41_witness : Forall line_update ex_updates /\ flat_map targets ex_updates = [(1%Z, 7%Q); (1%Z, 14%Q); (0%Z, 35%Q)] /\
  match update_multiple_parameters (7 # 4) ex_net ex_updates true ex_net with
  | Ok n => cell_eq (cell n "line" 1 "max_i_ka") (Some (VQ (16 # 5))) /\ cell_eq (cell n "line" 1 "r_ohm_per_km") (Some (VQ (5 # 16))) /\
            cell n "line" 1 "in_service" = Some (VB true) /\ cell_eq (cell n "line" 0 "max_i_ka") (Some (VQ 2))
  | Err _ => False
  end.
Proof. sp; [repeat constructor|reflexivity|]. vm_compute. auto. Qed.

Example C41_witness_hypotheses : forall l c, In (l, c) (flat_map targets ex_updates) ->
  (0 <= c)%Q /\ exists v i r x, line_data ex_net l v i r x /\ (0 < v)%Q /\ (0 < i)%Q.
Proof.
  destruct ex_line_data as [D0 D1]. intros l c. cbn. intros [E|[E|[E|[]]]]; injection E as <- <-; (split; [discriminate|]);
    do 4 eexists; (split; [first [exact D0|exact D1]|split; reflexivity]).
Qed.

(* ------------------------------------------------------------------ *)
(** ** C42 *)

(** The order of the reinforcements does not matter. *)
Theorem C42_order_irrelevant : forall s3 orig us us' b b', (0 < s3)%Q -> Permutation us us' -> Forall line_update us ->
  (forall l c, In (l, c) (flat_map targets us) ->
     (0 <= c)%Q /\ exists v i r x, line_data orig l v i r x /\ (0 < v)%Q /\ (0 < i)%Q) ->
  exists n n', update_multiple_parameters s3 orig us true b = Ok n /\ update_multiple_parameters s3 orig us' true b' = Ok n' /\ net_eq n n'.
Proof.
  intros s3 orig us us' b b' P3 P Fu H. pose proof (flat_map_perm targets _ _ P) as PT.
  destruct (C41_reinforcements s3 orig us b P3 Fu H) as (n & E & A1 & A2 & A3 & A4 & A5).
  destruct (C41_reinforcements s3 orig us' b' P3) as (n' & E' & B1 & B2 & B3 & B4 & B5).
  { rewrite Forall_forall in *. intros u I. apply Fu. eapply Permutation_in; [symmetry|]; eauto. }
  { intros l c I. apply H. eapply Permutation_in; [symmetry|]; eauto. }
  exists n, n'. split; [exact E|split; [exact E'|]]. split; [intros t; now rewrite A4, B4|split; [|congruence]].
  assert (Same : forall l, In l (map fst (flat_map targets us)) <-> In l (map fst (flat_map targets us'))).
  { intros l. split; apply Permutation_in; apply Permutation_map; auto. now symmetry. }
  intros t l c.
  destruct (string_dec t "line") as [->|Nt]; [|rewrite A3, B3 by tauto; apply cell_eq_refl].
  destruct (in_dec Z.eq_dec l (map fst (flat_map targets us))) as [I|NI]; [|rewrite A3, B3 by (rewrite <- ?Same; tauto); apply cell_eq_refl].
  destruct (in_dec string_dec c line_columns) as [Ic|Nc]; [|rewrite A3, B3 by tauto; apply cell_eq_refl].
  pose proof I as I0. apply in_map_iff in I0 as ([l0 c0] & El & I0). cbn [fst] in El. subst l0. destruct (H l c0 I0) as (_ & v & i & r & x & D & Pv & Pi).
  destruct (A1 l v i r x D Pv Pi) as (i1 & r1 & x1 & (D1 & D2 & D3 & _) & T1 & L1 & R1 & X1).
  destruct (B1 l v i r x D Pv Pi) as (i2 & r2 & x2 & (D1' & D2' & D3' & _) & T2 & L2 & R2 & X2).
  assert (Ei : (i1 == i2)%Q).
  { rewrite (total_perm l _ _ PT), <- T2 in T1. apply Qmult_inj_r in T1; [|intros E0; rewrite E0 in Pv; discriminate].
    apply Qmult_inj_r in T1; [|intros E0; rewrite E0 in P3; discriminate]. apply (Qplus_inj_r _ _ (- i)). exact T1. }
  assert (Pi1 : (0 < i1)%Q) by (eapply Qlt_le_trans; eauto).
  assert (Ni : ~ (i1 == 0)%Q) by (intros E0; rewrite E0 in Pi1; discriminate).
  assert (Er : (r1 == r2)%Q) by (apply (Qmult_inj_r _ _ i1); auto; rewrite R1, <- R2, Ei; reflexivity).
  assert (Ex : (x1 == x2)%Q) by (apply (Qmult_inj_r _ _ i1); auto; rewrite X1, <- X2, Ei; reflexivity).
  destruct Ic as [<-|[<-|[<-|[<-|[]]]]].
  - rewrite A2, B2 by (auto; now apply Same). apply cell_eq_refl.
  - rewrite D1, D1'. exact Ei.
  - rewrite D2, D2'. exact Er.
  - rewrite D3, D3'. exact Ex.
Qed.
Print Assumptions C42_order_irrelevant.

Example C42_witness : Permutation ex_updates (rev ex_updates) /\ ex_updates <> rev ex_updates.
Proof. split; [apply Permutation_rev|discriminate]. Qed.

(* ------------------------------------------------------------------ *)
(** ** C43 *)

(** Whatever was evaluated before, and whatever the OPF did to the network, the next OPF of the
    non-anticipative planner sees the same network as in a fresh run. *)
Theorem C43_history_independent : forall S opf es es' n n' cs ts ready, run S opf es = Ok n -> run S opf es' = Ok n' ->
  prepare_na S cs ts ready n = prepare_na S cs ts ready n' /\ prepare_na S cs ts ready n = prepare_na S cs ts ready (st_orig S).
Proof. intros. split; reflexivity. Qed.
Print Assumptions C43_history_independent.

(** What that network is, for interventions on lines and node loads: the lines of the original
    network reinforced by exactly the interventions in service, the node's values at the first
    load of every bus of the node's table, and everything else as in the original network. *)
Theorem C43_opf_network : forall S opf es n cs ts rows ready idx cols,
  run S opf es = Ok n -> st_inter S = false -> st_replace S = true -> (0 < st_s3 S)%Q ->
  Forall line_update (map status_update ready) ->
  (forall l c, In (l, c) (flat_map targets (map status_update ready)) ->
     (0 <= c)%Q /\ exists v i r x, line_data (st_orig S) l v i r x /\ (0 < v)%Q /\ (0 < i)%Q) ->
  d_get "buses" ts = Some rows -> d_get "flexible units" ts = None ->
  load_table (st_orig S) idx cols -> In "p_mw" cols -> In "q_mvar" cols ->
  NoDup (map tb_bus rows) -> (forall r, In r rows -> exists p q, tb_vals r = [p; q]) ->
  (forall r, In r rows -> exists l, first_load (st_orig S) idx (tb_bus r) l) ->
  exists n', prepare_na S cs ts ready n = Ok n' /\
    (forall l v i r x, line_data (st_orig S) l v i r x -> (0 < v)%Q -> (0 < i)%Q ->
       exists i' r' x', line_data n' l v i' r' x' /\ ((i' - i) * st_s3 S * v == total_mw l (flat_map targets (map status_update ready)))%Q /\
         (r' * i' == r * i)%Q /\ (x' * i' == x * i)%Q) /\
    (forall r l p q, In r rows -> first_load (st_orig S) idx (tb_bus r) l -> tb_vals r = [p; q] ->
       cell n' "load" l "p_mw" = Some (VQ p) /\ cell n' "load" l "q_mvar" = Some (VQ q)) /\
    (forall t l c,
       ~ (t = "line" /\ In l (map fst (flat_map targets (map status_update ready))) /\ In c line_columns) ->
       ~ (t = "load" /\ In c ["p_mw"; "q_mvar"] /\ exists r, In r rows /\ first_load (st_orig S) idx (tb_bus r) l) ->
       cell n' t l c = cell (st_orig S) t l c).
Proof.
  intros S opf es n cs ts rows ready idx cols _ Hi Hr P3 Fu H Eb Ef L Cp Cq ND Hv Hl.
  destruct (C41_reinforcements (st_s3 S) (st_orig S) (map status_update ready) n P3 Fu H) as (n1 & E1 & A1 & A2 & A3 & A4 & A5).
  unfold prepare_na, status_na. rewrite E1. cbn [rbind]. unfold node_updates. rewrite Hi, Hr. cbn [rbind]. unfold update_parameters, parameters_for_buses, parameters_for_flexible.
  rewrite Eb, Ef. cbn [rbind]. rewrite List.app_nil_r. unfold update_multiple_parameters.
  assert (B : forall l c, cell n1 "load" l c = cell (st_orig S) "load" l c) by (intros; apply A3; intros (X & _); discriminate).
  assert (L1 : load_table n1 idx cols).
  { destruct L as (Sh & Cb & Hb). unfold load_table. rewrite A4. sp; auto. intros l I. rewrite B. auto. }
  assert (FL : forall b l, first_load n1 idx b l <-> first_load (st_orig S) idx b l).
  { intros b l. unfold first_load. split; intros (pre & post & X1 & X2 & X3); exists pre, post; sp; auto; try (rewrite ?B in *; congruence);
      intros l' I'; specialize (X3 l' I'); rewrite ?B in *; auto. }
  assert (Mem : forall u, In u (flat_map load_updates rows) -> exists r p q, In r rows /\ tb_vals r = [p; q] /\
     (u = mkUpdate "load" "p_mw" (PInt (tb_bus r)) (VQ p) CEmpty \/ u = mkUpdate "load" "q_mvar" (PInt (tb_bus r)) (VQ q) CEmpty)).
  { intros u I. apply in_flat_map in I as (r & Ir & Iu). destruct (Hv r Ir) as (p & q & E). exists r, p, q. sp; auto. unfold load_updates in Iu. rewrite E in Iu.
    cbn in Iu. destruct Iu as [<-|[<-|[]]]; auto. }
  assert (Fl : Forall (load_update cols) (flat_map load_updates rows)).
  { apply Forall_forall. intros u I. destruct (Mem u I) as (r & p & q & _ & _ & [->| ->]); unfold load_update; cbn; sp; eauto; discriminate. }
  destruct (loads_ok (st_s3 S) (flat_map load_updates rows) n1 idx cols L1 Fl) as (n' & E' & G1 & G2 & G3 & G4).
  { intros u b I P. destruct (Mem u I) as (r & p & q & Ir & _ & [->| ->]); cbn in P; injection P as <-; destruct (Hl r Ir) as (l & F); exists l; now apply FL. }
  exists n'. sp; auto.
  - intros l v i r x D Pv Pi. destruct (A1 l v i r x D Pv Pi) as (i' & r' & x' & D' & T' & _ & R' & X'). exists i', r', x'. sp; auto.
    assert (Z1 : forall t l c, t <> "load" -> cell n' t l c = cell n1 t l c) by (intros; apply G2; tauto).
    destruct D' as (Y1 & Y2 & Y3 & (s & Y4) & bb & Y5 & Y6). unfold line_data. rewrite !Z1 by discriminate. sp; eauto. exists bb. rewrite !Z1 by discriminate. auto.
  - intros r l p q Ir F Ev. apply FL in F. apply in_split in Ir as (r1 & r2 & ->). rewrite flat_map_app in G1. cbn [flat_map] in G1.
    assert (Ex : load_updates r = [mkUpdate "load" "p_mw" (PInt (tb_bus r)) (VQ p) CEmpty; mkUpdate "load" "q_mvar" (PInt (tb_bus r)) (VQ q) CEmpty])
      by (unfold load_updates; rewrite Ev; reflexivity).
    rewrite Ex in G1. cbn [app] in G1.
    rewrite map_app in ND. cbn [map] in ND. apply NoDup_remove in ND as (_ & ND).
    assert (Later : forall u' c, In u' (flat_map load_updates r2) -> ~ addresses n1 idx u' l c).
    { intros u' c I (_ & b & Pb & Fb). destruct (Mem u') as (r' & p' & q' & Ir' & Ev' & Eu).
      { apply in_flat_map in I as (r' & I1 & I2). apply in_flat_map. exists r'. split; auto. apply in_or_app; right; now right. }
      apply in_flat_map in I as (r0 & I1 & I2).
      assert (b = tb_bus r0).
      { destruct (Hv r0) as (p0 & q0 & E0); [apply in_or_app; right; now right|]. unfold load_updates in I2. rewrite E0 in I2. cbn in I2. destruct I2 as [<-|[<-|[]]]; cbn in Pb; congruence. }
      subst b. destruct Fb as (_ & _ & _ & Q1 & _). destruct F as (_ & _ & _ & Q2 & _). assert (tb_bus r0 = tb_bus r) as E0 by congruence.
      apply ND. rewrite <- E0. apply in_or_app. right. now apply in_map. }
    split.
    + refine (G1 (flat_map load_updates r1) (mkUpdate "load" "p_mw" (PInt (tb_bus r)) (VQ p) CEmpty) _ l eq_refl _ _); cbn [u_name].
      * split; auto. exists (tb_bus r). auto.
      * intros u' [<-|I] A; [destruct A as (X & _); discriminate|]. eapply Later; eauto.
    + refine (G1 (flat_map load_updates r1 ++ [mkUpdate "load" "p_mw" (PInt (tb_bus r)) (VQ p) CEmpty]) (mkUpdate "load" "q_mvar" (PInt (tb_bus r)) (VQ q) CEmpty) (flat_map load_updates r2) l _ _ _);
        [rewrite <- app_assoc; reflexivity| |]; cbn [u_name].
      * split; auto. exists (tb_bus r). auto.
      * intros u' I A. eapply Later; eauto.
  - intros t l c N1 N2. rewrite G2; [now apply A3|]. intros (-> & u & I & (Eu & b & Pb & Fb)). apply N2. split; auto.
    destruct (Mem u I) as (r & p & q & Ir & _ & [->| ->]); cbn in Eu, Pb; subst c; injection Pb as <-; (split; [cbn; auto|]); exists r; split; auto; now apply FL.
Qed.
Print Assumptions C43_opf_network.

Definition ex_setting : setting := mkSetting (7 # 4) ex_net [] false true.
Definition ex_bv (p : Z) (c : Q) : BV := mkBV "" 1 (One (inject_Z p)) "line" "installed" 0 (One c).
Definition ex_tables : @items (list trow) := [("buses", [mkT 2020 2 [5; 6]%Q; mkT 2020 1 [7; 8]%Q])].

(** After two earlier evaluations, with an OPF that wipes the network, the third sees this. *)
Example C43_witness :
  match run ex_setting (fun _ => mkNet [] []) [mkEval [] ex_tables [ex_bv 0 10]; mkEval [] ex_tables [ex_bv 0 10; ex_bv 1 3]] with
  | Ok n => match prepare_na ex_setting [] ex_tables [ex_bv 1 35] n with
            | Ok n' => cell_eq (cell n' "line" 1 "max_i_ka") (Some (VQ 4)) /\ cell_eq (cell n' "line" 0 "max_i_ka") (Some (VQ 1)) /\
                       cell n' "load" 7 "p_mw" = Some (VQ 5) /\ cell n' "load" 9 "p_mw" = Some (VQ 9) /\ cell n' "load" 4 "q_mvar" = Some (VQ 8)
            | Err _ => False
            end
  | Err _ => False
  end.
Proof. vm_compute. auto. Qed.

(** The hypotheses on the loads hold of that network. *)
Example C43_witness_loads : load_table ex_net [4; 7; 9]%Z ["bus"; "p_mw"; "q_mvar"] /\
  first_load ex_net [4; 7; 9]%Z 2 7 /\ first_load ex_net [4; 7; 9]%Z 1 4.
Proof.
  sp.
  - unfold load_table. sp; [reflexivity|now left|]. intros l [<-|[<-|[<-|[]]]]; eexists; reflexivity.
  - exists [4%Z], [9%Z]. split; [reflexivity|split; [reflexivity|]]. intros l' [<-|[]]. discriminate.
  - exists [], [7; 9]%Z. split; [reflexivity|split; [reflexivity|]]. intros l' [].
Qed.

(* ------------------------------------------------------------------ *)
(** ** C44 *)

(** A list of load updates: if every bus has a load, the updates succeed, every addressed cell
    (first load of the bus, given column) holds the value of the last update addressing it, and no
    other cell changes.  If some bus has no load, IndexError is raised. *)
Theorem C44_loads : forall s3 n us idx cols, load_table n idx cols -> Forall (load_update cols) us ->
  ((forall u b, In u us -> u_pos u = PInt b -> exists l, first_load n idx b l) ->
   exists n', update_multiple_parameters s3 n us false n = Ok n' /\
    (forall pre u post l, us = pre ++ u :: post -> addresses n idx u l (u_name u) -> (forall u', In u' post -> ~ addresses n idx u' l (u_name u)) ->
       cell n' "load" l (u_name u) = Some (u_value u)) /\
    (forall t l c, ~ (t = "load" /\ exists u, In u us /\ addresses n idx u l c) -> cell n' t l c = cell n t l c) /\
    (forall t, shape n' t = shape n t) /\ n_ctrl n' = n_ctrl n) /\
  ((exists u b, In u us /\ u_pos u = PInt b /\ forall l, In l idx -> cell n "load" l "bus" <> Some (VZ b)) ->
   update_multiple_parameters s3 n us false n = Err IndexError).
Proof.
  intros s3 n us idx cols L Fu. split; intros H.
  - now apply (loads_ok s3 us n idx cols).
  - now apply (loads_fail s3 us n idx cols).
Qed.
Print Assumptions C44_loads.

Definition ex_loads : list update :=
  [mkUpdate "load" "p_mw" (PInt 2) (VQ 1) CEmpty; mkUpdate "load" "q_mvar" (PInt 1) (VQ 2) CEmpty; mkUpdate "load" "p_mw" (PInt 2) (VQ 3) CEmpty].

Example C44_witness : Forall (load_update ["bus"; "p_mw"; "q_mvar"]) ex_loads /\
  match update_multiple_parameters 1 ex_net ex_loads false ex_net with
  | Ok n => cell n "load" 7 "p_mw" = Some (VQ 3) /\ cell n "load" 9 "p_mw" = Some (VQ 9) /\ cell n "load" 4 "q_mvar" = Some (VQ 2)
  | Err _ => False
  end /\
  update_multiple_parameters 1 ex_net [mkUpdate "load" "p_mw" (PInt 2) (VQ 1) CEmpty; mkUpdate "load" "p_mw" (PInt 0) (VQ 1) CEmpty] false ex_net = Err IndexError.
Proof.
  split; [|split; [vm_compute; auto|reflexivity]]. repeat constructor; cbn; eauto; discriminate.
Qed.

(* ------------------------------------------------------------------ *)
(** ** C45 *)

(** The updates built for a flexible unit address its static generator and the cost row of that
    generator, with the values of the table. *)
Theorem C45_parameters_partial : forall n r us,
  (forall l q, cell n "sgen" l "bus" <> Some (VQ q)) -> (forall l q, cell n "poly_cost" l "element" <> Some (VQ q)) ->
  flexible_updates n r = Ok us ->
  exists i j, cell n "sgen" i "bus" = Some (VZ (tb_bus r)) /\ cell n "poly_cost" j "element" = Some (VZ i) /\ cell n "poly_cost" j "et" = Some (VS "sgen") /\
    (forall u, In u us -> exists v, In (u_name u, v) (combine flexible_columns (tb_vals r)) /\ u_value u = VQ v /\
       (u_type u = "sgen" /\ u_pos u = PScalar i \/ u_type u = "poly_cost" /\ u_pos u = PScalar j)) /\
    (forall c v, In (c, v) (combine flexible_columns (tb_vals r)) -> exists u, In u us /\ u_name u = c /\ u_value u = VQ v).
Proof.
  intros n r us H1 H2 E. unfold flexible_updates in E. destruct (index_by n "sgen" "bus" (VZ (tb_bus r))) as [i|] eqn:Ei; [|discriminate]. cbn [rbind] in E.
  destruct (poly_index n i) as [j|] eqn:Ej; [|discriminate]. cbn [rbind] in E. injection E as <-.
  apply index_by_ok in Ei; auto. apply poly_index_ok in Ej as (Ej1 & Ej2); auto. exists i, j. sp; auto.
  - intros u I. apply in_app_or in I as [I|I]; apply in_map_iff in I as ([c v] & <- & I); cbn [u_name u_type u_pos u_value fst snd]; exists v; sp; auto.
    + rewrite <- (firstn_skipn 4 (combine flexible_columns (tb_vals r))). apply in_or_app. now left.
    + rewrite <- (firstn_skipn 4 (combine flexible_columns (tb_vals r))). apply in_or_app. now right.
  - intros c v I. rewrite <- (firstn_skipn 4 (combine flexible_columns (tb_vals r))) in I. apply in_app_or in I as [I|I].
    + eexists. split; [apply in_or_app; left; apply in_map_iff; exists (c, v); split; [reflexivity|exact I]|]. auto.
    + eexists. split; [apply in_or_app; right; apply in_map_iff; exists (c, v); split; [reflexivity|exact I]|]. auto.
Qed.
Print Assumptions C45_parameters_partial.

(** But they are never applied: with any flexible unit in the node's table the update raises,
    whatever the network. *)
Theorem C45_never_applied : forall s3 orig n ts rows, d_get "flexible units" ts = Some rows -> rows <> [] -> (forall r, In r rows -> tb_vals r <> []) ->
  exists e, update_parameters s3 orig ts n = Err e.
Proof.
  intros s3 orig n ts rows E N H. unfold update_parameters. destruct (parameters_for_buses ts) as [bs|]; cbn [rbind]; eauto.
  unfold parameters_for_flexible. rewrite E. destruct (mapM (flexible_updates n) rows) as [us|] eqn:M; cbn [rbind]; eauto.
  unfold update_multiple_parameters. destruct rows as [|r rows]; [now destruct N|]. cbn [mapM] in M. destruct (flexible_updates n r) as [u1|] eqn:F; [|discriminate]. cbn [rbind] in M.
  destruct (mapM (flexible_updates n) rows) as [us'|]; [|discriminate]. cbn [rbind] in M. injection M as <-.
  destruct (flexible_updates_head n r u1 F) as (u & I & T & i & P); [apply H; now left|].
  apply (foldM_fails (apply_update s3) (bs ++ List.concat (u1 :: us')) u).
  - apply in_or_app. right. cbn [List.concat]. apply in_or_app. now left.
  - intros s. exists TypeError. apply (scalar_update_fails s3 s u i P). rewrite T. discriminate.
Qed.
Print Assumptions C45_never_applied.

(** A network with the generator and its cost row in place, where the update raises TypeError. *)
Definition ex_flex : @items (list trow) := [("buses", []); ("flexible units", [mkT 2020 1 [4; 0; 2; 0; 0; 9; 0; 0; 0; 0]%Q])].

Theorem C45_refuted : exists s3 n ts us, parameters_for_flexible n ts = Ok us /\ us <> [] /\ update_parameters s3 n ts n = Err TypeError.
Proof.
  exists (7 # 4)%Q, ex_net, ex_flex. eexists. split; [reflexivity|]. split; [discriminate|reflexivity].
Qed.
Print Assumptions C45_refuted.

Example C45_witness : (forall l q, cell ex_net "sgen" l "bus" <> Some (VQ q)) /\ (forall l q, cell ex_net "poly_cost" l "element" <> Some (VQ q)) /\
  exists us, flexible_updates ex_net (mkT 2020 1 [4; 0; 2; 0; 0; 9; 0; 0; 0; 0]%Q) = Ok us /\ List.length us = 10.
Proof.
  sp.
  - intros l q. unfold cell. cbn [ex_net n_tables d_get l_get String.eqb Ascii.eqb Bool.eqb]. destruct (in_dec Z.eq_dec l (t_index ex_sgen)); discriminate.
  - intros l q. unfold cell. cbn [ex_net n_tables d_get l_get String.eqb Ascii.eqb Bool.eqb]. destruct (in_dec Z.eq_dec l (t_index ex_poly)); discriminate.
  - eexists. split; reflexivity.
Qed.

(* ------------------------------------------------------------------ *)
(** ** C46 *)

(** The integer p and the cluster [p] address different lines. *)
Theorem C46_refuted : exists s3 n p c n1 n2,
  update_multiple_parameters s3 n [mkUpdate "line" "in_service" (PInt p) (VB true) (CNum c)] true n = Ok n1 /\
  update_multiple_parameters s3 n [mkUpdate "line" "in_service" (PList [p]) (VB true) (CList [c])] true n = Ok n2 /\
  ~ net_eq n1 n2.
Proof.
  exists (7 # 4)%Q, ex_net, 1%Z, 7%Q. do 2 eexists. sp; [reflexivity|reflexivity|].
  intros (_ & C & _). specialize (C "line" 1%Z "in_service"). vm_compute in C. discriminate.
Qed.
Print Assumptions C46_refuted.

(** The cluster [p] is the integer p - 1, for every network and capacity. *)
Theorem C46_cluster_counts_from_one_partial : forall s3 n p c b name v,
  update_multiple_parameters s3 n [mkUpdate "line" name (PList [p]) v (CList [c])] true b =
  update_multiple_parameters s3 n [mkUpdate "line" name (PInt (p - 1)) v (CNum c)] true b.
Proof.
  intros. unfold update_multiple_parameters. cbn [foldM]. unfold apply_update. cbn [u_type u_pos u_cap List.length seq combine foldM fst snd cluster_capacity single_capacity nth_error].
  change (String.eqb "line" "load") with false. cbv iota. now destruct (reinforce s3 "line" "line" (p - 1) (Ok c) n).
Qed.
Print Assumptions C46_cluster_counts_from_one_partial.

(** A cluster is the list of its lines, each one position lower. *)
Theorem C46_cluster_is_its_lines_partial : forall s3 n ps cs b name v, List.length ps = List.length cs ->
  update_multiple_parameters s3 n [mkUpdate "line" name (PList ps) v (CList cs)] true b =
  update_multiple_parameters s3 n (map (fun pc => mkUpdate "line" name (PInt (fst pc - 1)) v (CNum (snd pc))) (combine ps cs)) true b.
Proof.
  intros s3 n ps cs b name v L. unfold update_multiple_parameters. rewrite !updates_targets.
  - f_equal. cbn [flat_map targets u_pos u_cap]. rewrite List.app_nil_r. revert cs L. induction ps as [|p ps IH]; intros [|c cs] L; try discriminate; auto.
    cbn [map combine flat_map targets u_pos u_cap app fst snd]. f_equal. apply IH. now injection L.
  - apply Forall_forall. intros u I. apply in_map_iff in I as (pc & <- & _). split; cbn; auto.
  - repeat constructor; auto.
Qed.
Print Assumptions C46_cluster_is_its_lines_partial.

Example C46_witness : exists n1, update_multiple_parameters (7 # 4) ex_net [mkUpdate "line" "in_service" (PList [2; 1]%Z) (VB true) (CList [14; 35]%Q)] true ex_net = Ok n1 /\
  ~ net_eq n1 ex_net.
Proof. eexists. split; [reflexivity|]. intros (_ & C & _). specialize (C "line" 1%Z "in_service"). vm_compute in C. discriminate. Qed.

(* ------------------------------------------------------------------ *)
(** ** C63 *)

(** With distinct profiles, a cluster that names one of them rescales the controller of that
    profile, from the profile as configured, and leaves the other controllers and all the tables alone. *)
Theorem C63_controllers : forall ps pre p post c n, ps = pre ++ p :: post ->
  NoDup (map (fun q => (pp_elem q, pp_var q)) ps) -> cl_type c = pp_elem p -> cl_var c = pp_var p ->
  map (fun k => (k_elem k, k_var k)) (n_ctrl n) = map (fun q => (pp_elem q, pp_var q)) ps ->
  exists n', update_controllers ps [c] n = Ok n' /\ n_tables n' = n_tables n /\
    map (fun k => (k_elem k, k_var k)) (n_ctrl n') = map (fun k => (k_elem k, k_var k)) (n_ctrl n) /\
    nth_error (n_ctrl n') (List.length pre) = Some (mkCtl (pp_elem p) (pp_var p) (map (map (fun x => x * cl_centroid c)%Q) (pp_data p))) /\
    forall i, i <> List.length pre -> nth_error (n_ctrl n') i = nth_error (n_ctrl n) i.
Proof.
  intros ps pre p post c n E ND T V K. unfold update_controllers. cbn [mapM].
  assert (D : forall q, In q pre -> ~ (pp_elem q = pp_elem p /\ pp_var q = pp_var p)).
  { rewrite E, map_app in ND. cbn [map] in ND. apply NoDup_remove in ND as (_ & ND). intros q I (X & Y). apply ND. apply in_or_app. left. rewrite <- X, <- Y.
    apply (in_map (fun q => (pp_elem q, pp_var q))). exact I. }
  rewrite (new_profile_ok ps c pre p post) by auto. cbn [rbind foldM].
  rewrite E, map_app in K. cbn [map] in K. apply map_eq_app in K as (kpre & krest & Ek & K1 & K2). apply map_eq_cons in K2 as (k & kpost & -> & K2 & K3).
  injection K2 as Ke Kv.
  assert (Lk : List.length kpre = List.length pre) by (rewrite <- (map_length (fun k => (k_elem k, k_var k))), K1, map_length; reflexivity).
  rewrite (update_controller_ok n _ kpre k kpost); auto.
  - cbn [rbind pp_data]. eexists. split; [reflexivity|]. cbn [n_tables n_ctrl]. rewrite Ek, <- Lk. sp; auto.
    + rewrite !map_app. reflexivity.
    + rewrite nth_error_app2, Nat.sub_diag by lia. cbn. now rewrite Ke, Kv.
    + intros i N. destruct (Nat.lt_ge_cases i (List.length kpre)) as [Li|Li].
      * rewrite !nth_error_app1 by auto. reflexivity.
      * rewrite !nth_error_app2 by auto. destruct (i - List.length kpre) eqn:Ed; [lia|reflexivity].
  - intros q I (X & Y). apply (in_map (fun k => (k_elem k, k_var k))) in I. rewrite K1 in I. apply in_map_iff in I as (q' & Eq & I'). injection Eq as Eq1 Eq2. apply (D q' I'). split; congruence.
Qed.
Print Assumptions C63_controllers.

(** A cluster that names no profile overwrites the last controller. *)
Theorem C63_refuted : exists ps c n n', NoDup (map (fun q => (pp_elem q, pp_var q)) ps) /\
  map (fun k => (k_elem k, k_var k)) (n_ctrl n) = map (fun q => (pp_elem q, pp_var q)) ps /\
  (forall p, In p ps -> ~ (pp_elem p = cl_type c /\ pp_var p = cl_var c)) /\
  update_controllers ps [c] n = Ok n' /\ n_ctrl n' <> n_ctrl n.
Proof.
  pose (ps := [mkPP "load" "p_mw" [[1]]%Q; mkPP "load" "q_mvar" [[2]]%Q]).
  exists ps, (mkCluster [0] 3 0 "gen" "p_mw"), (add_controllers ps ex_net). eexists. sp.
  - repeat constructor; cbn; intuition discriminate.
  - reflexivity.
  - intros p [<-|[<-|[]]] (X & _); discriminate.
  - reflexivity.
  - discriminate.
Qed.
Print Assumptions C63_refuted.

(** Adding the controllers again, without loading the network anew, keeps the earlier ones: a
    cluster then rescales the earlier copy only, and the copy added last plays the profile as
    configured. *)
Theorem C63_second_initialisation_partial : forall ps pre p post c n, ps = pre ++ p :: post ->
  NoDup (map (fun q => (pp_elem q, pp_var q)) ps) -> cl_type c = pp_elem p -> cl_var c = pp_var p -> n_ctrl n = [] ->
  exists n', update_controllers ps [c] (add_controllers ps (add_controllers ps n)) = Ok n' /\ n_tables n' = n_tables n /\
    List.length (n_ctrl n') = 2 * List.length ps /\
    nth_error (n_ctrl n') (List.length pre) = Some (mkCtl (pp_elem p) (pp_var p) (map (map (fun x => x * cl_centroid c)%Q) (pp_data p))) /\
    nth_error (n_ctrl n') (List.length ps + List.length pre) = Some (mkCtl (pp_elem p) (pp_var p) (pp_data p)).
Proof.
  intros ps pre p post c n E ND T V Z. unfold update_controllers. cbn [mapM].
  assert (D : forall q, In q pre -> ~ (pp_elem q = pp_elem p /\ pp_var q = pp_var p)).
  { rewrite E, map_app in ND. cbn [map] in ND. apply NoDup_remove in ND as (_ & ND). intros q I (X & Y). apply ND. apply in_or_app. left. rewrite <- X, <- Y.
    apply (in_map (fun q => (pp_elem q, pp_var q))). exact I. }
  rewrite (new_profile_ok ps c pre p post) by auto. cbn [rbind foldM].
  set (ctl := fun p => mkCtl (pp_elem p) (pp_var p) (pp_data p)).
  assert (K : n_ctrl (add_controllers ps (add_controllers ps n)) = map ctl pre ++ ctl p :: map ctl post ++ map ctl ps).
  { unfold add_controllers. cbn [n_ctrl]. rewrite Z. cbn [app]. fold ctl. rewrite E, !map_app. cbn [map]. rewrite <- app_assoc. reflexivity. }
  rewrite (update_controller_ok _ _ (map ctl pre) (ctl p) (map ctl post ++ map ctl ps) K); auto.
  - cbn [rbind pp_data]. eexists. split; [reflexivity|]. cbn [n_tables n_ctrl]. sp; auto.
    + rewrite app_length. cbn [List.length]. rewrite app_length, !map_length, E, app_length. cbn [List.length]. lia.
    + rewrite nth_error_app2; rewrite map_length; [|lia]. rewrite Nat.sub_diag. reflexivity.
    + rewrite nth_error_app2; rewrite map_length; [|lia]. replace (List.length ps + List.length pre - List.length pre) with (List.length ps) by lia.
      assert (L : List.length ps = S (List.length post + List.length pre)) by (rewrite E, app_length; cbn; lia).
      rewrite L. cbn [nth_error]. rewrite nth_error_app2; rewrite map_length; [|lia]. replace (List.length post + List.length pre - List.length post) with (List.length pre) by lia.
      rewrite E, map_app, nth_error_app2; rewrite map_length; [|lia]. rewrite Nat.sub_diag. reflexivity.
  - intros q I (X & Y). apply in_map_iff in I as (q' & <- & I). apply (D q' I). split; assumption.
Qed.
Print Assumptions C63_second_initialisation_partial.

Example C63_witness : exists n', update_controllers [mkPP "load" "p_mw" [[1]]%Q; mkPP "load" "q_mvar" [[2]]%Q] [mkCluster [0] 3 0 "load" "p_mw"]
    (add_controllers [mkPP "load" "p_mw" [[1]]%Q; mkPP "load" "q_mvar" [[2]]%Q] ex_net) = Ok n' /\
  n_ctrl n' = [mkCtl "load" "p_mw" [[3]]%Q; mkCtl "load" "q_mvar" [[2]]%Q].
Proof. eexists. split; reflexivity. Qed.

(* ------------------------------------------------------------------ *)
(** ** C64 *)

(** The base planner without new interventions leaves the network of the previous evaluation. *)
Theorem C64_refuted_history : exists S cs ts cand n n', prepare_rf S cs ts cand [] n = Ok n' /\ ~ net_eq n' (st_orig S).
Proof.
  exists (mkSetting (7 # 4) ex_net [] false false), [], [], [], (mkNet [] []), (mkNet [] []). split; [reflexivity|].
  intros (H & _). specialize (H "bus"). discriminate.
Qed.
Print Assumptions C64_refuted_history.

(** With new interventions the interventions of the earlier stages are dropped: the network is
    the one with the new interventions alone, whatever the candidate. *)
Theorem C64_refuted_candidate : forall S cs ts cand k b news n, (exists n1, status_group S (flat_map (fun it => map snd (snd it)) cand) n = Ok n1) ->
  prepare_rf S cs ts cand ((k, b) :: news) n = prepare_na S cs ts (b :: map snd news) n.
Proof.
  intros S cs ts cand k b news n (n1 & E). unfold prepare_rf, status_rf. rewrite E. reflexivity.
Qed.
Print Assumptions C64_refuted_candidate.

(** Stage 0 reinforced line 0, stage 1 reinforces line 1; the OPF of stage 1 sees line 0 as it was. *)
Example C64_witness : match prepare_rf (mkSetting (7 # 4) ex_net [] false false) [] [] [("0", [("0", ex_bv 0 35)])] [("1", ex_bv 1 35)] ex_net with
  | Ok n => cell n "line" 0 "max_i_ka" = cell ex_net "line" 0 "max_i_ka" /\ cell_eq (cell n "line" 1 "max_i_ka") (Some (VQ 4))
  | Err _ => False
  end.
Proof. vm_compute. auto. Qed.

(* ------------------------------------------------------------------ *)
(** ** C98 *)

(** Every distinct bus of the flexible units gets exactly one new idle controllable generator
    with one new zero cost row that names it; the new labels differ from each other and from the
    old ones; no old cell changes, at most a new column reads NaN in an old row; no other table
    and no controller is touched. *)
Theorem C98_flexibility_generators : forall frames f n, d_get "flexible units" frames = Some f ->
  shape n "sgen" <> None -> shape n "poly_cost" <> None ->
  exists n' added, create_flexibility frames n = Ok n' /\
    NoDup (map au_bus added) /\ (forall b, In b (map au_bus added) <-> exists r, In r (f_rows f) /\ fr_bus r = b) /\
    (forall u, In u added -> flex_unit n' (au_bus u) (au_gen u) (au_cost u)) /\
    rows n' "sgen" = rows n "sgen" ++ map au_gen added /\ rows n' "poly_cost" = rows n "poly_cost" ++ map au_cost added /\
    NoDup (map au_gen added) /\ (forall l, In l (map au_gen added) -> ~ In l (rows n "sgen")) /\
    NoDup (map au_cost added) /\ (forall l, In l (map au_cost added) -> ~ In l (rows n "poly_cost")) /\
    (forall t l c v, cell n t l c = Some v -> cell n' t l c = Some v) /\
    (forall t l c v, In l (rows n t) -> cell n' t l c = Some v -> cell n t l c = Some v \/ v = VNaN) /\
    (forall t l c, t <> "sgen" -> t <> "poly_cost" -> cell n' t l c = cell n t l c) /\ n_ctrl n' = n_ctrl n.
Proof.
  intros frames f n F S P. rewrite (create_flexibility_fold _ _ _ F). unfold shape in S, P.
  destruct (d_get "sgen" (n_tables n)) as [sg|] eqn:S'; [|now destruct S]. destruct (d_get "poly_cost" (n_tables n)) as [pc|] eqn:P'; [|now destruct P].
  destruct (flex_all (unique (map fr_bus (f_rows f))) n sg pc S' P') as (n' & added & E & M & (G1 & G2 & G3 & G4) & U & R1 & R2 & D1 & D2).
  exists n', added. split; [exact E|]. sp; auto.
  - rewrite M. apply unique_NoDup.
  - intros b. rewrite M, unique_In, in_map_iff. split; intros (r & A & B); eauto.
  - intros u I. apply (U u I).
  - intros l I. apply in_map_iff in I as (u & <- & I). apply (U u I).
  - intros l I. apply in_map_iff in I as (u & <- & I). apply (U u I).
  - intros t l c N1 N2. rewrite !cell_tcell, G2; auto.
Qed.
Print Assumptions C98_flexibility_generators.

(** When the network has no static generator of its own at the bus and prices only generators it
    has, the updates of a flexible unit go to the new rows of its bus. *)
Theorem C98_updates_find_them : forall frames f n r, d_get "flexible units" frames = Some f ->
  shape n "sgen" <> None -> shape n "poly_cost" <> None ->
  (exists x, In x (f_rows f) /\ fr_bus x = tb_bus r) ->
  (forall l v, cell n "sgen" l "bus" = Some v -> exists z, v = VZ z /\ z <> tb_bus r) ->
  (forall l v, cell n "poly_cost" l "element" = Some v -> exists z, v = VZ z /\ (cell n "poly_cost" l "et" = Some (VS "sgen") -> In z (rows n "sgen"))) ->
  forall n', create_flexibility frames n = Ok n' ->
  exists us i j, flexible_updates n' r = Ok us /\ flex_unit n' (tb_bus r) i j /\ ~ In i (rows n "sgen") /\ ~ In j (rows n "poly_cost") /\
    Forall (fun u => (u_type u = "sgen" /\ u_pos u = PScalar i) \/ (u_type u = "poly_cost" /\ u_pos u = PScalar j)) us.
Proof.
  intros frames f n r F S P (x & X1 & X2) HS HP n' E0. rewrite (create_flexibility_fold _ _ _ F) in E0. unfold shape in S, P.
  destruct (d_get "sgen" (n_tables n)) as [sg|] eqn:S'; [|now destruct S]. destruct (d_get "poly_cost" (n_tables n)) as [pc|] eqn:P'; [|now destruct P].
  destruct (flex_all (unique (map fr_bus (f_rows f))) n sg pc S' P') as (n'' & added & E & M & (G1 & G2 & G3 & G4) & U & R1 & R2 & D1 & D2).
  rewrite E in E0. injection E0 as ->.
  assert (I : In (tb_bus r) (map au_bus added)) by (rewrite M, unique_In, <- X2; now apply in_map).
  apply in_map_iff in I as (u & Eu & I). apply in_split in I as (pre & post & Ea).
  assert (Iu : In u added) by (rewrite Ea; apply in_or_app; right; now left). destruct (U u Iu) as (Uu & N1 & N2). rewrite Eu in Uu.
  assert (ND : NoDup (map au_bus added)) by (rewrite M; apply unique_NoDup).
  destruct Uu as (A1 & A2 & A3 & A4 & A5 & A6).
  assert (IX : index_by n' "sgen" "bus" (VZ (tb_bus r)) = Ok (au_gen u)).
  { apply (index_by_first n' _ _ _ (rows n "sgen" ++ map au_gen pre) _ (map au_gen post)).
    - rewrite R1, Ea, map_app, <- app_assoc. reflexivity.
    - congruence.
    - intros l' Il w W. apply in_app_iff in Il as [Il|Il].
      + destruct (G4 "sgen" l' "bus" w Il W) as [W'| ->]; [|reflexivity]. destruct (HS _ _ W') as (z & -> & Nz). cbn. now apply Z.eqb_neq.
      + apply in_map_iff in Il as (u' & <- & Iu'). destruct (U u') as ((B1 & _) & _); [rewrite Ea; apply in_or_app; auto|]. rewrite B1 in W. injection W as <-. cbn. apply Z.eqb_neq.
        intros Q. rewrite Ea, map_app in ND. cbn [map] in ND. apply NoDup_remove_2 in ND. apply ND. apply in_or_app. left. rewrite Eu, <- Q. now apply in_map.
    - intros w W. rewrite A1 in W. injection W as <-. cbn. apply Z.eqb_refl. }
  assert (JX : poly_index n' (au_gen u) = Ok (au_cost u)).
  { apply (poly_index_first n' _ (rows n "poly_cost" ++ map au_cost pre) _ (map au_cost post)); auto.
    - rewrite R2, Ea, map_app, <- app_assoc. reflexivity.
    - intros l' w w' Il W W'. apply in_app_iff in Il as [Il|Il].
      + destruct (G4 "poly_cost" l' _ w Il W) as [V| ->]; [|reflexivity]. destruct (HP _ _ V) as (z & -> & Nz).
        destruct (G4 "poly_cost" l' _ w' Il W') as [V'| ->]; [|apply andb_false_r].
        destruct (val_eqb w' (VS "sgen")) eqn:Q; [|apply andb_false_r]. rewrite andb_true_r. cbn. apply Z.eqb_neq. intros ->. apply N1, Nz.
        destruct w' as [| | |s|]; try discriminate Q. cbn in Q. apply String.eqb_eq in Q. now subst.
      + apply in_map_iff in Il as (u' & <- & Iu'). destruct (U u') as ((_ & _ & _ & B1 & _) & _); [rewrite Ea; apply in_or_app; auto|]. rewrite B1 in W. injection W as <-. cbn.
        replace (Z.eqb (au_gen u') (au_gen u)) with false; [reflexivity|]. symmetry. apply Z.eqb_neq.
        intros Q. rewrite Ea, map_app in D1. cbn [map] in D1. apply NoDup_remove_2 in D1. apply D1. apply in_or_app. left. rewrite <- Q. now apply in_map. }
  assert (EU : exists us, flexible_updates n' r = Ok us).
  { unfold flexible_updates. rewrite IX. cbn [rbind]. rewrite JX. cbn [rbind]. eauto. }
  destruct EU as (us & EU). exists us, (au_gen u), (au_cost u). sp; auto.
  - unfold flex_unit. sp; auto.
  - unfold flexible_updates in EU. rewrite IX in EU. cbn [rbind] in EU. rewrite JX in EU. cbn [rbind] in EU. injection EU as <-.
    apply Forall_forall. intros v Iv. apply in_app_iff in Iv as [Iv|Iv]; apply in_map_iff in Iv as (cv & <- & _); cbn; auto.
Qed.
Print Assumptions C98_updates_find_them.

(** Two units at bus 2 and one at bus 5, on a network with a generator at bus 1. *)
Definition ex_flex_frames : @items frame :=
  [("flexible units", mkFrame ["max_p_mw"] [mkFRow 1 2020 2 [1%Q]; mkFRow 1 2020 5 [2%Q]; mkFRow 1 2030 2 [3%Q]])].
Example C98_witness : match create_flexibility ex_flex_frames ex_net with
  | Ok n => rows n "sgen" = [0; 1; 2]%Z /\ rows n "poly_cost" = [0; 1; 2; 3]%Z /\ flex_unit n 2 1 2 /\ flex_unit n 5 2 3 /\
      (exists us, flexible_updates n (mkT 2020 5 [1; 2; 3; 4; 5; 6; 7; 8; 9; 10]%Q) = Ok us /\ List.length us = 10)
  | Err _ => False
  end /\
  (forall l v, cell ex_net "sgen" l "bus" = Some v -> exists z, v = VZ z /\ z <> 5%Z) /\
  (forall l v, cell ex_net "poly_cost" l "element" = Some v -> exists z, v = VZ z /\ (cell ex_net "poly_cost" l "et" = Some (VS "sgen") -> In z (rows ex_net "sgen"))).
Proof.
  sp.
  - vm_compute. sp; try reflexivity; try (eexists; split; reflexivity); intros c I; repeat (destruct I as [<-|I]; [reflexivity|]); destruct I.
  - intros l v. rewrite cell_tcell. cbn [ex_net n_tables]. intros H. apply tcell_in in H as (_ & _ & <-). exists 1%Z. split; [reflexivity|discriminate].
  - intros l v. rewrite cell_tcell. cbn [ex_net n_tables]. intros H. apply tcell_in in H as (_ & _ & <-). exists 0%Z. split; [reflexivity|]. intros _. left. reflexivity.
Qed.
