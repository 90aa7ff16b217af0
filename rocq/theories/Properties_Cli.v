(** Properties of the commands of the older engine (Cli.v). *)
From Coq Require Import List Bool Arith ZArith QArith String Ascii Lia.
From Verif Require Import Base Cases Network InputOutput Linear Devices DevicesProofs Power Cli.
Import ListNotations.
Open Scope nat_scope.
Open Scope list_scope.
Open Scope string_scope.

(* ------------------------------------------------------------------ *)
(** ** Specification and lemmas *)

(** A hydropower plant at bus [bus]. *)
Definition a_plant (bus : nat) (mx cost base : Q) : gen := mkGen Hyd bus mx 0 None base None None (mkCurve true 2 [0; 0; 1; cost]%Q).
(** The options are numbers of units that exist. *)
Definition counts (hydro : Z) (pump res : option Z) : Prop := (0 <= hydro /\ 0 <= or_else pump 0 /\ 0 <= or_else res 0)%Z.

Lemma zeros_ok {A} (z : A) n : (0 <= n)%Z -> zeros z n = Ok (repeat z (Z.to_nat n)).
Proof. intros L. unfold zeros. destruct (Z.ltb_spec n 0); [lia|reflexivity]. Qed.
Lemma zeros_neg {A} (z : A) n : (n < 0)%Z -> zeros z n = Err ValueError.
Proof. intros L. unfold zeros. destruct (Z.ltb_spec n 0); [reflexivity|lia]. Qed.
Lemma set_nth_mid {A} (a b : A) l r : (set_nth (List.length l) a (l ++ b :: r) = l ++ a :: r)%list.
Proof. induction l as [|x l IH]; [reflexivity|]. cbn. now rewrite IH. Qed.
Lemma fill_loop mx cost : forall k d, 
  fold_left (fun s x => let '(b, m, c) := s in (set_nth x (x + 1) b, set_nth x mx m, set_nth x cost c)) (seq d k) ((seq 1 d ++ repeat 0 k)%list, (repeat mx d ++ repeat 0%Q k)%list, (repeat cost d ++ repeat 0%Q k)%list)
  = (seq 1 (d + k), repeat mx (d + k), repeat cost (d + k)).
Proof.
  induction k as [|k IH]; intros d; [cbn; rewrite !app_nil_r, Nat.add_0_r; reflexivity|]. cbn [seq fold_left repeat].
  pose proof (set_nth_mid (d + 1) 0 (seq 1 d) (repeat 0 k)) as E1. rewrite seq_length in E1. rewrite E1.
  pose proof (set_nth_mid mx 0%Q (repeat mx d) (repeat 0%Q k)) as E2. rewrite repeat_length in E2. rewrite E2.
  pose proof (set_nth_mid cost 0%Q (repeat cost d) (repeat 0%Q k)) as E3. rewrite repeat_length in E3. rewrite E3.
  specialize (IH (S d)). replace (S d + k) with (d + S k) in IH by lia. rewrite <- IH. f_equal.
  rewrite seq_S. cbn [Nat.add]. rewrite <- !app_assoc. cbn [app]. rewrite (Nat.add_comm d 1). f_equal; [f_equal|].
  - change (repeat mx (S d)) with (mx :: repeat mx d). rewrite repeat_cons, <- app_assoc. reflexivity.
  - change (repeat cost (S d)) with (cost :: repeat cost d). rewrite repeat_cons, <- app_assoc. reflexivity.
Qed.
Lemma fill_units_ok n mx cost : (0 <= n)%Z -> fill_units n mx cost = Ok (mkUnits n (seq 1 (Z.to_nat n)) (Arr (repeat mx (Z.to_nat n))) (Arr (repeat cost (Z.to_nat n)))).
Proof. intros L. unfold fill_units. rewrite !zeros_ok by exact L. cbn [rbind]. pose proof (fill_loop mx cost (Z.to_nat n) 0) as E. cbn [seq repeat app Nat.add] in E. rewrite E. reflexivity. Qed.
Lemma fill_units_neg n mx cost : (n < 0)%Z -> fill_units n mx cost = Err ValueError.
Proof. intros L. unfold fill_units. rewrite zeros_neg by exact L. reflexivity. Qed.
Lemma res_loop : forall l b m c, l <> [] -> exists b', fold_left (fun (s : list nat * entry * entry) x => let '(b, m, c) := s in (set_nth x (x + 1) b, One 0, One 10)) l (b, m, c) = (b', One 0, One 10).
Proof.
  induction l as [|x l IH]; intros b m c N; [contradiction|]. destruct l as [|y l]; [eexists; reflexivity|].
  change (fold_left _ (x :: y :: l) (b, m, c)) with (fold_left (fun (s : list nat * entry * entry) x => let '(b, m, c) := s in (set_nth x (x + 1) b, One 0, One 10)) (y :: l) (set_nth x (x + 1) b, One 0, One 10)).
  apply IH. discriminate.
Qed.
Lemma res_buses : forall k d m c, exists m' c', fold_left (fun (s : list nat * entry * entry) x => let '(b, m, c) := s in (set_nth x (x + 1) b, One 0, One 10)) (seq d k) ((seq 1 d ++ repeat 0 k)%list, m, c) = (seq 1 (d + k), m', c').
Proof.
  induction k as [|k IH]; intros d m c; [cbn; rewrite app_nil_r, Nat.add_0_r; eauto|]. cbn [seq fold_left repeat].
  pose proof (set_nth_mid (d + 1) 0 (seq 1 d) (repeat 0 k)) as E1. rewrite seq_length in E1. rewrite E1.
  specialize (IH (S d) (One 0) (One 10)). replace (S d + k) with (d + S k) in IH by lia. rewrite seq_S in IH. cbn [Nat.add] in IH. rewrite <- app_assoc in IH. cbn [app] in IH. rewrite (Nat.add_comm d 1). exact IH.
Qed.
Lemma fill_res_ok n : (0 <= n)%Z -> fill_res n = Ok (if (n =? 0)%Z then no_units else mkUnits n (seq 1 (Z.to_nat n)) (One 0) (One 10)).
Proof.
  intros L. unfold fill_res. rewrite !zeros_ok by exact L. cbn [rbind]. destruct (Z.eqb_spec n 0) as [->|N]; [reflexivity|].
  destruct (res_loop (seq 0 (Z.to_nat n)) (repeat 0 (Z.to_nat n)) (Arr (repeat 0%Q (Z.to_nat n))) (Arr (repeat 0%Q (Z.to_nat n)))) as (b & E).
  { destruct (Z.to_nat n) eqn:T; [lia|discriminate]. }
  destruct (res_buses (Z.to_nat n) 0 (Arr (repeat 0%Q (Z.to_nat n))) (Arr (repeat 0%Q (Z.to_nat n)))) as (m & c & F). cbn [seq app Nat.add] in F. rewrite E in F. injection F as -> <- <-. rewrite E. reflexivity.
Qed.
Lemma fill_res_neg n : (n < 0)%Z -> fill_res n = Err ValueError.
Proof. intros L. unfold fill_res. rewrite zeros_neg by exact L. reflexivity. Qed.

(** [update_n] with numbers of units that exist. *)
Lemma update_n_ok dir o c : (0 <= or_else (o_pump o) 0)%Z -> (0 <= or_else (o_res o) 0)%Z -> exists c',
  update_n dir o c = Ok c' /\ c_hydro c' = c_hydro c /\ c_base c' = (match o_baseline o with Some a => [a; a] | None => c_base c end) /\
  fill_units (or_else (o_pump o) 0%Z) 1 (1 # 1000) = Ok (c_pumps c') /\ fill_res (or_else (o_res o) 0%Z) = Ok (c_res c') /\ c_time c' = o_time o /\ c_sec c' = or_else (o_sec o) [] /\
  (c_losses c', c_loss c') = (match o_linear o with Some a => if Qle_bool a 0 then (or_else (o_loss o) false, c_loss c) else (false, Some a) | None => (or_else (o_loss o) false, c_loss c) end) /\
  c_feas c' = or_else (o_feas o) true /\ c_file c' = in_json dir (o_network o) /\ c_tree c' = c_tree c /\
  (c_pyomo c', c_glpk c') = (match o_pyomo o with Some true => (true, false) | _ => (c_pyomo c, c_glpk c) end) /\ c_no_dem c' = 2 /\ c_no_res c' = 2 /\ c_weights c' = None.
Proof.
  intros P R. unfold update_n. rewrite (fill_units_ok _ _ _ P), (fill_res_ok _ R). cbn [rbind].
  destruct (match o_linear o with Some a => if Qle_bool a 0 then (or_else (o_loss o) false, c_loss c) else (false, Some a) | None => (or_else (o_loss o) false, c_loss c) end) as (lo, ls).
  destruct (match o_pyomo o with Some true => (true, false) | _ => (c_pyomo c, c_glpk c) end) as (py, gl).
  eexists. split; [reflexivity|]. cbn. repeat split; reflexivity.
Qed.
Lemma update_n_neg dir o c : (or_else (o_pump o) 0 < 0 \/ or_else (o_res o) 0 < 0)%Z -> update_n dir o c = Err ValueError.
Proof.
  intros [P|R]; unfold update_n; [now rewrite (fill_units_neg _ _ _ P)|].
  destruct (Z.lt_ge_cases (or_else (o_pump o) 0) 0)%Z as [P|P]; [now rewrite (fill_units_neg _ _ _ P)|]. rewrite (fill_units_ok _ _ _ P), (fill_res_neg _ R). reflexivity.
Qed.
(** What the user asks of RES generators, with the default of the command. *)
Definition res_asked (k : command) (a : asked) : option Z :=
  match k with RunAC => None | RunRES => Some (or_else (a_res a) 2%Z) | _ => a_res a end.
Definition pump_asked (k : command) (a : asked) : option Z := match k with RunAC => None | _ => a_pump a end.

Lemma mapM_all {A B} (f : A -> res B) (g : A -> B) l : (forall x, In x l -> f x = Ok (g x)) -> mapM f l = Ok (map g l).
Proof. induction l as [|x l IH]; intros H; [reflexivity|]. cbn. rewrite H by now left. cbn [rbind]. rewrite IH by (intros y I; apply H; now right). reflexivity. Qed.
Lemma at_seq k n i : i < n -> at_ (seq k n) i = Ok (k + i).
Proof. intros L. unfold at_. rewrite (nth_error_nth' (seq k n) 0) by (rewrite seq_length; exact L). now rewrite seq_nth. Qed.
Lemma at_repeat {A} (a : A) n i : i < n -> at_ (repeat a n) i = Ok a.
Proof. intros L. unfold at_. rewrite (nth_error_nth' (repeat a n) a) by (rewrite repeat_length; exact L). f_equal. apply nth_repeat. Qed.

Opaque fill_units fill_res.

(* ------------------------------------------------------------------ *)
(** ** C317 *)
(** run-n and run-en with --hydro n (default settings before): the engine gets n hydropower plants, at the buses 1 to n,
    each with 1000 MW, cost 0.01 and no baseload, whatever the other options are, as long as the numbers of units are not
    negative; a negative number ends with ValueError. *)
Theorem C317_hydro : forall dir f t k n a, k = RunN \/ k = RunEN -> counts n (a_pump a) (a_res a) ->
  exists c, settings dir k n a (default_conf f t) = Ok c /\ hydro_units c = Ok (map (fun i => a_plant (i + 1) 1000 (1 # 100) 0) (seq 0 (Z.to_nat n))).
Proof.
  intros dir f t k n a K (H & P & R). unfold settings, group. rewrite (fill_units_ok _ _ _ H). cbn [rbind].
  assert (X : forall o c0, or_else (o_pump o) 0%Z = or_else (a_pump a) 0%Z -> or_else (o_res o) 0%Z = or_else (a_res a) 0%Z -> o_baseline o = None -> c_base c0 = [0%Q] ->
    c_hydro c0 = mkUnits n (seq 1 (Z.to_nat n)) (Arr (repeat 1000%Q (Z.to_nat n))) (Arr (repeat (1 # 100) (Z.to_nat n))) ->
    exists c, update_n dir o c0 = Ok c /\ hydro_units c = Ok (map (fun i => a_plant (i + 1) 1000 (1 # 100) 0) (seq 0 (Z.to_nat n)))).
  { intros o c0 EP ER EB E0 EH. destruct (update_n_ok dir o c0 ltac:(now rewrite EP) ltac:(now rewrite ER)) as (c & E & Hh & Hb & _). exists c. split; [exact E|].
    unfold hydro_units. rewrite Hh, Hb, EB, E0, EH. cbn [u_number u_bus u_max u_cost entry_at]. apply mapM_all. intros i I. apply in_seq in I.
    rewrite at_seq, !at_repeat by lia. cbn [rbind hydro_gen pick hs_anc hs_base hs_ramp hs_res pl_bus pl_max pl_min pl_cost]. unfold a_plant. now rewrite (Nat.add_comm i 1). }
  destruct K as [-> | ->]; apply X; reflexivity.
Qed.
Print Assumptions C317_hydro.
Theorem C317_negative : forall dir k n a c, (n < 0 \/ or_else (pump_asked k a) 0 < 0 \/ or_else (res_asked k a) 0 < 0)%Z -> settings dir k n a c = Err ValueError.
Proof.
  intros dir k n a c H. unfold settings, group. destruct (Z.lt_ge_cases n 0) as [L|L]; [now rewrite (fill_units_neg _ _ _ L)|]. rewrite (fill_units_ok _ _ _ L). cbn [rbind].
  destruct H as [H|H]; [lia|]. destruct k; cbn [pump_asked res_asked or_else] in H; rewrite update_n_neg; try reflexivity; cbn [opts_n opts_en opts_hydro opts_ac opts_res o_pump o_res or_else] in *; exact H.
Qed.
Print Assumptions C317_negative.
Definition nothing : asked := mkAsked None None None None None None None None None None None.
Example C317_witness : counts 3 (a_pump nothing) (a_res nothing) /\ exists c, settings "p" RunEN 3 nothing (default_conf "" "") = Ok c /\ hydro_units c = Ok [a_plant 1 1000 (1 # 100) 0; a_plant 2 1000 (1 # 100) 0; a_plant 3 1000 (1 # 100) 0].
Proof. split; [unfold counts; cbn; lia|]. eexists. split; [vm_compute; reflexivity|]. vm_compute. reflexivity. Qed.

(* ------------------------------------------------------------------ *)
(** ** C318 *)
(** --pump p: p pumps at the buses 1 to p, of 1 MW and a value of 0.001 each, in all the commands with this option that
    make settings. *)
Theorem C318_pumps : forall dir k n a c0 c, settings dir k n a c0 = Ok c -> let p := or_else (pump_asked k a) 0%Z in
  (0 <= p)%Z /\ u_number (c_pumps c) = p /\ u_bus (c_pumps c) = seq 1 (Z.to_nat p) /\
  forall i, i < Z.to_nat p -> entry_at (u_max (c_pumps c)) i = Ok 1%Q /\ entry_at (u_cost (c_pumps c)) i = Ok (1 # 1000).
Proof.
  intros dir k n a c0 c E p.
  destruct (Z.lt_ge_cases n 0) as [L|L]; [rewrite C317_negative in E by (now left); discriminate|].
  destruct (Z.lt_ge_cases p 0) as [Lp|Lp]; [rewrite C317_negative in E by (right; now left); discriminate|].
  destruct (Z.lt_ge_cases (or_else (res_asked k a) 0) 0)%Z as [Lr|Lr]; [rewrite C317_negative in E by (right; now right); discriminate|].
  split; [exact Lp|]. unfold settings, group in E. rewrite (fill_units_ok _ _ _ L) in E. cbn [rbind] in E.
  assert (X : fill_units p 1 (1 # 1000) = Ok (c_pumps c)).
  { destruct k; match type of E with context [update_n dir ?o ?c1] =>
      destruct (update_n_ok dir o c1 Lp Lr) as (c2 & E2 & _ & _ & F & _); rewrite E2 in E; cbn [rbind] in E end; try discriminate E; injection E as <-; exact F. }
  rewrite (fill_units_ok _ _ _ Lp) in X. injection X as <-. cbn [u_number u_bus u_max u_cost entry_at]. do 2 (split; [reflexivity|]). intros i I. now rewrite !at_repeat.
Qed.
Print Assumptions C318_pumps.
Example C318_witness : exists c, settings "p" RunEN 3 (mkAsked None None (Some 2%Z) None None None None None None None None) (default_conf "" "") = Ok c /\ c_pumps c = mkUnits 2 [1; 2] (Arr [1; 1]%Q) (Arr [1 # 1000; 1 # 1000]%Q).
Proof. eexists. split; vm_compute; reflexivity. Qed.

(* ------------------------------------------------------------------ *)
(** ** C319 *)
(** --res r gives the network r RES generators.  Refuted: for every r > 0 the settings are made, but the arrays of
    capacities and costs have been replaced by numbers, and the engine ends with TypeError at the first generator. *)
Theorem C319_res_refuted : forall dir k n a c0, k <> RunRES -> counts n (pump_asked k a) (res_asked k a) -> (0 < or_else (res_asked k a) 0)%Z ->
  exists c, settings dir k n a c0 = Ok c /\ u_number (c_res c) = or_else (res_asked k a) 0%Z /\ res_units c = Err TypeError.
Proof.
  intros dir k n a c0 NR (L & P & R) G. unfold settings, group. rewrite (fill_units_ok _ _ _ L). cbn [rbind].
  assert (X : forall c, fill_res (or_else (res_asked k a) 0%Z) = Ok (c_res c) -> u_number (c_res c) = or_else (res_asked k a) 0%Z /\ res_units c = Err TypeError).
  { intros c F. rewrite (fill_res_ok _ R) in F. destruct (Z.eqb_spec (or_else (res_asked k a) 0) 0)%Z; [lia|]. injection F as F. unfold res_units. rewrite <- F. cbn [u_number u_bus u_max u_cost entry_at]. split; [reflexivity|].
    destruct (Z.to_nat (or_else (res_asked k a) 0%Z)) eqn:T; [lia|]. cbn [seq mapM]. reflexivity. }
  destruct k; try congruence; match goal with |- context [update_n dir ?o ?c1] =>
      destruct (update_n_ok dir o c1 P R) as (c2 & E2 & _ & _ & _ & F & _); rewrite E2; cbn [rbind] end; eexists; (split; [reflexivity|]); apply X; exact F.
Qed.
Print Assumptions C319_res_refuted.
(** Without RES generators there is nothing to go wrong. *)
Theorem C319_none : forall dir k n a c0, k <> RunRES -> counts n (pump_asked k a) (res_asked k a) -> or_else (res_asked k a) 0%Z = 0%Z ->
  exists c, settings dir k n a c0 = Ok c /\ res_units c = Ok [].
Proof.
  intros dir k n a c0 NR (L & P & R) G. unfold settings, group. rewrite (fill_units_ok _ _ _ L). cbn [rbind].
  assert (X : forall c, fill_res (or_else (res_asked k a) 0%Z) = Ok (c_res c) -> res_units c = Ok []).
  { intros c F. rewrite (fill_res_ok _ R), G in F. injection F as F. unfold res_units. rewrite <- F. reflexivity. }
  destruct k; try congruence; match goal with |- context [update_n dir ?o ?c1] =>
      destruct (update_n_ok dir o c1 P R) as (c2 & E2 & _ & _ & _ & F & _); rewrite E2; cbn [rbind] end; eexists; (split; [reflexivity|]); apply X; exact F.
Qed.
Print Assumptions C319_none.
Example C319_witness : counts 3 None (Some 2%Z) /\ exists c, settings "p" RunN 3 (mkAsked None None None (Some 2%Z) None None None None None None None) (default_conf "" "") = Ok c /\ res_units c = Err TypeError.
Proof. split; [unfold counts; cbn; lia|]. eexists. split; vm_compute; reflexivity. Qed.

(* ------------------------------------------------------------------ *)
(** ** C320 *)
(** run-example-hydro: --baseline is the baseload of every plant.  Proved: there are two plants and both have it. *)
Theorem C320_baseline : forall dir n a c0 c, settings dir RunHydro n a c0 = Ok c ->
  hydro_units c = Ok [a_plant 1 200 (1 # 1000) (or_else (a_baseline a) 0%Q); a_plant 5 200 (1 # 1000) (or_else (a_baseline a) 0%Q)].
Proof.
  intros dir n a c0 c E.
  destruct (Z.lt_ge_cases n 0) as [L|L]; [rewrite C317_negative in E by (now left); discriminate|].
  destruct (Z.lt_ge_cases (or_else (pump_asked RunHydro a) 0) 0)%Z as [Lp|Lp]; [rewrite C317_negative in E by (right; now left); discriminate|].
  destruct (Z.lt_ge_cases (or_else (res_asked RunHydro a) 0) 0)%Z as [Lr|Lr]; [rewrite C317_negative in E by (right; now right); discriminate|].
  unfold settings, group in E. rewrite (fill_units_ok _ _ _ L) in E. cbn [rbind] in E.
  match type of E with context [update_n dir ?o ?c1] => destruct (update_n_ok dir o c1 Lp Lr) as (c2 & E2 & _ & B & _); rewrite E2 in E; cbn [rbind] in E end.
  injection E as <-. unfold hydro_units. cbn [example_hydro c_hydro u_number u_bus u_max u_cost c_base]. rewrite B. reflexivity.
Qed.
Print Assumptions C320_baseline.
(** The options of run-example-hydro take effect.  Refuted: whatever --hydro, --time, --loss and --feas are, the number of
    plants is 2, there are 24 time steps, losses are off and feasibility is on; --hydro 3 to give plants is ignored. *)
Theorem C320_ignored_refuted : forall dir n a c0, counts n (a_pump a) (a_res a) ->
  exists c, settings dir RunHydro n a c0 = Ok c /\ u_number (c_hydro c) = 2%Z /\ c_time c = 24%Z /\ c_losses c = false /\ c_feas c = true.
Proof.
  intros dir n a c0 (L & P & R). unfold settings, group. rewrite (fill_units_ok _ _ _ L). cbn [rbind].
  match goal with |- context [update_n dir ?o ?c1] => destruct (update_n_ok dir o c1 P R) as (c2 & E2 & _); rewrite E2; cbn [rbind] end.
  eexists. split; [reflexivity|]. repeat split; reflexivity.
Qed.
Print Assumptions C320_ignored_refuted.
(** The two baseloads that the command sets would not do for more plants: with the plants of --hydro, from 3 on, the
    engine would end with IndexError; with 1 or 2 it would not. *)
Theorem C320_two_baseloads : forall dir o c0 n b c, (0 <= n)%Z -> o_baseline o = Some b -> group n c0 = Ok c -> (0 <= or_else (o_pump o) 0)%Z -> (0 <= or_else (o_res o) 0)%Z ->
  exists c', update_n dir o c = Ok c' /\
    hydro_units c' = if (n <=? 2)%Z then Ok (map (fun i => a_plant (i + 1) 1000 (1 # 100) b) (seq 0 (Z.to_nat n))) else Err IndexError.
Proof.
  intros dir o c0 n b c L B G P R. unfold group in G. rewrite (fill_units_ok _ _ _ L) in G. cbn [rbind] in G. injection G as G.
  destruct (update_n_ok dir o c P R) as (c' & E & H & Hb & _). exists c'. split; [exact E|]. unfold hydro_units. rewrite H, Hb, B, <- G. cbn [c_hydro u_number u_bus u_max u_cost entry_at]. clear - L.
  destruct (Z.leb_spec n 2) as [L2|L2].
  - assert (n = 0 \/ n = 1 \/ n = 2)%Z as [-> | [-> | ->]] by lia; reflexivity.
  - destruct (Z.to_nat n) as [|[|[|m]]] eqn:T; try lia. reflexivity.
Qed.
Print Assumptions C320_two_baseloads.
Example C320_witness : counts 7 None None /\ exists c, settings "p" RunHydro 7 (mkAsked None None None None None (Some true) (Some false) (Some 48%Z) None None (Some (1 # 2))) (default_conf "" "") = Ok c /\
  hydro_units c = Ok [a_plant 1 200 (1 # 1000) (1 # 2); a_plant 5 200 (1 # 1000) (1 # 2)] /\ c_time c = 24%Z.
Proof. split; [unfold counts; cbn; lia|]. eexists. split; [vm_compute; reflexivity|]. split; vm_compute; reflexivity. Qed.

(* ------------------------------------------------------------------ *)
(** ** C321 *)
(** --sec gives the branches to trip.  Refuted: the option is a text, which becomes the list of its characters, and a
    character is never equal to the number of a branch.  Every text that is not empty ends with IndexError in a network
    with at least one branch. *)
Theorem C321_sec_refuted : forall dir k n a c0 c ch text nb, k = RunN \/ k = RunEN \/ k = RunHydro -> a_sec a = Some (String ch text) -> settings dir k n a c0 = Ok c -> 0 < nb ->
  List.length (c_sec c) = S (String.length text) /\ sec_rows nb c = Err IndexError.
Proof.
  intros dir k n a c0 c ch text nb K S E N.
  assert (X : c_sec c = sec_of (a_sec a)).
  { destruct (Z.lt_ge_cases n 0) as [L|L]; [rewrite C317_negative in E by (now left); discriminate|].
    destruct (Z.lt_ge_cases (or_else (pump_asked k a) 0) 0)%Z as [Lp|Lp]; [rewrite C317_negative in E by (right; now left); discriminate|].
    destruct (Z.lt_ge_cases (or_else (res_asked k a) 0) 0)%Z as [Lr|Lr]; [rewrite C317_negative in E by (right; now right); discriminate|].
    unfold settings, group in E. rewrite (fill_units_ok _ _ _ L) in E. cbn [rbind] in E.
    destruct k; try (exfalso; intuition discriminate); match type of E with context [update_n dir ?o ?c1] =>
      destruct (update_n_ok dir o c1 Lp Lr) as (c2 & E2 & _ & _ & _ & _ & _ & F & _); rewrite E2 in E; cbn [rbind] in E end; injection E as <-; exact F. }
  unfold sec_rows. rewrite X, S. cbn [sec_of]. split.
  { rewrite map_length. cbn. f_equal. clear. induction text; cbn; congruence. }
  set (l := map _ _). assert (Ll : 0 < List.length l) by (unfold l; rewrite !map_length; cbn; lia).
  assert (Fl : forall x, In x l -> x = 0) by (unfold l; intros x I; apply in_map_iff in I as (? & <- & _); reflexivity). clearbody l.
  unfold check_security. destruct (Nat.ltb_spec (nb * (1 + List.length l)) (List.length l)); [nia|]. rewrite check_rows.
  assert (Sm : list_sum (map (fun x => if ((1 <=? x) && (x <=? nb))%nat then nb - 1 else nb) l) = nb * List.length l).
  { clear - Fl. induction l as [|x l IH]; [cbn; lia|]. cbn [map list_sum fold_right List.length]. change (fold_right Nat.add 0) with list_sum. rewrite IH by (intros y I; apply Fl; now right). rewrite (Fl x) by now left. cbn. lia. }
  rewrite Sm. destruct (Nat.leb_spec (nb + nb * List.length l) (nb * (1 + List.length l) - List.length l)); [nia|reflexivity].
Qed.
Print Assumptions C321_sec_refuted.
Theorem C321_none : forall dir k n a c0 c nb, a_sec a = None \/ a_sec a = Some "" -> settings dir k n a c0 = Ok c -> sec_rows nb c = Ok tt.
Proof.
  intros dir k n a c0 c nb S E.
  assert (X : c_sec c = []).
  { destruct (Z.lt_ge_cases n 0) as [L|L]; [rewrite C317_negative in E by (now left); discriminate|].
    destruct (Z.lt_ge_cases (or_else (pump_asked k a) 0) 0)%Z as [Lp|Lp]; [rewrite C317_negative in E by (right; now left); discriminate|].
    destruct (Z.lt_ge_cases (or_else (res_asked k a) 0) 0)%Z as [Lr|Lr]; [rewrite C317_negative in E by (right; now right); discriminate|].
    unfold settings, group in E. rewrite (fill_units_ok _ _ _ L) in E. cbn [rbind] in E.
    destruct k; match type of E with context [update_n dir ?o ?c1] =>
      destruct (update_n_ok dir o c1 Lp Lr) as (c2 & E2 & _ & _ & _ & _ & _ & F & _); rewrite E2 in E; cbn [rbind] in E end; try discriminate E; injection E as <-; cbn in F |- *; rewrite F; first [reflexivity|destruct S as [-> | ->]; reflexivity]. }
  unfold sec_rows. rewrite X. unfold check_security. cbn. destruct (Nat.leb_spec nb (nb * 1 - 0)); [reflexivity|lia].
Qed.
Print Assumptions C321_none.
Example C321_witness : exists c, settings "p" RunN 3 (mkAsked None None None None (Some "1,2") None None None None None None) (default_conf "" "") = Ok c /\ c_sec c = ["1"; ","; "2"] /\ sec_rows 4 c = Err IndexError.
Proof. eexists. split; [vm_compute; reflexivity|]. split; vm_compute; reflexivity. Qed.

(* ------------------------------------------------------------------ *)
(** ** C322 *)
(** Losses of run-n and run-en: a positive --linearloss turns the model of losses off, whatever --loss is, and becomes the
    factor of losses; otherwise --loss decides (off by default in run-n, on in run-en) and there is no factor.  There are
    never both. *)
Theorem C322_losses : forall dir f t k n a c, k = RunN \/ k = RunEN -> settings dir k n a (default_conf f t) = Ok c ->
  (forall x, a_linear a = Some x -> (0 < x)%Q -> c_losses c = false /\ c_loss c = Some x) /\
  (match a_linear a with Some x => (x <= 0)%Q | None => True end -> c_losses c = or_else (a_loss a) (match k with RunN => false | _ => true end) /\ c_loss c = None) /\
  (c_losses c = false \/ c_loss c = None).
Proof.
  intros dir f t k n a c K E.
  assert (X : (c_losses c, c_loss c) = if Qle_bool (or_else (a_linear a) 0%Q) 0 then (or_else (a_loss a) (match k with RunN => false | _ => true end), None) else (false, Some (or_else (a_linear a) 0%Q))).
  { destruct (Z.lt_ge_cases n 0) as [L|L]; [rewrite C317_negative in E by (now left); discriminate|].
    destruct (Z.lt_ge_cases (or_else (pump_asked k a) 0) 0)%Z as [Lp|Lp]; [rewrite C317_negative in E by (right; now left); discriminate|].
    destruct (Z.lt_ge_cases (or_else (res_asked k a) 0) 0)%Z as [Lr|Lr]; [rewrite C317_negative in E by (right; now right); discriminate|].
    unfold settings, group in E. rewrite (fill_units_ok _ _ _ L) in E. cbn [rbind] in E.
    destruct K as [-> | ->]; match type of E with context [update_n dir ?o ?c1] =>
      destruct (update_n_ok dir o c1 Lp Lr) as (c2 & E2 & _ & _ & _ & _ & _ & _ & F & _); rewrite E2 in E; cbn [rbind] in E end; injection E as <-; exact F. }
  destruct (Qle_bool (or_else (a_linear a) 0%Q) 0) eqn:Q0.
  - apply Qle_bool_iff in Q0. injection X as X1 X2. split; [intros x Ex Lx; rewrite Ex in Q0; cbn in Q0; exfalso; exact (Qlt_not_le _ _ Lx Q0)|]. split; [intros _; now split|now right].
  - injection X as X1 X2. split; [intros x Ex _; rewrite Ex in X2; now split|]. split; [|now left]. intros M. exfalso. destruct (a_linear a) as [x|]; cbn in Q0; [|discriminate]. apply Qle_bool_iff in M. congruence.
Qed.
Print Assumptions C322_losses.
Example C322_witness : exists c, settings "p" RunEN 3 (mkAsked None None None None None (Some true) None None (Some (1 # 10)) None None) (default_conf "" "") = Ok c /\ c_losses c = false /\ c_loss c = Some (1 # 10).
Proof. eexists. split; [vm_compute; reflexivity|]. split; reflexivity. Qed.

(* ------------------------------------------------------------------ *)
(** ** C323 *)
(** Every command selects exactly one solver: pyomo with run-en --usepyomo, glpk in all other cases. *)
Theorem C323_solver : forall dir f t k n a c, settings dir k n a (default_conf f t) = Ok c ->
  c_glpk c = negb (c_pyomo c) /\ (c_pyomo c = true <-> k = RunEN /\ a_pyomo a = Some true).
Proof.
  intros dir f t k n a c E.
  assert (X : (c_pyomo c, c_glpk c) = match k, a_pyomo a with RunEN, Some true => (true, false) | _, _ => (false, true) end).
  { destruct (Z.lt_ge_cases n 0) as [L|L]; [rewrite C317_negative in E by (now left); discriminate|].
    destruct (Z.lt_ge_cases (or_else (pump_asked k a) 0) 0)%Z as [Lp|Lp]; [rewrite C317_negative in E by (right; now left); discriminate|].
    destruct (Z.lt_ge_cases (or_else (res_asked k a) 0) 0)%Z as [Lr|Lr]; [rewrite C317_negative in E by (right; now right); discriminate|].
    unfold settings, group in E. rewrite (fill_units_ok _ _ _ L) in E. cbn [rbind] in E.
    destruct k; match type of E with context [update_n dir ?o ?c1] =>
      destruct (update_n_ok dir o c1 Lp Lr) as (c2 & E2 & _ & _ & _ & _ & _ & _ & _ & _ & _ & _ & F & _); rewrite E2 in E; cbn [rbind] in E end; try discriminate E; injection E as <-; cbn in F |- *; rewrite F; try reflexivity.
    destruct (a_pyomo a) as [[|]|]; reflexivity. }
  destruct k; try (injection X as -> ->; split; [reflexivity|split; [discriminate|intros (? & _); discriminate]]).
  destruct (a_pyomo a) as [[|]|]; injection X as -> ->; (split; [reflexivity|]); split; try discriminate; try (intros (_ & ?); discriminate); auto.
Qed.
Print Assumptions C323_solver.
Example C323_witness : exists c, settings "p" RunEN 3 (mkAsked None None None None None None None None None (Some true) None) (default_conf "" "") = Ok c /\ c_pyomo c = true.
Proof. eexists. split; [vm_compute; reflexivity|]. reflexivity. Qed.

(* ------------------------------------------------------------------ *)
(** ** C324 *)
(** The profiler runs with --profile only.  Refuted: the option is always among the arguments, with its value, and the
    profiler is on with --no-profile and by default. *)
Theorem C324_profile_refuted : forall init, exists profile, profile = false /\ profiler (group_options init profile) = true.
Proof. intros init. exists false. split; reflexivity. Qed.
Print Assumptions C324_profile_refuted.
Example C324_witness : profiler [("init", None)] = false.
Proof. reflexivity. Qed.

(* ------------------------------------------------------------------ *)
(** ** C325 *)
(** run-res runs the case with RES generators.  Refuted: it ends with an exception for all options: ValueError for
    negative numbers of units, and NameError for all others. *)
Theorem C325_run_res_refuted : forall dir n a c0,
  settings dir RunRES n a c0 = if ((0 <=? n) && (0 <=? or_else (a_pump a) 0) && (0 <=? or_else (a_res a) 2))%Z then Err NameError else Err ValueError.
Proof.
  intros dir n a c0. destruct (Z.leb_spec 0 n) as [L|L]; cbn [andb]; [|apply C317_negative; now left].
  destruct (Z.leb_spec 0 (or_else (a_pump a) 0))%Z as [P|P]; cbn [andb]; [|apply C317_negative; right; now left].
  destruct (Z.leb_spec 0 (or_else (a_res a) 2))%Z as [R|R]; [|apply C317_negative; right; now right].
  unfold settings, group. rewrite (fill_units_ok _ _ _ L). cbn [rbind].
  match goal with |- context [update_n dir ?o ?c1] => destruct (update_n_ok dir o c1 P R) as (c2 & E2 & _); rewrite E2; reflexivity end.
Qed.
Print Assumptions C325_run_res_refuted.
Example C325_witness : settings "p" RunRES 3 nothing (default_conf "" "") = Err NameError.
Proof. vm_compute. reflexivity. Qed.

(* ------------------------------------------------------------------ *)
(** ** C326 *)
(** Files of the network and of the tree: a full path is used as it is; any other name is looked for among the files of
    the package, also if the user has such a file. *)
Theorem C326_files : forall dir k n a c0 c, settings dir k n a c0 = Ok c ->
  c_file c = in_json dir (or_else (a_network a) (match k with RunN => "case4.json" | _ => "case14_con.json" end)) /\
  (forall p, a_network a = Some (String "/" p) -> c_file c = String "/" p) /\
  (forall h p, a_network a = Some (String h p) -> h <> "/"%char -> c_file c = dir ++ "/json/" ++ String h p) /\
  (k <> RunN -> forall h p, a_tree a = Some (String h p) -> c_tree c = if Ascii.eqb h "/" then String h p else dir ++ "/json/" ++ String h p).
Proof.
  intros dir k n a c0 c E.
  assert (X : c_file c = in_json dir (or_else (a_network a) (match k with RunN => "case4.json" | _ => "case14_con.json" end)) /\ (k <> RunN -> forall s, a_tree a = Some s -> c_tree c = in_json dir s)).
  { destruct (Z.lt_ge_cases n 0) as [L|L]; [rewrite C317_negative in E by (now left); discriminate|].
    destruct (Z.lt_ge_cases (or_else (pump_asked k a) 0) 0)%Z as [Lp|Lp]; [rewrite C317_negative in E by (right; now left); discriminate|].
    destruct (Z.lt_ge_cases (or_else (res_asked k a) 0) 0)%Z as [Lr|Lr]; [rewrite C317_negative in E by (right; now right); discriminate|].
    unfold settings, group in E. rewrite (fill_units_ok _ _ _ L) in E. cbn [rbind] in E.
    destruct k; match type of E with context [update_n dir ?o ?c1] =>
      destruct (update_n_ok dir o c1 Lp Lr) as (c2 & E2 & _ & _ & _ & _ & _ & _ & _ & _ & F & T & _); rewrite E2 in E; cbn [rbind] in E end; try discriminate E; injection E as <-;
      (split; [exact F|]); intros NK s Es; try congruence; cbn [example_hydro case_ac c_tree]; rewrite T; cbn [update_e c_tree]; rewrite Es; reflexivity. }
  destruct X as (X & T). split; [exact X|]. split; [|split].
  - intros p Ep. rewrite X, Ep. cbn [or_else]. unfold in_json. cbn [prefix]. destruct (ascii_dec "/" "/"); [|congruence]. now destruct p.
  - intros h p Ep N. rewrite X, Ep. cbn [or_else]. unfold in_json. cbn [prefix]. destruct (ascii_dec "/" h) as [<-|?]; [congruence|reflexivity].
  - intros NK h p Ep. rewrite (T NK _ Ep). unfold in_json. cbn [prefix]. destruct (ascii_dec "/" h) as [<-|Nh]; [now destruct p|]. destruct (Ascii.eqb_spec h "/"); [congruence|reflexivity].
Qed.
Print Assumptions C326_files.
Example C326_witness : exists c, settings "/p" RunEN 3 (mkAsked None (Some "mine.json") None None None None None None None None None) (default_conf "" "") = Ok c /\ c_file c = "/p/json/mine.json".
Proof. eexists. split; vm_compute; reflexivity. Qed.

(* ------------------------------------------------------------------ *)
(** ** C330 *)
(** The other settings of run-n, run-en, run-ac and run-example-hydro: time steps as asked (1 by default in run-n, 24 in the
    others; always 24 in the example), two profiles of demand and of RES, feasibility as asked (off by default in run-n, on
    in run-en; on in the others).  When there are weights, there is one for every time step.  run-ac has no hydropower, no
    pumps, no RES generators, no cases and no losses, whatever is asked. *)
Theorem C330_settings : forall dir f t k n a c, settings dir k n a (default_conf f t) = Ok c ->
  c_time c = (match k with RunHydro => 24%Z | RunN => or_else (a_time a) 1%Z | _ => or_else (a_time a) 24%Z end) /\ c_no_dem c = 2 /\ c_no_res c = 2 /\
  c_feas c = (match k with RunN => or_else (a_feas a) false | RunEN => or_else (a_feas a) true | _ => true end) /\
  (forall w, c_weights c = Some w -> Z.of_nat (List.length w) = c_time c /\ forall x, In x w -> x = 1%Q) /\ (c_weights c = None <-> k <> RunHydro) /\
  (k = RunAC -> hydro_units c = Ok [] /\ res_units c = Ok [] /\ u_number (c_pumps c) = 0%Z /\ c_sec c = [] /\ c_losses c = false /\ c_loss c = None).
Proof.
  intros dir f t k n a c E.
  destruct (Z.lt_ge_cases n 0) as [L|L]; [rewrite C317_negative in E by (now left); discriminate|].
  destruct (Z.lt_ge_cases (or_else (pump_asked k a) 0%Z) 0) as [Lp|Lp]; [rewrite C317_negative in E by (right; now left); discriminate|].
  destruct (Z.lt_ge_cases (or_else (res_asked k a) 0%Z) 0) as [Lr|Lr]; [rewrite C317_negative in E by (right; now right); discriminate|].
  unfold settings, group in E. rewrite (fill_units_ok _ _ _ L) in E. cbn [rbind] in E.
  destruct k; match type of E with context [update_n dir ?o ?c1] =>
    destruct (update_n_ok dir o c1 Lp Lr) as (c2 & E2 & H & B & FP & FR & T & S & LO & FE & _ & _ & _ & ND & NR & W); rewrite E2 in E; cbn [rbind] in E end; try discriminate E; injection E as <-;
    cbn in T, FE |- *; rewrite ?T, ?FE, ?ND, ?NR, ?W; do 4 (split; [reflexivity|]).
  - split; [discriminate|]. split; [split; [discriminate|reflexivity]|discriminate].
  - split; [discriminate|]. split; [split; [discriminate|reflexivity]|discriminate].
  - split; [|split; [split; [discriminate|congruence]|discriminate]]. intros w Ew. injection Ew as <-. split; [reflexivity|]. cbn. intros x I. repeat destruct I as [<-|I]; try reflexivity. destruct I.
  - split; [discriminate|]. split; [split; [discriminate|reflexivity]|]. intros _. split; [reflexivity|]. cbn in FR, FP, S, LO.
    injection LO as LO1 LO2. rewrite (fill_res_ok 0) in FR by lia. injection FR as FR. unfold res_units. cbn [case_ac c_res]. rewrite <- FR. split; [reflexivity|]. rewrite (fill_units_ok 0) in FP by lia. injection FP as FP. rewrite <- FP. auto.
Qed.
Print Assumptions C330_settings.
Example C330_witness : exists c, settings "p" RunAC 3 (mkAsked None None None None None None None (Some 48%Z) None None None) (default_conf "" "") = Ok c /\ c_time c = 48%Z /\ c_weights c = None.
Proof. eexists. split; [vm_compute; reflexivity|]. split; reflexivity. Qed.
