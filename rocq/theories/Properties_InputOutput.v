(** Properties C133-C142: catalogues, screening options, time series, the report, recorded values and the
    verification script. *)
From Coq Require Import List String Bool Arith ZArith QArith Qabs Lia Permutation Sorted Setoid.
From Verif Require Import Base Container ContainerProofs Graph GraphData GraphDataProofs Cases CasesProofs Network Verification VerificationSpec VerificationProofs VerificationRun.
From Verif Require Import InputOutput InputOutputSpec InputOutputProofs.
Import ListNotations.
Open Scope string_scope.
Open Scope nat_scope.
Open Scope list_scope.

Local Ltac sp := repeat match goal with |- _ /\ _ => split end.

(* ------------------------------------------------------------------ *)
(** ** C133 *)

(** Both catalogues have a cost for every size.  Given lists are used when they have the same length; otherwise, and
    without a file, the cost of every size is 20 times the size. *)
Theorem C133_catalogues : forall f lines trafos, read_catalogues f = (lines, trafos) ->
  List.length (ct_costs lines) = List.length (ct_sizes lines) /\ List.length (ct_costs trafos) = List.length (ct_sizes trafos) /\
  (forall iv, f = Some iv -> List.length (iv_lines iv) = List.length (iv_line_cost iv) -> ct_sizes lines = iv_lines iv /\ ct_costs lines = iv_line_cost iv) /\
  (forall iv, f = Some iv -> List.length (iv_trafos iv) = List.length (iv_trafo_cost iv) -> ct_sizes trafos = iv_trafos iv /\ ct_costs trafos = iv_trafo_cost iv) /\
  ((f = None \/ exists iv, f = Some iv /\ List.length (iv_lines iv) <> List.length (iv_line_cost iv)) ->
     ct_sizes lines <> [] /\ Forall2 (fun s c => 0 < s /\ c == 20 * s)%Q (ct_sizes lines) (ct_costs lines)) /\
  ((f = None \/ exists iv, f = Some iv /\ List.length (iv_trafos iv) <> List.length (iv_trafo_cost iv)) ->
     ct_sizes trafos <> [] /\ Forall2 (fun s c => 0 < s /\ c == 20 * s)%Q (ct_sizes trafos) (ct_costs trafos)).
Proof.
  intros f lines trafos E.
  assert (Lin : forall l, List.length (ct_costs (linear_costs l)) = List.length (ct_sizes (linear_costs l))) by (intros l; cbn; apply map_length).
  assert (Pos : forall l, l <> [] -> Forall (fun s => 0 < s)%Q l -> ct_sizes (linear_costs l) <> [] /\ Forall2 (fun s c => 0 < s /\ c == 20 * s)%Q (ct_sizes (linear_costs l)) (ct_costs (linear_costs l))).
  { intros l N F. split; auto. cbn [linear_costs ct_sizes ct_costs]. induction F; cbn [map]; constructor; [split; auto; reflexivity|]. destruct l; [constructor|]. apply IHF. discriminate. }
  assert (P1 : Forall (fun s => 0 < s)%Q given_lines) by (repeat constructor).
  assert (P2 : Forall (fun s => 0 < s)%Q given_trafos) by (repeat constructor).
  assert (P3 : Forall (fun s => 0 < s)%Q default_lines) by (repeat constructor).
  assert (P4 : Forall (fun s => 0 < s)%Q default_trafos) by (repeat constructor).
  destruct f as [iv|]; injection E as <- <-.
  - destruct (Nat.eqb_spec (List.length (iv_lines iv)) (List.length (iv_line_cost iv))) as [A|A], (Nat.eqb_spec (List.length (iv_trafos iv)) (List.length (iv_trafo_cost iv))) as [B|B]; sp; auto;
      try (intros iv' X; injection X as <-; intros; try contradiction; cbn; auto);
      try (intros [X|(iv' & X & Y)]; [discriminate|injection X as <-; contradiction]); try (intros _; apply Pos; auto; discriminate).
  - sp; auto; try (intros iv' X; discriminate); intros _; apply Pos; auto; discriminate.
Qed.
Print Assumptions C133_catalogues.

(** The sizes that are used instead rise from the first to the last. *)
Theorem C133_sizes : forall f lines trafos, read_catalogues f = (lines, trafos) ->
  let ranges l n a b := List.length l = n /\ nth_error l 0 = Some a /\ nth_error l (n - 1) = Some b /\ StronglySorted Qlt l in
  (f = None -> ranges (ct_sizes lines) 21 (45 # 1000)%Q 500%Q /\ ranges (ct_sizes trafos) 26 (3 # 1000)%Q 500%Q) /\
  (forall iv, f = Some iv -> List.length (iv_lines iv) <> List.length (iv_line_cost iv) -> ranges (ct_sizes lines) 6 10%Q 800%Q) /\
  (forall iv, f = Some iv -> List.length (iv_trafos iv) <> List.length (iv_trafo_cost iv) -> ranges (ct_sizes trafos) 5 560%Q 5600%Q).
Proof.
  intros f lines trafos E ranges. subst ranges. cbv beta. destruct f as [iv|]; injection E as <- <-; (split; [intros; try discriminate|split; intros iv' X D; try discriminate]).
  - injection X as <-. apply Nat.eqb_neq in D. rewrite D. sp; try reflexivity. repeat constructor.
  - injection X as <-. apply Nat.eqb_neq in D. rewrite D. sp; try reflexivity. repeat constructor.
  - sp; try reflexivity; repeat constructor.
Qed.
Print Assumptions C133_sizes.

Example C133_witness : read_catalogues (Some (mkIv [10; 20] [1; 2; 3] [5; 6] [7]))%Q = (mkCat [10; 20] [5; 6], linear_costs given_trafos)%Q.
Proof. reflexivity. Qed.

(* ------------------------------------------------------------------ *)
(** ** C134 *)

Lemma distinct_first l : distinct_sizes l -> forall i x, nth_error l i = Some x -> first_such (fun y => y == x)%Q l i.
Proof.
  induction l as [|a l IH]; intros D [|i] x; cbn [nth_error]; try discriminate.
  - intros E. injection E as <-. split; [exists a; split; [reflexivity|reflexivity]|]. intros j b L. lia.
  - intros E. destruct D as (D1 & D2). destruct (IH D2 i x E) as ((y & N & Y) & Lt). split; [exists y; auto|]. intros [|j] b L; cbn [nth_error]; [|apply Lt; lia].
    intros X. injection X as <-. intros Q0. apply (D1 x); [eapply nth_error_In; eauto|now symmetry].
Qed.

Lemma mapM_err {A B} (f : A -> res B) l : (exists a x, In a l /\ f a = Err x) -> exists x, mapM f l = Err x.
Proof.
  induction l as [|b l IH]; intros (a & x & I & E); [destruct I|]. cbn [mapM]. destruct (f b) as [c|y] eqn:Fb; cbn [rbind]; [|eauto].
  destruct I as [->|I]; [congruence|]. destruct IH as (z & ->); [eauto|exists z; reflexivity].
Qed.

Lemma l_get_names {V} (f : nat -> V) m : forall k b, b < m -> d_get (str_nat (k + b)) (map (fun b => (str_nat b, f b)) (seq k m)) = Some (f (k + b)).
Proof.
  unfold d_get. induction m as [|m IH]; intros k b L; [lia|]. cbn [seq map l_get]. destruct (String.eqb_spec (str_nat k) (str_nat (k + b))) as [E|N].
  - apply str_nat_inj in E. now rewrite E at 1.
  - destruct b as [|b]; [rewrite Nat.add_0_r in N; congruence|]. replace (k + S b) with (S k + b) by lia. apply IH. lia.
Qed.

(** Whatever the options come from, every branch gets a list of options and for each one the cost of the first size of the
    catalogue of its kind that equals it; without a file the options are all sizes of that catalogue. *)
Theorem C134_costs_partial : forall found file n taps cs s costs, screen_options found file n taps cs = Ok (s, costs) ->
  (found = true -> file = Ok s) /\ List.length costs = n /\
  forall b, b < n -> exists l cl, d_get (str_nat b) s = Some l /\ nth_error costs b = Some cl /\
    (forall t, nth_error taps b = Some t -> Forall2 (costs_as (if Qeq_bool t 0 then fst cs else snd cs)) l cl) /\
    (found = false -> exists t, nth_error taps b = Some t /\ l = ct_sizes (if Qeq_bool t 0 then fst cs else snd cs)).
Proof.
  intros found file n taps cs s costs E. unfold screen_options in E. destruct (if found then file else all_sizes n taps cs) as [s'|] eqn:Es; [cbn [rbind] in E|discriminate].
  destruct (mapM _ (seq 0 n)) as [cl|] eqn:Ec; [cbn [rbind] in E|discriminate]. injection E as -> ->. apply mapM_nth in Ec as (Lc & Nc). rewrite seq_length in Lc. sp; auto.
  - intros ->. exact Es.
  - intros b L. destruct (Nc b b) as (c & Cb & Ob); [now apply nth_seq0|]. destruct (d_get (str_nat b) s) as [l|] eqn:D; [|discriminate]. exists l, c. sp; auto.
    + intros t T. apply at_nth in T. apply mapM_Ok in Ob. clear - Ob T. induction Ob as [|a x l c E F IH]; constructor; auto. rewrite T in E. cbn [rbind] in E. now apply price_ok in E.
    + intros ->. unfold all_sizes in Es. apply mapM_nth in Es as (Ls & Ns). rewrite seq_length in Ls. destruct (Ns b b) as (kv & Kb & Eb); [now apply nth_seq0|].
      destruct (at_ taps b) as [t|] eqn:T; [cbn [rbind] in Eb|discriminate]. injection Eb as <-. apply at_nth in T. exists t. split; auto.
      assert (X : d_get (str_nat b) s = Some (ct_sizes (catalogue_of cs t))); [|rewrite D in X; injection X as ->; reflexivity].
      assert (Sm : s = map (fun b => (str_nat b, ct_sizes (catalogue_of cs (nth b taps 0%Q)))) (seq 0 n)).
      { apply nth_ext with (d := ("", [])) (d' := ("", [])); [now rewrite map_length, seq_length|]. intros i I. rewrite Ls in I. destruct (Ns i i) as (kv & Ki & Ei); [now apply nth_seq0|].
        destruct (at_ taps i) as [t'|] eqn:T'; [cbn [rbind] in Ei|discriminate]. injection Ei as <-. apply nth_error_nth with (d := ("", [])) in Ki. rewrite Ki.
        apply at_nth in T'. apply nth_error_nth with (d := 0%Q) in T'. rewrite (nth_indep _ _ ((fun b => (str_nat b, ct_sizes (catalogue_of cs (nth b taps 0%Q)))) 0)) by (now rewrite map_length, seq_length).
        rewrite (map_nth (fun b => (str_nat b, ct_sizes (catalogue_of cs (nth b taps 0%Q))))), seq_nth by auto. cbn [Nat.add]. now rewrite T'. }
      rewrite Sm. pose proof (l_get_names (fun b => ct_sizes (catalogue_of cs (nth b taps 0%Q))) n 0 b L) as G. cbn [Nat.add] in G. rewrite G. apply nth_error_nth with (d := 0%Q) in T. now rewrite T.
Qed.
Print Assumptions C134_costs_partial.

(** Without a file the options of a branch and their costs are those of its catalogue, if the sizes differ pairwise. *)
Theorem C134_catalogue_partial : forall file n taps cs,
  n <= List.length taps -> distinct_sizes (ct_sizes (fst cs)) -> distinct_sizes (ct_sizes (snd cs)) ->
  List.length (ct_costs (fst cs)) = List.length (ct_sizes (fst cs)) -> List.length (ct_costs (snd cs)) = List.length (ct_sizes (snd cs)) ->
  exists s costs, screen_options false file n taps cs = Ok (s, costs) /\
  forall b t, b < n -> nth_error taps b = Some t ->
    let cat := if Qeq_bool t 0 then fst cs else snd cs in d_get (str_nat b) s = Some (ct_sizes cat) /\ nth_error costs b = Some (ct_costs cat).
Proof.
  intros file n taps cs Ln D1 D2 L1 L2.
  assert (T : exists r, screen_options false file n taps cs = Ok r).
  { unfold screen_options, all_sizes.
    assert (M : mapM (fun b => do t <- at_ taps b; Ok (str_nat b, ct_sizes (catalogue_of cs t))) (seq 0 n) = Ok (map (fun b => (str_nat b, ct_sizes (catalogue_of cs (nth b taps 0%Q)))) (seq 0 n))).
    { apply mapM_map. intros b I. apply in_seq in I. destruct (at_total taps b) as (t & E & Et); [lia|]. rewrite E. cbn [rbind]. apply nth_error_nth with (d := 0%Q) in Et. now rewrite Et. }
    rewrite M. cbn [rbind]. destruct (mapM_total (fun b => match d_get (str_nat b) (map (fun b => (str_nat b, ct_sizes (catalogue_of cs (nth b taps 0%Q)))) (seq 0 n)) with
       | None => Err KeyError | Some l => mapM (fun a => do t <- at_ taps b; price (catalogue_of cs t) a) l end) (seq 0 n)) as (c & ->); [|cbn [rbind]; eauto].
    intros b I. apply in_seq in I. pose proof (l_get_names (fun b => ct_sizes (catalogue_of cs (nth b taps 0%Q))) n 0 b ltac:(lia)) as G. cbn [Nat.add] in G. rewrite G.
    apply mapM_total. intros a Ia. destruct (at_total taps b) as (t & E & Et); [lia|]. rewrite E. cbn [rbind]. apply nth_error_nth with (d := 0%Q) in Et. rewrite Et in Ia.
    apply price_known; [unfold catalogue_of; now destruct (Qeq_bool t 0)|]. exists a. split; auto. reflexivity. }
  destruct T as ((s, costs) & E). exists s, costs. split; auto. intros b t L Tb cat. destruct (C134_costs_partial _ _ _ _ _ _ _ E) as (_ & _ & H). destruct (H b L) as (l & cl & G & N & F & A).
  destruct (A eq_refl) as (t' & Tb' & ->). rewrite Tb in Tb'. injection Tb' as <-. specialize (F t Tb). fold cat in F, G. split; auto. rewrite N. f_equal.
  assert (D : distinct_sizes (ct_sizes cat)) by (unfold cat; now destruct (Qeq_bool t 0)). assert (Lc : List.length (ct_costs cat) = List.length (ct_sizes cat)) by (unfold cat; now destruct (Qeq_bool t 0)).
  apply nth_ext with (d := 0%Q) (d' := 0%Q); [rewrite Lc; symmetry; now apply (Forall2_length _ _ _ F)|]. intros i I. rewrite <- (Forall2_length _ _ _ F) in I.
  destruct (nth_error (ct_sizes cat) i) as [x|] eqn:X; [|apply nth_error_None in X; lia].
  assert (Y : exists c, nth_error cl i = Some c /\ costs_as cat x c).
  { clear - F X. revert i X. induction F as [|a c l cl C F IH]; intros [|i]; cbn [nth_error]; try discriminate; auto. intros X. injection X as <-. eauto. }
  destruct Y as (c & Nc & (j & Fj & Cj)). assert (i = j) by (eapply first_such_unique; [apply distinct_first; eauto|exact Fj]). subst j.
  apply nth_error_nth with (d := 0%Q) in Nc, Cj. congruence.
Qed.
Print Assumptions C134_catalogue_partial.

(** With two options of one size and different costs both get the first cost. *)
Theorem C134_refuted : exists cs s costs, read_catalogues (Some (mkIv [10; 10] [] [5; 9] []))%Q = cs /\
  screen_options false (Err PlainException) 1 [0]%Q cs = Ok (s, costs) /\ d_get "0" s = Some [10; 10]%Q /\ nth_error costs 0 = Some [5; 5]%Q /\ ct_costs (fst cs) = [5; 9]%Q.
Proof. eexists; eexists; eexists. sp; [reflexivity|vm_compute; reflexivity|reflexivity|reflexivity|reflexivity]. Qed.
Print Assumptions C134_refuted.

(** With a file: a branch without entry, or an option that is no size of the catalogue, stops the run; so does a file
    that is found from the working directory but not beside the module. *)
Theorem C134_file_partial : forall n taps cs,
  (forall x, screen_options true (Err x) n taps cs = Err x) /\
  (forall s b, b < n -> d_get (str_nat b) s = None -> exists x, screen_options true (Ok s) n taps cs = Err x) /\
  (forall s b t l a, b < n -> nth_error taps b = Some t -> d_get (str_nat b) s = Some l -> In a l ->
     (forall x, In x (ct_sizes (if Qeq_bool t 0 then fst cs else snd cs)) -> ~ (x == a)%Q) -> exists x, screen_options true (Ok s) n taps cs = Err x) /\
  (forall s, n <= List.length taps -> List.length (ct_costs (fst cs)) = List.length (ct_sizes (fst cs)) -> List.length (ct_costs (snd cs)) = List.length (ct_sizes (snd cs)) ->
     (forall b t, b < n -> nth_error taps b = Some t -> exists l, d_get (str_nat b) s = Some l /\ forall a, In a l -> exists x, In x (ct_sizes (if Qeq_bool t 0 then fst cs else snd cs)) /\ (x == a)%Q) ->
     exists costs, screen_options true (Ok s) n taps cs = Ok (s, costs)).
Proof.
  intros n taps cs. sp; auto.
  - intros s b L D. unfold screen_options. cbn [rbind]. destruct (mapM_err (fun b => match d_get (str_nat b) s with None => Err KeyError | Some l => mapM (fun a => do t <- at_ taps b; price (catalogue_of cs t) a) l end) (seq 0 n)) as (x & E).
    + exists b, KeyError. rewrite D. split; auto. apply in_seq. lia.
    + exists x. now rewrite E.
  - intros s b t l a L T D I N. unfold screen_options. cbn [rbind]. destruct (mapM_err (fun b => match d_get (str_nat b) s with None => Err KeyError | Some l => mapM (fun a => do t <- at_ taps b; price (catalogue_of cs t) a) l end) (seq 0 n)) as (x & E).
    + destruct (mapM_err (fun a => do t <- at_ taps b; price (catalogue_of cs t) a) l) as (y & Y). { exists a, IndexError. split; auto. apply at_nth in T. rewrite T. cbn [rbind]. now apply price_unknown. }
      exists b, y. rewrite D. split; auto. apply in_seq. lia.
    + exists x. now rewrite E.
  - intros s Ln L1 L2 K. unfold screen_options. cbn [rbind]. destruct (mapM_total (fun b => match d_get (str_nat b) s with None => Err KeyError | Some l => mapM (fun a => do t <- at_ taps b; price (catalogue_of cs t) a) l end) (seq 0 n)) as (c & ->); [|cbn [rbind]; eauto].
    intros b I. apply in_seq in I. destruct (at_total taps b) as (t & E & Et); [lia|]. destruct (K b t) as (l & -> & A); [lia|auto|]. apply mapM_total. intros a Ia. rewrite E. cbn [rbind]. apply price_known; [unfold catalogue_of; now destruct (Qeq_bool t 0)|]. apply A, Ia.
Qed.
Print Assumptions C134_file_partial.

Example C134_witness : screen_options true (Ok [("0", [20]); ("1", [])]%Q) 2 [0; 1]%Q (mkCat [10; 20] [5; 6], mkCat [30] [7])%Q = Ok ([("0", [20]); ("1", [])], [[6]; []])%Q /\
  screen_options false (Err PlainException) 2 [0; 1]%Q (mkCat [10; 20] [5; 6], mkCat [30] [7])%Q = Ok ([("0", [10; 20]); ("1", [30])], [[5; 6]; [7]])%Q /\
  distinct_sizes [10; 20]%Q /\ distinct_sizes default_lines.
Proof.
  assert (D : forall l, (fix go (l : list Q) : bool := match l with [] => true | x :: r => forallb (fun y => negb (Qeq_bool y x)) r && go r end) l = true -> distinct_sizes l).
  { induction l as [|x l IH]; intros E; cbn [distinct_sizes]; auto. apply andb_true_iff in E as (E1 & E2). split; auto. intros y I H. rewrite forallb_forall in E1. apply E1 in I. apply Qeq_bool_iff in H. rewrite H in I. discriminate. }
  sp; try (vm_compute; reflexivity); apply D; vm_compute; reflexivity.
Qed.

(* ------------------------------------------------------------------ *)
(** ** C135 *)

(** Every bus has a row of each kind: with a load, the rows of the sheets at the position of its first row in the
    sheet of active loads; otherwise 24 zeros.  The peaks are the values at the peak hour, but the peak of the reactive
    load is that of the active load. *)
Theorem C135_series_partial : forall n bus_i pd qd up dn hour h, time_series n bus_i pd qd up dn hour = Ok h ->
  List.length (h_pd h) = n /\ List.length (h_qd h) = n /\ List.length (h_up h) = n /\ List.length (h_dn h) = n /\
  List.length (h_peak_pd h) = n /\ List.length (h_peak_qd h) = n /\ List.length (h_peak_up h) = n /\ List.length (h_peak_dn h) = n /\
  forall ib, ib < n -> exists b p q u d, nth_error bus_i ib = Some b /\ series_of h ib p q u d /\
    ((exists i bq bu bd, first_such (fun r => fst r = b) pd i /\ nth_error pd i = Some (b, p) /\ nth_error qd i = Some (bq, q) /\ nth_error up i = Some (bu, u) /\ nth_error dn i = Some (bd, d) /\
       hour < List.length p /\ hour < List.length u /\ hour < List.length d /\
       nth_error (h_peak_pd h) ib = nth_error p hour /\ nth_error (h_peak_qd h) ib = nth_error p hour /\ nth_error (h_peak_up h) ib = nth_error u hour /\ nth_error (h_peak_dn h) ib = nth_error d hour) \/
     ((forall r, In r pd -> fst r <> b) /\ p = repeat 0%Q 24 /\ q = repeat 0%Q 24 /\ u = repeat 0%Q 24 /\ d = repeat 0%Q 24 /\
       nth_error (h_peak_pd h) ib = Some 0%Q /\ nth_error (h_peak_qd h) ib = Some 0%Q /\ nth_error (h_peak_up h) ib = Some 0%Q /\ nth_error (h_peak_dn h) ib = Some 0%Q)).
Proof.
  intros n bus_i pd qd up dn hour h E. rewrite time_series_buses in E. destruct (mapM _ (seq 0 n)) as [l|] eqn:M; [cbn [rbind] in E|discriminate]. injection E as <-.
  apply mapM_nth in M as (L & N). rewrite seq_length in L. cbn [h_of h_pd h_qd h_up h_dn h_peak_pd h_peak_qd h_peak_up h_peak_dn]. rewrite !map_length. sp; auto.
  intros ib I. destruct (N ib ib) as (o & No & B); [now apply nth_seq0|]. unfold bus_data in B. destruct (at_ bus_i ib) as [b|] eqn:Eb; [cbn [rbind] in B|discriminate]. apply at_nth in Eb.
  exists b, (o_pd o), (o_qd o), (o_up o), (o_dn o). unfold series_of. cbn [h_of h_pd h_qd h_up h_dn]. rewrite !nth_error_map, No. cbn [option_map]. sp; auto.
  pose proof (zpositions_first b pd 0) as Z. destruct (zpositions_from 0 b (map fst pd)) as [|i r].
  - right. injection B as <-. cbn. unfold day. sp; auto.
  - left. destruct Z as (j & -> & F). cbn [Nat.add] in B. assert (G : forall t l0, row_of t j = Ok l0 -> exists z, nth_error t j = Some (z, l0)).
    { intros t l0. unfold row_of. destruct (at_ t j) as [(z, l1)|] eqn:A; [cbn [rbind snd]|discriminate]. intros X. injection X as <-. apply at_nth in A. eauto. }
    destruct (row_of pd j) as [p|] eqn:R1; [cbn [rbind] in B|discriminate]. destruct (row_of qd j) as [q|] eqn:R2; [cbn [rbind] in B|discriminate]. destruct (at_ p hour) as [pp|] eqn:R3; [cbn [rbind] in B|discriminate].
    destruct (row_of up j) as [u|] eqn:R4; [cbn [rbind] in B|discriminate]. destruct (row_of dn j) as [d|] eqn:R5; [cbn [rbind] in B|discriminate].
    destruct (at_ u hour) as [pu|] eqn:R6; [cbn [rbind] in B|discriminate]. destruct (at_ d hour) as [pdn|] eqn:R7; [cbn [rbind] in B|discriminate]. injection B as <-. cbn.
    apply G in R1 as (z1 & R1), R2 as (z2 & R2), R4 as (z4 & R4), R5 as (z5 & R5). apply at_nth in R3, R6, R7. exists j, z2, z4, z5.
    assert (z1 = b) by (destruct F as ((r0 & E0 & F0) & _); rewrite R1 in E0; injection E0 as <-; exact F0). subst z1.
    sp; auto; apply nth_error_Some; congruence.
Qed.
Print Assumptions C135_series_partial.

(** The data of every bus are read without error if the sheets have as many rows as that of the active loads and the rows reach the
    peak hour. *)
Theorem C135_total_partial : forall n bus_i pd qd up dn hour, n <= List.length bus_i ->
  List.length qd = List.length pd -> List.length up = List.length pd -> List.length dn = List.length pd ->
  (forall r, In r pd \/ In r up \/ In r dn -> hour < List.length (snd r)) -> exists h, time_series n bus_i pd qd up dn hour = Ok h.
Proof.
  intros n bus_i pd qd up dn hour Ln Lq Lu Ld H. rewrite time_series_buses. destruct (mapM_total (bus_data bus_i pd qd up dn hour) (seq 0 n)) as (l & ->); [|cbn [rbind]; eauto].
  intros ib I. apply in_seq in I. unfold bus_data. destruct (at_total bus_i ib) as (b & -> & _); [lia|]. cbn [rbind]. pose proof (zpositions_first b pd 0) as Z. destruct (zpositions_from 0 b (map fst pd)) as [|i r]; [eauto|].
  destruct Z as (j & -> & ((rw & Nj & _) & _)). cbn [Nat.add]. assert (Lj : j < List.length pd) by (apply nth_error_Some; congruence).
  assert (G : forall t, List.length t = List.length pd -> exists rw, In rw t /\ row_of t j = Ok (snd rw)).
  { intros t Lt. unfold row_of. destruct (at_total t j) as (rw' & -> & E); [lia|]. cbn [rbind]. exists rw'. split; auto. eapply nth_error_In; eauto. }
  destruct (G pd eq_refl) as (r1 & I1 & ->), (G qd Lq) as (r2 & I2 & ->), (G up Lu) as (r3 & I3 & ->), (G dn Ld) as (r4 & I4 & ->). cbn [rbind].
  destruct (at_total (snd r1) hour) as (x1 & -> & _); [apply H; auto|]. cbn [rbind]. destruct (at_total (snd r3) hour) as (x3 & -> & _); [apply H; auto|]. cbn [rbind].
  destruct (at_total (snd r4) hour) as (x4 & -> & _); [apply H; auto|]. cbn [rbind]. eauto.
Qed.
Print Assumptions C135_total_partial.

(** The peak reactive load is not the reactive load at the peak hour; and a sheet with another order of buses gives a bus the
    values of another one. *)
Theorem C135_refuted :
  (exists h q, time_series 1 [7]%Z [(7%Z, [1; 2])] [(7%Z, [3; 4])] [(7%Z, [0; 0])] [(7%Z, [0; 0])] 1 = Ok h /\
     nth_error (h_qd h) 0 = Some q /\ nth_error q 1 = Some 4 /\ nth_error (h_peak_qd h) 0 = Some 2)%Q /\
  (exists h, time_series 1 [7]%Z [(7%Z, [1]); (8%Z, [2])] [(8%Z, [30]); (7%Z, [40])] [(7%Z, [0]); (8%Z, [0])] [(7%Z, [0]); (8%Z, [0])] 0 = Ok h /\ nth_error (h_qd h) 0 = Some [30])%Q.
Proof. split; [eexists; eexists; sp; [vm_compute; reflexivity|reflexivity|reflexivity|reflexivity]|eexists; split; [vm_compute; reflexivity|reflexivity]]. Qed.
Print Assumptions C135_refuted.

Example C135_witness : time_series 2 [7; 9]%Z [(7%Z, [1; 2])]%Q [(7%Z, [3; 4])]%Q [(7%Z, [5; 6])]%Q [(7%Z, [8; 9])]%Q 1 =
  Ok (mkHourly [[1; 2]; day] [[3; 4]; day] [[5; 6]; day] [[8; 9]; day] [2; 0] [2; 0] [6; 0] [9; 0])%Q.
Proof. reflexivity. Qed.

(* ------------------------------------------------------------------ *)
(** ** C136 *)

(** The peak loads of the screening model are those of the optimisation. *)
Theorem C136_peaks_agree : forall n bus_i pd qd up dn hour h, time_series n bus_i pd qd up dn hour = Ok h ->
  exists l, peak_data n bus_i pd hour = Ok l /\ List.length l = n /\ forall ib, ib < n -> nth_error l ib = nth_error (h_peak_pd h) ib.
Proof.
  intros n bus_i pd qd up dn hour h E. rewrite time_series_buses in E. destruct (mapM _ (seq 0 n)) as [l|] eqn:M; [cbn [rbind] in E|discriminate]. injection E as <-. rewrite peak_data_buses.
  apply mapM_nth in M as (L & N). rewrite seq_length in L. destruct (mapM_total (peak_of bus_i pd hour) (seq 0 n)) as (l' & M').
  - intros ib I. apply in_seq in I. destruct (N ib ib) as (o & _ & B); [apply nth_seq0; lia|]. apply bus_peak in B. eauto.
  - rewrite M'. cbn [rbind]. apply mapM_nth in M' as (L' & N'). rewrite seq_length in L'. exists (map snd l'). rewrite map_length. sp; auto. intros ib I. cbn [h_of h_peak_pd]. rewrite !nth_error_map.
    destruct (N ib ib) as (o & No & B); [apply nth_seq0; lia|]. destruct (N' ib ib) as (o' & No' & B'); [apply nth_seq0; lia|]. apply bus_peak in B. rewrite B in B'. injection B' as <-. rewrite No, No'. reflexivity.
Qed.
Print Assumptions C136_peaks_agree.

Example C136_witness : peak_data 2 [7; 9]%Z [(7%Z, [1; 2])]%Q 1 = Ok [2; 0]%Q.
Proof. reflexivity. Qed.

(* ------------------------------------------------------------------ *)
(** ** C137 *)

Definition scenario_title (i : nat) : string := ("Scenario " ++ str_nat (S i))%string.

(** The report of all paths has an entry "Scenario 1", ..., "Scenario n", in this order, that describes the i-th path. *)
Theorem C137_report_all : forall years path_sce sum_co yearly_co ci sum_ci cflex pflex n out pflex',
  report years path_sce sum_co yearly_co ci sum_ci cflex n true pflex = Ok (out, pflex') ->
  map fst out = map scenario_title (seq 0 n) /\
  forall p path, p < n -> nth_error path_sce p = Some path -> exists e, nth_error out p = Some (scenario_title p, e) /\
    years <= List.length path /\ describes_path years sum_co yearly_co ci sum_ci cflex pflex path e.
Proof.
  intros years path_sce sum_co yearly_co ci sum_ci cflex pflex n out pflex' E. pose proof (report_pure years path_sce sum_co yearly_co ci sum_ci cflex pflex n true) as P. cbn [paths_of rbind] in P.
  destruct (mapM (pure_path years path_sce sum_co yearly_co ci sum_ci cflex pflex) (seq 0 n)) as [es|x] eqn:M; [|congruence]. destruct P as (pf & P & _). rewrite P in E. injection E as <- _.
  apply mapM_nth in M as (L & N). rewrite seq_length in L. split; [rewrite numbered_names, L; reflexivity|].
  intros p path Lp Np. destruct (N p p) as (e & Ne & Pe); [now apply nth_seq0|]. exists e. apply pure_path_describes in Pe as (_ & D). specialize (D path Np) as (D1 & D2). split; [apply (numbered_nth 0 es p e Ne)|]. split; auto.
Qed.
Print Assumptions C137_report_all.

(** The report succeeds if there are at most four years and the tables have an entry for every node of every path. *)
Theorem C137_report_total : forall years path_sce sum_co yearly_co ci sum_ci cflex pflex n all, years <= 4 -> 0 < n -> n <= List.length path_sce ->
  (forall path, In path path_sce -> known_path years sum_co yearly_co ci cflex pflex path) ->
  exists out pflex', report years path_sce sum_co yearly_co ci sum_ci cflex n all pflex = Ok (out, pflex').
Proof.
  intros years path_sce sum_co yearly_co ci sum_ci cflex pflex n all Y Pn Ln K. pose proof (report_pure years path_sce sum_co yearly_co ci sum_ci cflex pflex n all) as P.
  assert (T : forall ps, (forall p, In p ps -> p < n) -> exists es, mapM (pure_path years path_sce sum_co yearly_co ci sum_ci cflex pflex) ps = Ok es).
  { intros ps B. apply mapM_total. intros p I. apply B in I. destruct (nth_error path_sce p) as [path|] eqn:E; [|apply nth_error_None in E; lia]. apply (pure_path_known _ _ _ _ _ _ _ _ _ path); auto. apply K. eapply nth_error_In; eauto. }
  assert (Ps : exists ps, paths_of years path_sce n all = Ok ps /\ forall p, In p ps -> p < n).
  { unfold paths_of. destruct all; [exists (seq 0 n); split; auto; intros p I; apply in_seq in I; lia|]. destruct years; [exists [0; 0]; split; auto; intros p [<-|[<-|[]]]; auto|].
    destruct n as [|m]; [lia|]. cbn [last_path rbind]. exists [0; m]. split; auto. intros p [<-|[<-|[]]]; lia. }
  destruct Ps as (ps & Ep & B). rewrite Ep in P. cbn [rbind] in P. destruct (T ps B) as (es & Ees). rewrite Ees in P. destruct P as (pf & P & _). eauto.
Qed.
Print Assumptions C137_report_total.

(** With more than four years there is no report. *)
Theorem C137_years_refuted : forall years path_sce sum_co yearly_co ci sum_ci cflex pflex n all, 4 < years -> 0 < n ->
  exists x, report years path_sce sum_co yearly_co ci sum_ci cflex n all pflex = Err x.
Proof.
  intros years path_sce sum_co yearly_co ci sum_ci cflex pflex n all Y Pn. pose proof (report_pure years path_sce sum_co yearly_co ci sum_ci cflex pflex n all) as P.
  destruct (paths_of years path_sce n all) as [ps|x] eqn:Ep; cbn [rbind] in P; [|eauto].
  destruct (mapM_err (pure_path years path_sce sum_co yearly_co ci sum_ci cflex pflex) ps) as (x & E).
  - exists 0. destruct (pure_path_late years path_sce sum_co yearly_co ci sum_ci cflex pflex 0 Y) as (x & E). exists x. split; auto. unfold paths_of in Ep. destruct all; [injection Ep as <-; apply in_seq; lia|].
    destruct years; [lia|]. destruct (last_path path_sce n); [cbn [rbind] in Ep|discriminate]. injection Ep as <-. now left.
  - rewrite E in P. eauto.
Qed.
Print Assumptions C137_years_refuted.

Example C137_witness : report 2 [[0; 0]; [0; 1]] 0 [] [[[1]]; [[2]; [3]]]%Q 10 [[1]; [4; 5]]%Q 2 true [[[1 # 100000; 5]]; [[6]; [7]]]%Q =
  Ok ([("Scenario 1", mkSE 15 10 5 0 [mkYE 2020 0 [1] [0; 5]; mkYE 2030 0 [2] [6]]); ("Scenario 2", mkSE 16 10 6 0 [mkYE 2020 0 [1] [0; 5]; mkYE 2030 0 [3] [7]])], [[[0; 5]]; [[6]; [7]]])%Q.
Proof. vm_compute. reflexivity. Qed.

(* ------------------------------------------------------------------ *)
(** ** C138 *)

(** The short report has two entries: "Scenario 1" is the first path and "Scenario 2" the last one. *)
Theorem C138_extremes_partial : forall years path_sce sum_co yearly_co ci sum_ci cflex pflex n out pflex', 0 < years -> 0 < n ->
  report years path_sce sum_co yearly_co ci sum_ci cflex n false pflex = Ok (out, pflex') ->
  exists first last e1 e2, nth_error path_sce 0 = Some first /\ nth_error path_sce (n - 1) = Some last /\ out = [("Scenario 1", e1); ("Scenario 2", e2)] /\
    describes_path years sum_co yearly_co ci sum_ci cflex pflex first e1 /\ describes_path years sum_co yearly_co ci sum_ci cflex pflex last e2.
Proof.
  intros years path_sce sum_co yearly_co ci sum_ci cflex pflex n out pflex' Y Pn E. pose proof (report_pure years path_sce sum_co yearly_co ci sum_ci cflex pflex n false) as P. unfold paths_of in P.
  destruct years as [|years]; [lia|]. destruct n as [|m]; [lia|]. cbn [last_path rbind mapM] in P.
  destruct (pure_path (S years) path_sce sum_co yearly_co ci sum_ci cflex pflex 0) as [e1|x] eqn:E1; cbn [rbind] in P; [|congruence]. destruct (pure_path (S years) path_sce sum_co yearly_co ci sum_ci cflex pflex m) as [e2|x] eqn:E2; cbn [rbind] in P; [|congruence].
  destruct P as (pf & P & _). rewrite P in E. injection E as <- _. apply pure_path_describes in E1 as (A1 & D1), E2 as (A2 & D2). destruct (A1 Y) as (p1 & P1), (A2 Y) as (p2 & P2).
  exists p1, p2, e1, e2. cbn [Nat.sub]. rewrite Nat.sub_0_r. sp; auto; [apply D1|apply D2]; auto.
Qed.
Print Assumptions C138_extremes_partial.

(** With one path the report has two scenarios, the same one twice. *)
Theorem C138_refuted : exists years path_sce sum_co yearly_co ci sum_ci cflex pflex out pflex' e, List.length path_sce = 1 /\
  report years path_sce sum_co yearly_co ci sum_ci cflex 1 false pflex = Ok (out, pflex') /\ out = [("Scenario 1", e); ("Scenario 2", e)].
Proof. exists 1, [[0]], 0%Q, [], [[[1]]]%Q, 10%Q, [[1]]%Q, [[[2]]]%Q. eexists. eexists. eexists. sp; [reflexivity|vm_compute; reflexivity|reflexivity]. Qed.
Print Assumptions C138_refuted.

Example C138_witness : exists out pf, report 2 [[0; 0]; [0; 1]; [0; 2]] 5 [[1]; [2; 3; 4]]%Q [[[1]]; [[2]; [3]; [4]]]%Q 10 [[1]; [4; 5; 6]]%Q 3 false [[[1]]; [[6]; [7]; [8]]]%Q = Ok (out, pf) /\
  nth_error out 1 = Some ("Scenario 2", mkSE 17 10 7 5 [mkYE 2020 1 [1] [1]; mkYE 2030 4 [4] [8]])%Q.
Proof. eexists. eexists. split; [vm_compute; reflexivity|reflexivity]. Qed.

(* ------------------------------------------------------------------ *)
(** ** C139 *)

(** Writing the report changes the table of flexibility of the caller. *)
Theorem C139_refuted : exists years path_sce sum_co yearly_co ci sum_ci cflex pflex n out pflex',
  report years path_sce sum_co yearly_co ci sum_ci cflex n true pflex = Ok (out, pflex') /\ pflex' <> pflex.
Proof. exists 1, [[0]], 0%Q, [], [[[1]]]%Q, 10%Q, [[1]]%Q, [[[1 # 100000]]]%Q, 1. eexists. eexists. split; [vm_compute; reflexivity|discriminate]. Qed.
Print Assumptions C139_refuted.

(** It only replaces values of at most 0.0001 by 0: every list is kept or tidied, none is added or lost; and
    the same report is produced from the changed table. *)
Theorem C139_only_tidied_partial : forall years path_sce sum_co yearly_co ci sum_ci cflex n all pflex out pflex',
  report years path_sce sum_co yearly_co ci sum_ci cflex n all pflex = Ok (out, pflex') ->
  forall y s, match entry pflex y s with
    | Some l => exists l', entry pflex' y s = Some l' /\ (l' = l \/ tidied l l')
    | None => entry pflex' y s = None end.
Proof.
  intros years path_sce sum_co yearly_co ci sum_ci cflex n all pflex out pflex' E y s. pose proof (report_pure years path_sce sum_co yearly_co ci sum_ci cflex pflex n all) as P.
  destruct (do ps <- paths_of years path_sce n all; mapM (pure_path years path_sce sum_co yearly_co ci sum_ci cflex pflex) ps) as [es|x]; [|congruence].
  destruct P as (pf & P & H). rewrite P in E. injection E as _ <-. specialize (H y s). destruct (entry pflex y s) as [l|]; auto. destruct H as [H|H]; rewrite H; eexists; split; auto. right. apply cleaned_tidied.
Qed.
Print Assumptions C139_only_tidied_partial.

Lemma mapM_ext_in {A B} (f g : A -> res B) l : (forall a, In a l -> f a = g a) -> mapM f l = mapM g l.
Proof. induction l as [|a l IH]; intros E; cbn [mapM]; auto. rewrite E by (now left). destruct (g a); cbn [rbind]; auto. rewrite IH; auto. intros; apply E; now right. Qed.

Theorem C139_repeatable_partial : forall years path_sce sum_co yearly_co ci sum_ci cflex n all pflex out pflex',
  report years path_sce sum_co yearly_co ci sum_ci cflex n all pflex = Ok (out, pflex') ->
  exists pflex2, report years path_sce sum_co yearly_co ci sum_ci cflex n all pflex' = Ok (out, pflex2).
Proof.
  intros years path_sce sum_co yearly_co ci sum_ci cflex n all pflex out pflex' E. pose proof (report_pure years path_sce sum_co yearly_co ci sum_ci cflex pflex n all) as P.
  pose proof (report_pure years path_sce sum_co yearly_co ci sum_ci cflex pflex' n all) as P'.
  destruct (paths_of years path_sce n all) as [ps|x]; cbn [rbind] in *; [|congruence].
  destruct (mapM (pure_path years path_sce sum_co yearly_co ci sum_ci cflex pflex) ps) as [es|x] eqn:M; [|congruence]. destruct P as (pf & P & H). rewrite P in E. injection E as <- ->.
  assert (Ey : forall p y, pure_year path_sce sum_co yearly_co ci pflex' p y = pure_year path_sce sum_co yearly_co ci pflex p y).
  { intros p y. unfold pure_year. destruct (at_ path_sce p) as [path|]; [cbn [rbind]|reflexivity]. destruct (at_ path y) as [s|]; [cbn [rbind]|reflexivity]. rewrite !at2_entry. specialize (H y s). destruct (entry pflex y s) as [l|].
    - destruct H as [H|H]; rewrite H; cbn [rbind]; auto. now rewrite cleaned_twice.
    - now rewrite H. }
  assert (Ep : mapM (pure_path years path_sce sum_co yearly_co ci sum_ci cflex pflex') ps = Ok es).
  { rewrite <- M. apply mapM_ext_in. intros p _. unfold pure_path. destruct (mapM _ (seq 0 years)); [cbn [rbind]|reflexivity]. now rewrite (mapM_ext_in _ _ (seq 0 years) (fun y _ => Ey p y)). }
  rewrite Ep in P'. destruct P' as (pf & P' & _). eauto.
Qed.
Print Assumptions C139_repeatable_partial.

Example C139_witness : exists out, report 1 [[0]; [1]] 0 [] [[[1]; [2]]]%Q 10 [[1; 2]]%Q 1 true [[[1 # 100000; 3]; [1 # 100000]]]%Q = Ok (out, [[[0; 3]; [1 # 100000]]])%Q.
Proof. eexists. vm_compute. reflexivity. Qed.

(* ------------------------------------------------------------------ *)
(** ** C140 *)

Lemma indexed_map {A} (f : nat -> A) n (P : nat -> A -> Prop) : (forall i, i < n -> P i (f i)) -> indexed n (map f (seq 0 n)) P.
Proof.
  intros H. split; [now rewrite map_length, seq_length|]. intros i a. rewrite nth_error_map. destruct (nth_error (seq 0 n) i) as [j|] eqn:E; [|discriminate]. intros X. injection X as <-.
  assert (L : i < n) by (rewrite <- (seq_length n 0); apply nth_error_Some; congruence). rewrite nth_seq0 in E by auto. injection E as <-. auto.
Qed.

Lemma indexed_mapM {A} (f : nat -> res A) n l (P : nat -> A -> Prop) : mapM f (seq 0 n) = Ok l -> (forall i a, i < n -> f i = Ok a -> P i a) -> indexed n l P.
Proof.
  intros M H. apply mapM_nth in M as (L & N). rewrite seq_length in L. split; auto. intros i a E. assert (Li : i < n) by (rewrite <- L; apply nth_error_Some; congruence).
  destruct (N i i) as (b & Nb & Fb); [now apply nth_seq0|]. rewrite E in Nb. injection Nb as <-. auto.
Qed.

(** The recorded values are those of the variables: per year, scenario of the year (NoSce^year of them), season, day and hour. *)
Theorem C140_recorded : forall years n_sce n seasons days hours v,
  indexed years (record_peak years n_sce n v) (fun y ry => indexed (n_sce ^ y) ry (fun s rs => indexed n rs (fun b x => x = v b y s 0 0 0))) /\
  indexed years (record_all years n_sce n seasons days hours v) (fun y ry => indexed (n_sce ^ y) ry (fun s rs => indexed seasons rs (fun e re => indexed days re (fun d rd =>
    indexed hours rd (fun t rt => indexed n rt (fun b x => x = v b y s e d t)))))).
Proof. intros. split; repeat (apply indexed_map; intros); reflexivity. Qed.
Print Assumptions C140_recorded.

Lemma qsum_cons x l : qsum (x :: l) = (x + qsum l)%Q.
Proof. reflexivity. Qed.

Lemma qsum_one {A} (f g : A -> Q) (l : list A) k a : nth_error l k = Some a -> (g a == 1)%Q -> (forall j b, j <> k -> nth_error l j = Some b -> (g b == 0)%Q) -> (qsum (map (fun x => f x * g x) l) == f a)%Q.
Proof.
  assert (Z : forall l, (forall j b, nth_error l j = Some b -> g b == 0)%Q -> (qsum (map (fun x => f x * g x) l) == 0)%Q).
  { clear. induction l as [|x l IH]; intros H; cbn [map]; [reflexivity|]. rewrite qsum_cons, (IH (fun j => H (S j))), (H 0 x eq_refl). ring. }
  revert k. induction l as [|x l IH]; intros [|k]; cbn [nth_error]; try discriminate; cbn [map]; rewrite qsum_cons.
  - intros E G H. injection E as ->. rewrite Z, G; [ring|]. intros j b. apply (H (S j)). lia.
  - intros E G H. assert (X : (g x == 0)%Q) by (apply (H 0 x); auto). rewrite X, (IH k E G); [ring|]. intros j b N. apply (H (S j)). lia.
Qed.

(** The recorded investment of a branch is the capacity of the intervention that is built, 0 if none is. *)
Theorem C140_investment : forall years n_sce n s_ci built r, record_invest years n_sce n s_ci built = Ok r ->
  indexed years r (fun y ry => indexed (n_sce ^ y) ry (fun s rs => indexed n rs (fun b x => exists l, d_get (str_nat b) s_ci = Some l /\
    ((forall i, i < List.length l -> (built b i y s == 0)%Q) -> (x == 0)%Q) /\
    (forall k c, nth_error l k = Some c -> (built b k y s == 1)%Q -> (forall i, i < List.length l -> i <> k -> (built b i y s == 0)%Q) -> (x == c)%Q)))).
Proof.
  intros years n_sce n s_ci built r E. unfold record_invest in E. apply (indexed_mapM _ _ _ _ E). intros y ry _ Ey. apply (indexed_mapM _ _ _ _ Ey). intros s rs _ Es. apply (indexed_mapM _ _ _ _ Es).
  intros b x _ Eb. destruct (d_get (str_nat b) s_ci) as [l|]; [|discriminate]. injection Eb as <-. exists l.
  assert (Nc : forall j p, nth_error (combine (seq 0 (List.length l)) l) j = Some p -> fst p = j /\ nth_error l j = Some (snd p)).
  { intros j (i, c) N. assert (G : forall k (l : list Q) j i c, nth_error (combine (seq k (List.length l)) l) j = Some (i, c) -> i = k + j /\ nth_error l j = Some c).
    { clear. intros k l. revert k. induction l as [|x l IH]; intros k [|j] i c; cbn [List.length seq combine nth_error]; try discriminate.
      - intros X. injection X as -> ->. split; [lia|auto].
      - intros X. apply IH in X as (-> & X). split; [lia|auto]. }
    apply G in N as (-> & N). auto. }
  sp; auto.
  - intros Z. assert (G : forall m : list (nat * Q), (forall p, In p m -> built b (fst p) y s == 0)%Q -> (qsum (map (fun il => snd il * built b (fst il) y s) m) == 0)%Q).
    { induction m as [|p m IH]; intros H; cbn [map]; [reflexivity|]. assert (X : (built b (fst p) y s == 0)%Q) by (apply H; now left). rewrite qsum_cons, X, IH; [ring|]. intros q I. apply H. now right. }
    apply G. intros p I. apply In_nth_error in I as (j & N). apply Nc in N as (-> & N). apply Z. apply nth_error_Some. congruence.
  - intros k c N B H.
    assert (Nk : nth_error (combine (seq 0 (List.length l)) l) k = Some (k, c)).
    { destruct (nth_error (combine (seq 0 (List.length l)) l) k) as [(i, c')|] eqn:X; [apply Nc in X as (F & X); cbn [fst snd] in *; subst; congruence|].
      apply nth_error_None in X. rewrite combine_length, seq_length, Nat.min_id in X. assert (k < List.length l) by (apply nth_error_Some; congruence). lia. }
    apply (qsum_one (fun il => snd il) (fun il => built b (fst il) y s) _ k (k, c) Nk B). intros j p D X. apply Nc in X as (-> & X). apply H; auto. apply nth_error_Some. congruence.
Qed.
Print Assumptions C140_investment.

(** The initial values have the shape of the recorded ones. *)
Theorem C140_initial : forall years n_sce n v, indexed years (initial_value years n_sce n v) (fun y ry => indexed (n_sce ^ y) ry (fun s rs => indexed n rs (fun b x => x = v))).
Proof.
  intros. repeat (apply indexed_map; intros). split; [apply repeat_length|]. intros b x N. apply nth_error_In, repeat_spec in N. exact N.
Qed.
Print Assumptions C140_initial.

Example C140_witness : exists r, record_invest 2 2 1 [("0", [10; 20])]%Q (fun b i y s => if (y =? 1) && (i =? s) then 1 else 0)%Q = Ok r /\ map (map (map Qred)) r = [[[0]]; [[10]; [20]]]%Q.
Proof. eexists. split; [vm_compute; reflexivity|reflexivity]. Qed.

(* ------------------------------------------------------------------ *)
(** ** C141 *)

(** The script on a full tree: the clusters, with an empty one, are tried in the order of their total capacity until the OPF succeeds, each one
    on top of those before it; the result for node s of year y is stored at place 2^y + s, one too far: if the last node of the last year has a
    solution the script stops with an IndexError, and place 0 is never filled. *)
Theorem C141_script_partial : forall opf argsort base sizes clusters w,
  sorts argsort -> clusters <> [] -> Forall (fun c => List.length c = w) clusters -> w <= List.length base -> (forall y s, respects_values (opf y s)) ->
  sizes <> [] -> (forall y n, nth_error sizes y = Some n -> n = 2 ^ y) ->
  exists sorted found, Permutation sorted (clusters ++ [repeat 0%Q w]) /\ StronglySorted (fun a b => qsum a <= qsum b)%Q sorted /\
    (forall y s, search_at (opf y s) base sorted (found y s)) /\
    (found (List.length sizes - 1) (2 ^ (List.length sizes - 1) - 1) <> None -> script opf argsort base sizes clusters = Err IndexError) /\
    (found (List.length sizes - 1) (2 ^ (List.length sizes - 1) - 1) = None -> exists lines invest, script opf argsort base sizes clusters = Ok (lines, invest) /\
       List.length lines = 2 ^ List.length sizes - 1 /\ List.length invest = 2 ^ List.length sizes - 1 /\
       nth_error lines 0 = Some (repeat 0%Q w) /\ nth_error invest 0 = Some None /\
       forall y s, y < List.length sizes -> s < 2 ^ y -> match found y s with
         | Some k => exists c, nth_error sorted k = Some c /\ nth_error lines (2 ^ y + s) = Some c /\ nth_error invest (2 ^ y + s) = Some (Some (qsum c * 60000)%Q)
         | None => 2 ^ y + s < 2 ^ List.length sizes - 1 -> nth_error lines (2 ^ y + s) = Some (repeat 0%Q w) /\ nth_error invest (2 ^ y + s) = Some None end).
Proof. exact script_spec. Qed.
Print Assumptions C141_script_partial.

(** If every node can be operated without investment, the script finds no plan for any full tree: it always stops. *)
Theorem C141_refuted : forall argsort base sizes clusters w, sorts argsort -> clusters <> [] -> Forall (fun c => List.length c = w) clusters -> w <= List.length base ->
  sizes <> [] -> (forall y n, nth_error sizes y = Some n -> n = 2 ^ y) -> script (fun _ _ _ => true) argsort base sizes clusters = Err IndexError.
Proof.
  intros argsort base sizes clusters w So NE W Wb NS F. destruct (script_spec (fun _ _ _ => true) argsort base sizes clusters w) as (sorted & found & P & _ & S & A & _); auto; [intros y s a b _; reflexivity|].
  apply A. intros E. specialize (S (List.length sizes - 1) (2 ^ (List.length sizes - 1) - 1)). rewrite E in S. cbn [search_at] in S.
  assert (L : 0 < List.length sorted) by (rewrite (Permutation_length P), app_length; cbn; lia). apply S in L. discriminate.
Qed.
Print Assumptions C141_refuted.

(** Clusters with more lines than the network are never stored. *)
Theorem C141_too_long : forall opf argsort base sizes clusters w, sorts argsort -> clusters <> [] -> Forall (fun c => List.length c = w) clusters -> List.length base < w ->
  exists n, script opf argsort base sizes clusters = Ok (repeat (repeat 0%Q w) n, repeat None n).
Proof.
  intros opf argsort base sizes clusters w So NE W Wb. destruct clusters as [|c0 clusters']; [congruence|]. set (clusters := c0 :: clusters') in *. assert (L0 : List.length c0 = w) by (inversion W; auto).
  destruct (sorted_clusters argsort (clusters ++ [repeat 0%Q w]) So) as (sorted & scosts & Es & Ec & P & Hs & _).
  assert (Lu : forall c caps, List.length (fst (upgrade_script caps c)) = List.length caps /\ (List.length caps < List.length c -> snd (upgrade_script caps c) = false)).
  { induction c as [|x c IH]; intros [|a caps]; cbn [upgrade_script List.length]; try (split; [reflexivity|intros; try reflexivity; exfalso; lia]). destruct (IH caps) as (A & B). destruct (upgrade_script caps c) as (l, ok). cbn [fst snd List.length] in *. split; [congruence|]. intros L. apply B. lia. }
  assert (T : forall y s (cs : list (list Q * Q)), Forall (fun c => List.length (fst c) = w) cs -> forall caps, List.length caps < w -> try_clusters opf y s caps cs = None).
  { intros y s. induction cs as [|c cs IH]; intros F caps L; cbn [try_clusters]; auto. inversion F as [|? ? F1 F2]; subst. destruct (Lu (fst c) caps) as (A & B). destruct (upgrade_script caps (fst c)) as (caps', ok). cbn [fst snd] in *. rewrite B by lia. cbn [andb]. apply IH; auto. lia. }
  assert (Fw : Forall (fun c => List.length (fst c) = w) (combine sorted scosts)).
  { apply Forall_forall. intros (c, q) I. apply in_combine_l in I. apply (Permutation_in _ P) in I. cbn [fst]. apply in_app_or in I as [I|[<-|[]]]; [|now rewrite repeat_length]. rewrite Forall_forall in W. apply (W c I). }
  exists (fold_left (fun n y => n + 2 ^ y) (seq 0 (List.length sizes)) 0). unfold script. change (at_ clusters 0) with (Ok c0). cbn [rbind]. rewrite L0. cbv zeta. rewrite Es. cbn [rbind]. rewrite Ec. cbn [rbind].
  set (l := flat_map _ _). induction l as [|(y, s) l IH]; cbn [foldM]; auto. rewrite (T y s _ Fw base Wb). cbn [rbind]. exact IH.
Qed.
Print Assumptions C141_too_long.

Example C141_witness : script (fun y s caps => match caps with c :: _ => Qle_bool (inject_Z (Z.of_nat (y * (2 * s + 2)))) c | [] => false end) insertion_argsort [0]%Q [1; 2] [[22]; [11]]%Q =
  Ok ([[0]; [0]; [22]], [None; Some (0); Some (1320000)])%Q /\ sorts insertion_argsort /\
  script (fun _ _ _ => true) insertion_argsort [5]%Q [1; 2] [[1; 2]]%Q = Ok ([[0; 0]; [0; 0]; [0; 0]], [None; None; None])%Q.
Proof. sp; [vm_compute; reflexivity|exact insertion_sorts|vm_compute; reflexivity]. Qed.

(* ------------------------------------------------------------------ *)
(** ** C142 *)

(** The cluster stored for a node need not make its network feasible: capacity 33 is needed, clusters 11 and 22 together
    give it, and cluster 22 alone is stored. *)
Theorem C142_refuted : exists opf argsort base sizes clusters lines invest, sorts argsort /\ (forall y s, respects_values (opf y s)) /\ Forall (fun c => List.length c = 1) clusters /\
  script opf argsort base sizes clusters = Ok (lines, invest) /\ nth_error lines 2 = Some [22]%Q /\ opf 1 0 (with_cluster base [22]%Q) = false.
Proof.
  exists (fun y s caps => match caps with c :: _ => (y =? 1) && (s =? 0) && Qle_bool 3 c | [] => false end), insertion_argsort, [0]%Q, [1; 2], [[22]; [11]]%Q. eexists. eexists. sp.
  - exact insertion_sorts.
  - intros y s a b F. destruct F as [|x x' a b E F]; auto. now rewrite E.
  - repeat constructor.
  - vm_compute. reflexivity.
  - reflexivity.
  - reflexivity.
Qed.
Print Assumptions C142_refuted.

Lemma with_cluster_mono a : forall b c, Forall (fun x => 0 <= x)%Q c -> Forall2 Qle a b -> Forall2 Qle a (with_cluster b c).
Proof.
  induction a as [|x a IH]; intros b c F G; inversion G as [|? y ? b' Q1 Q2]; subst; [destruct c; constructor|]. destruct c as [|z c]; cbn [with_cluster]; [now constructor|].
  inversion F as [|? ? F1 F2]; subst. constructor; [|apply IH; auto]. apply Qle_trans with y; auto. rewrite <- (Qplus_0_r y) at 1. apply Qplus_le_r. apply Qle_shift_div_l; [reflexivity|]. rewrite Qmult_0_l. exact F1.
Qed.

Lemma with_clusters_le : forall cs a b, Forall (Forall (fun x => 0 <= x)%Q) cs -> Forall2 Qle a b -> Forall2 Qle (with_cluster a []) (fold_left with_cluster cs b).
Proof.
  induction cs as [|c cs IH]; intros a b F G; cbn [fold_left]; [destruct a; exact G|]. inversion F; subst. apply IH; auto. now apply with_cluster_mono.
Qed.

Lemma with_cluster_le a b c : Forall2 Qle a b -> Forall2 Qle (with_cluster a c) (with_cluster b c).
Proof. intros G. revert c. induction G as [|x y a b L G IH]; intros [|z c]; cbn [with_cluster]; constructor; auto. now apply Qplus_le_l. Qed.

(** What does hold if capacity never harms: no cluster of the order before the stored one is feasible alone, and none at all if the
    search fails; the first one, if stored, is feasible. *)
Theorem C142_earlier_partial : forall (opf : list Q -> bool) base sorted found, (forall a b, Forall2 Qle a b -> opf a = true -> opf b = true) -> Forall (Forall (fun x => 0 <= x)%Q) sorted ->
  search_at opf base sorted found ->
  (forall j c, nth_error sorted j = Some c -> (match found with Some k => j < k | None => True end) -> opf (with_cluster base c) = false) /\
  (forall c, found = Some 0 -> nth_error sorted 0 = Some c -> opf (with_cluster base c) = true).
Proof.
  intros opf base sorted found M N S.
  assert (B : forall l : list Q, Forall2 Qle l l) by (induction l; constructor; auto; apply Qle_refl).
  assert (T : forall j c, nth_error sorted j = Some c -> opf (fold_left with_cluster (firstn (Datatypes.S j) sorted) base) = false -> opf (with_cluster base c) = false).
  { intros j c E O. destruct (opf (with_cluster base c)) eqn:X; auto. rewrite <- O. symmetry. apply (M (with_cluster base c)); auto.
    assert (F : firstn (Datatypes.S j) sorted = firstn j sorted ++ [c]).
    { clear - E. revert j E. induction sorted as [|x l IH]; intros [|j] E; cbn [nth_error] in E; try discriminate; [now injection E as ->|]. cbn [firstn app]. f_equal. apply (IH j E). }
    rewrite F, fold_left_app. cbn [fold_left]. apply with_cluster_le. replace base with (with_cluster base []) at 1 by (destruct base; reflexivity). apply with_clusters_le; auto.
    apply Forall_forall. intros d I. rewrite Forall_forall in N. apply N. rewrite <- (firstn_skipn j sorted). apply in_or_app. now left. }
  split.
  - intros j c E J. apply (T j c E). destruct found as [k|]; [now apply S|]. apply S. apply nth_error_Some. congruence.
  - intros c -> E. destruct S as (_ & O & _). destruct sorted as [|x l]; [discriminate|]. cbn in E. injection E as ->. exact O.
Qed.
Print Assumptions C142_earlier_partial.

Example C142_witness : search_at (fun caps => match caps with c :: _ => Qle_bool 3 c | [] => false end) [0]%Q [[0]; [11]; [22]]%Q (Some 2) /\ Forall (Forall (fun x => 0 <= x)%Q) [[0]; [11]; [22]]%Q.
Proof. split; [cbn; sp; auto; intros [|[|j]] J; auto; lia|repeat constructor; discriminate]. Qed.
