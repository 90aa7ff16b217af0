(** The search for supernodes: it always ends, and the supernodes are the connected parts of the buses below the
    voltage asked for. *)
From Coq Require Import List ZArith QArith Bool Lia Arith Permutation Relation_Operators Operators_Properties.
From Verif Require Import Base GraphData Network Cases InputOutputProofs HydroTables Parameters Analyser Reduction AnalyserSpec GraphDataProofs ParametersProofs AnalyserProofs AnalyserIslands.
Import ListNotations.
Open Scope list_scope.
Open Scope nat_scope.

Definition unfl (l : list bool) : nat := length (filter negb l).
Lemma unfl_mono : forall l l', length l = length l' -> (forall i, nth_error l i = Some true -> nth_error l' i = Some true) -> unfl l' <= unfl l.
Proof.
  unfold unfl. induction l as [|x l IH]; intros [|y m] L H; try discriminate; [reflexivity|]. injection L as L.
  assert (X : length (filter negb m) <= length (filter negb l)) by (apply IH; [exact L|intros i; exact (H (S i))]).
  specialize (H 0). cbn in H |- *. destruct x, y; cbn; try lia. specialize (H eq_refl). discriminate.
Qed.
Lemma unfl_set : forall l p, nth_error l p = Some false -> unfl (set_nth p true l) < unfl l.
Proof.
  unfold unfl. induction l as [|x l IH]; intros [|p] H; try discriminate; cbn in H |- *.
  - injection H as ->. cbn. lia.
  - specialize (IH p H). destruct x; cbn; lia.
Qed.

Section Track.
Variables (three vol : Q) (N : net).
Hypothesis S : settled N.
Hypothesis W : wf N.

Definition low (p : nat) : Prop := exists b, nth_error (n_bus N) p = Some b /\ high three vol b = false.
Definition inc (k : skind) (x p : nat) : Prop := exists s, nth_error (els k N) x = Some s /\ In p (s_pos s).
Definition llink (p q : nat) : Prop := low p /\ low q /\ exists k x, inc k x p /\ inc k x q.
Definition lconn : nat -> nat -> Prop := clos_refl_trans nat llink.
Definition bflag (t : search) (p : nat) : Prop := nth_error (f_bus (h_flags t)) p = Some true.
Definition eflag (t : search) (k : skind) (x : nat) : Prop := nth_error (f_els k (h_flags t)) x = Some true.
Definition lens (f : flags) : Prop := length (f_bus f) = length (n_bus N) /\ forall k, length (f_els k f) = length (els k N).
(** The ends of the elements seen have been seen. *)
Definition ended (t : search) : Prop := forall k x p, eflag t k x -> inc k x p -> bflag t p.
(** A coupling bus with the element that leads to it. *)
Definition couples (B : list nat) (c : nat) (s : series) : Prop :=
  exists k x q, nth_error (els k N) x = Some s /\ In c (s_pos s) /\ In q (s_pos s) /\ In q B /\ ~ low c /\ c < length (n_bus N).

(** The elements at positions, and those with an end above the level. *)
Definition pick (k : skind) (l : list nat) : list series := flat_map (fun x => match nth_error (els k N) x with Some s => [s] | None => [] end) l.
Definition crosses (s : series) : bool := existsb (fun q => match nth_error (n_bus N) q with Some b => high three vol b | None => false end) (s_pos s).
Definition crossing (nw : skind -> list nat) : list series := filter crosses (pick Lines (nw Lines) ++ pick Trafos (nw Trafos)).

Record ext (root : nat) (t t' : search) (new : list nat) (nw : skind -> list nat) (C : list nat) (A : list series) : Prop := mkExt {
  x_bus : u_bus (h_super t') = u_bus (h_super t) ++ new;
  x_els : forall k, u_els k (h_super t') = u_els k (h_super t) ++ nw k;
  x_cou : u_coupling (h_super t') = u_coupling (h_super t) ++ C;
  x_art : u_art (h_super t') = u_art (h_super t) ++ A;
  x_on : h_on t = true -> h_on t' = true;
  x_len : lens (h_flags t) -> lens (h_flags t');
  x_mono : forall p, bflag t p -> bflag t' p;
  x_low : forall p, bflag t' p -> low p -> bflag t p \/ In p new;
  x_new : forall p, In p new -> low p /\ ~ bflag t p /\ bflag t' p /\ lconn root p;
  x_nodup : NoDup new;
  x_el : forall k x, eflag t' k x <-> eflag t k x \/ In x (nw k);
  x_elnew : forall k x, In x (nw k) -> ~ eflag t k x /\ exists q, inc k x q /\ In q (u_bus (h_super t'));
  x_elnodup : forall k, NoDup (nw k);
  x_done : forall p k x, In p new -> inc k x p -> eflag t' k x;
  x_ended : ended t -> ended t';
  x_pair : Forall2 (couples (u_bus (h_super t'))) C A;
  x_cross : Permutation A (crossing nw) }.
Definition exts (root : nat) (t t' : search) : Prop := exists new nw C A, ext root t t' new nw C A.

Lemma couples_incl B B' c s : (forall q, In q B -> In q B') -> couples B c s -> couples B' c s.
Proof. intros H [k [x [q [H1 [H2 [H3 [H4 H5]]]]]]]. exists k, x, q. sp; try tauto. now apply H. Qed.
Lemma exts_refl root t : exts root t t.
Proof.
  exists [], (fun _ => []), [], []. constructor.
  - now rewrite app_nil_r.
  - intros k. now rewrite app_nil_r.
  - now rewrite app_nil_r.
  - now rewrite app_nil_r.
  - tauto.
  - tauto.
  - tauto.
  - tauto.
  - intros p [].
  - constructor.
  - intros k x. cbn. tauto.
  - intros k x [].
  - intros k. constructor.
  - intros p k x [].
  - tauto.
  - constructor.
  - constructor.
Qed.
Lemma exts_trans root t1 t2 t3 : exts root t1 t2 -> exts root t2 t3 -> exts root t1 t3.
Proof.
  intros [n1 [w1 [C1 [A1 E1]]]] [n2 [w2 [C2 [A2 E2]]]].
  exists (n1 ++ n2), (fun k => w1 k ++ w2 k), (C1 ++ C2), (A1 ++ A2). constructor.
  - rewrite (x_bus _ _ _ _ _ _ _ E2), (x_bus _ _ _ _ _ _ _ E1). now rewrite app_assoc.
  - intros k. rewrite (x_els _ _ _ _ _ _ _ E2), (x_els _ _ _ _ _ _ _ E1). now rewrite app_assoc.
  - rewrite (x_cou _ _ _ _ _ _ _ E2), (x_cou _ _ _ _ _ _ _ E1). now rewrite app_assoc.
  - rewrite (x_art _ _ _ _ _ _ _ E2), (x_art _ _ _ _ _ _ _ E1). now rewrite app_assoc.
  - intros H. apply (x_on _ _ _ _ _ _ _ E2), (x_on _ _ _ _ _ _ _ E1), H.
  - intros H. apply (x_len _ _ _ _ _ _ _ E2), (x_len _ _ _ _ _ _ _ E1), H.
  - intros p H. apply (x_mono _ _ _ _ _ _ _ E2), (x_mono _ _ _ _ _ _ _ E1), H.
  - intros p H L. rewrite in_app_iff. destruct (x_low _ _ _ _ _ _ _ E2 p H L) as [H2|H2]; [|tauto].
    destruct (x_low _ _ _ _ _ _ _ E1 p H2 L); tauto.
  - intros p H. apply in_app_or in H as [H|H].
    + destruct (x_new _ _ _ _ _ _ _ E1 p H) as [H1 [H2 [H3 H4]]]. sp; try assumption. now apply (x_mono _ _ _ _ _ _ _ E2).
    + destruct (x_new _ _ _ _ _ _ _ E2 p H) as [H1 [H2 [H3 H4]]]. sp; try assumption. intros X. apply H2. now apply (x_mono _ _ _ _ _ _ _ E1).
  - pose proof (x_nodup _ _ _ _ _ _ _ E1) as N1. pose proof (x_nodup _ _ _ _ _ _ _ E2) as N2.
    assert (D : forall p, In p n1 -> ~ In p n2).
    { intros p H1 H2. apply (x_new _ _ _ _ _ _ _ E1) in H1. apply (x_new _ _ _ _ _ _ _ E2) in H2. tauto. }
    clear -N1 N2 D. induction n1 as [|x l IH]; cbn; [exact N2|]. apply NoDup_cons_iff in N1 as [Hx N1]. constructor.
    + rewrite in_app_iff. intros [I|I]; [contradiction|]. apply (D x); [now left|exact I].
    + apply IH; [exact N1|]. intros p Hp. apply D. now right.
  - intros k x. rewrite (x_el _ _ _ _ _ _ _ E2), (x_el _ _ _ _ _ _ _ E1), in_app_iff. tauto.
  - intros k x H. apply in_app_or in H as [H|H].
    + destruct (x_elnew _ _ _ _ _ _ _ E1 k x H) as [H1 [q [H2 H3]]]. split; [exact H1|]. exists q. split; [exact H2|].
      rewrite (x_bus _ _ _ _ _ _ _ E2). apply in_or_app. now left.
    + destruct (x_elnew _ _ _ _ _ _ _ E2 k x H) as [H1 H2]. split; [|exact H2]. intros X. apply H1. apply (x_el _ _ _ _ _ _ _ E1). now left.
  - intros k. pose proof (x_elnodup _ _ _ _ _ _ _ E1 k) as N1. pose proof (x_elnodup _ _ _ _ _ _ _ E2 k) as N2.
    assert (D : forall p, In p (w1 k) -> ~ In p (w2 k)).
    { intros p H1 H2. apply (x_elnew _ _ _ _ _ _ _ E2) in H2 as [H2 _]. apply H2. apply (x_el _ _ _ _ _ _ _ E1). now right. }
    clear -N1 N2 D. induction (w1 k) as [|x l IH]; cbn; [exact N2|]. apply NoDup_cons_iff in N1 as [Hx N1]. constructor.
    + rewrite in_app_iff. intros [I|I]; [contradiction|]. apply (D x); [now left|exact I].
    + apply IH; [exact N1|]. intros p Hp. apply D. now right.
  - intros p k x H I. apply in_app_or in H as [H|H].
    + apply (x_el _ _ _ _ _ _ _ E2). left. now apply (x_done _ _ _ _ _ _ _ E1 p).
    + now apply (x_done _ _ _ _ _ _ _ E2 p).
  - intros H. apply (x_ended _ _ _ _ _ _ _ E2), (x_ended _ _ _ _ _ _ _ E1), H.
  - apply Forall2_app; [|apply (x_pair _ _ _ _ _ _ _ E2)]. pose proof (x_pair _ _ _ _ _ _ _ E1) as F.
    rewrite (x_bus _ _ _ _ _ _ _ E2). clear -F. induction F as [|c s C A H _ IH]; constructor; [|exact IH].
    apply (couples_incl (u_bus (h_super t2))); [|exact H]. intros q Hq. apply in_or_app. now left.
  - apply (Permutation_trans (Permutation_app (x_cross _ _ _ _ _ _ _ E1) (x_cross _ _ _ _ _ _ _ E2))).
    unfold crossing, pick. rewrite !flat_map_app, !filter_app. rewrite <- !app_assoc. apply Permutation_app_head.
    rewrite !app_assoc. apply Permutation_app_tail. apply Permutation_app_comm.
Qed.
Lemma exts_root r r' t t' : lconn r r' -> exts r' t t' -> exts r t t'.
Proof.
  intros L [n [w [C [A E]]]]. exists n, w, C, A. destruct E. constructor; try assumption.
  intros p Hp. destruct (x_new0 p Hp) as [H1 [H2 [H3 H4]]]. sp; try assumption. now apply rt_trans with r'.
Qed.
Lemma exts_unfl r t t' : lens (h_flags t) -> exts r t t' -> unfl (f_bus (h_flags t')) <= unfl (f_bus (h_flags t)).
Proof.
  intros L [n [w [C [A E]]]]. apply unfl_mono.
  - rewrite (proj1 L). symmetry. apply (x_len _ _ _ _ _ _ _ E L).
  - apply (x_mono _ _ _ _ _ _ _ E).
Qed.

(** What a recursive call is given and returns. *)
Definition ready (p : nat) (t : search) : Prop :=
  lens (h_flags t) /\ ended t /\ h_on t = true /\ In p (u_bus (h_super t)) /\ bflag t p /\ low p /\ Forall low (u_bus (h_super t)).
Lemma exts_lows r t t' : Forall low (u_bus (h_super t)) -> exts r t t' -> Forall low (u_bus (h_super t')).
Proof.
  intros F [n [w [C [A E]]]]. rewrite (x_bus _ _ _ _ _ _ _ E). apply Forall_app. split; [exact F|].
  apply Forall_forall. intros q Hq. apply (x_new _ _ _ _ _ _ _ E q Hq).
Qed.
Lemma ready_ext p r t t' : ready p t -> exts r t t' -> ready p t'.
Proof.
  intros [H1 [H2 [H3 [H4 [H5 [H6 H7]]]]]] X. pose proof (exts_lows r t t' H7 X) as H7'. destruct X as [n [w [C [A E]]]]. unfold ready. sp.
  - now apply (x_len _ _ _ _ _ _ _ E).
  - now apply (x_ended _ _ _ _ _ _ _ E).
  - now apply (x_on _ _ _ _ _ _ _ E).
  - rewrite (x_bus _ _ _ _ _ _ _ E). apply in_or_app. now left.
  - now apply (x_mono _ _ _ _ _ _ _ E).
  - exact H6.
  - exact H7'.
Qed.
Definition call_ok (fuel : nat) (rec : nat -> search -> res search) : Prop := forall p t,
  low p -> lens (h_flags t) -> ended t -> Forall low (u_bus (h_super t)) -> ~ bflag t p -> unfl (f_bus (h_flags t)) <= fuel ->
  exists t', rec p t = Ok t' /\ exts p t t' /\ (forall k x, inc k x p -> eflag t' k x) /\ h_on t' = true /\ bflag t' p /\ In p (u_bus (h_super t')).
Definition call_high (fuel : nat) (rec : nat -> search -> res search) : Prop := forall p t b,
  nth_error (n_bus N) p = Some b -> high three vol b = true -> lens (h_flags t) -> ~ bflag t p -> unfl (f_bus (h_flags t)) <= fuel ->
  rec p t = Ok (if h_on t then on_super (add_coupling p) (on_flags (flag_bus p) t) else on_flags (flag_bus p) t).

Lemma bus_flag (t : search) e : lens (h_flags t) -> e < length (n_bus N) -> exists f, at_ (f_bus (h_flags t)) e = Ok f /\ nth_error (f_bus (h_flags t)) e = Some f.
Proof.
  intros [L _] H. destruct (nth_error (f_bus (h_flags t)) e) as [f|] eqn:E; [exists f; split; [unfold at_; now rewrite E|reflexivity]|].
  apply nth_error_None in E. lia.
Qed.
Lemma el_flag (t : search) k x : lens (h_flags t) -> x < length (els k N) -> exists f, at_ (f_els k (h_flags t)) x = Ok f /\ nth_error (f_els k (h_flags t)) x = Some f.
Proof.
  intros [_ L] H. destruct (nth_error (f_els k (h_flags t)) x) as [f|] eqn:E; [exists f; split; [unfold at_; now rewrite E|reflexivity]|].
  apply nth_error_None in E. specialize (L k). lia.
Qed.
Lemma flag_bus_lens p f : lens f -> lens (flag_bus p f).
Proof. intros [L1 L2]. split; [cbn; now rewrite set_nth_length|]. intros k. specialize (L2 k). destruct k; exact L2. Qed.
Lemma flag_el_lens k x f : lens f -> lens (flag_el k x f).
Proof. intros [L1 L2]. split; [destruct k; exact L1|]. intros k'. specialize (L2 k'). destruct k, k'; cbn in *; try rewrite set_nth_length; exact L2. Qed.
Lemma bflag_set t p q : bflag (on_flags (flag_bus p) t) q <-> (bflag t q \/ (p = q /\ q < length (f_bus (h_flags t)))).
Proof.
  unfold bflag. cbn. rewrite nth_set_nth. destruct (Nat.eqb_spec p q) as [->|D].
  - destruct (nth_error (f_bus (h_flags t)) q) eqn:E.
    + assert (q < length (f_bus (h_flags t))) by (apply nth_error_Some; congruence). split; [tauto|reflexivity].
    + apply nth_error_None in E. split; [discriminate|]. intros [H|[_ H]]; [congruence|lia].
  - tauto.
Qed.
Lemma eflag_set t k x k' y : eflag (on_flags (flag_el k x) t) k' y <-> (eflag t k' y \/ (k = k' /\ x = y /\ y < length (f_els k' (h_flags t)))).
Proof.
  unfold eflag. destruct k, k'; cbn; try (split; [tauto|intros [H|[H _]]; [exact H|discriminate]]); rewrite nth_set_nth; (destruct (Nat.eqb_spec x y) as [->|D]; [|tauto]).
  - destruct (nth_error (f_lines (h_flags t)) y) eqn:E.
    + assert (y < length (f_lines (h_flags t))) by (apply nth_error_Some; congruence). split; [tauto|reflexivity].
    + apply nth_error_None in E. split; [discriminate|]. intros [H|[_ [_ H]]]; [congruence|lia].
  - destruct (nth_error (f_trafos (h_flags t)) y) eqn:E.
    + assert (y < length (f_trafos (h_flags t))) by (apply nth_error_Some; congruence). split; [tauto|reflexivity].
    + apply nth_error_None in E. split; [discriminate|]. intros [H|[_ [_ H]]]; [congruence|lia].
Qed.
Lemma low_lt p : low p -> p < length (n_bus N).
Proof. intros [b [H _]]. apply nth_error_Some. congruence. Qed.
Lemma inc_lt k x p : inc k x p -> p < length (n_bus N).
Proof.
  intros [s [Hs Hp]]. apply nth_error_In in Hs. apply (s_pos_in N S W k s Hs) in Hp as [b [Hb _]]. apply nth_error_Some. congruence.
Qed.

Definition only (k : skind) (x : nat) (k' : skind) : list nat := match k, k' with Lines, Lines | Trafos, Trafos => [x] | _, _ => [] end.
Lemma only_in k x k' y : In y (only k x k') <-> k = k' /\ x = y.
Proof. destruct k, k'; cbn; split; intuition discriminate. Qed.

(** An element that is taken into the supernode at one of its ends. *)
Lemma ext_el t t' p e k x s C A : ready p t -> nth_error (els k N) x = Some s -> ~ eflag t k x -> In p (s_pos s) -> (forall q, In q (s_pos s) -> q = p \/ q = e) ->
  (forall q, bflag t q -> bflag t' q) -> (forall q, low q -> bflag t' q -> bflag t q) -> bflag t' e -> lens (h_flags t') ->
  (forall k' y, eflag t' k' y <-> eflag t k' y \/ (k = k' /\ x = y)) ->
  u_bus (h_super t') = u_bus (h_super t) -> (forall k', u_els k' (h_super t') = u_els k' (h_super t) ++ only k x k') ->
  u_coupling (h_super t') = u_coupling (h_super t) ++ C -> u_art (h_super t') = u_art (h_super t) ++ A -> h_on t' = true ->
  Forall2 (couples (u_bus (h_super t))) C A -> A = (if crosses s then [s] else []) ->
  exts p t t' /\ eflag t' k x.
Proof.
  intros [R1 [R2 [R3 [R4 [R5 R6]]]]] Hs NF Hp Two BM BL Be Ln EL UB UE UC UA On F2 EA. split; [|apply EL; tauto].
  exists [], (only k x), C, A. constructor.
  - now rewrite UB, app_nil_r.
  - exact UE.
  - exact UC.
  - exact UA.
  - tauto.
  - tauto.
  - exact BM.
  - intros q Hq Lq. left. now apply BL.
  - intros q [].
  - constructor.
  - intros k' y. rewrite EL, only_in. tauto.
  - intros k' y Hy. apply only_in in Hy as [<- <-]. split; [exact NF|]. exists p. split; [now exists s|]. now rewrite UB.
  - intros k'. destruct k, k'; cbn; repeat constructor; intros [].
  - intros q k' y [].
  - intros _ k' y q Hy Iy. apply EL in Hy as [Hy|[<- <-]]; [apply BM; now apply (R2 k' y q)|].
    destruct Iy as [s' [Hs' Hq]]. rewrite Hs in Hs'. injection Hs' as <-. destruct (Two q Hq) as [-> | ->]; [now apply BM|exact Be].
  - now rewrite UB.
  - subst A. unfold crossing, pick. destruct k; cbn [only]; cbn [flat_map]; rewrite Hs; cbn; destruct (crosses s); constructor; constructor.
Qed.

Lemma exts_eflag r t t' k x : exts r t t' -> eflag t k x -> eflag t' k x.
Proof. intros [n [w [C [A E]]]] H. apply (x_el _ _ _ _ _ _ _ E). now left. Qed.

Definition el_step rec p k t x : res search :=
  do f <- at_ (f_els k (h_flags t)) x;
  if f then Ok t
  else
    do s <- at_ (els k N) x;
    if negb (mem p (s_pos s)) then Err AssertionError
    else
      do t <- check_ends three vol N rec k x p (s_pos s) t;
      do f <- at_ (f_els k (h_flags t)) x;
      if f then Ok t else Ok (on_super (add_el k x) (on_flags (flag_el k x) t)).

Lemma el_step_ok fuel rec p k t x s : call_ok fuel rec -> call_high fuel rec -> ready p t -> unfl (f_bus (h_flags t)) <= fuel ->
  nth_error (els k N) x = Some s -> In p (s_pos s) -> exists t', el_step rec p k t x = Ok t' /\ exts p t t' /\ eflag t' k x.
Proof.
  intros CO CH R Fu Hs Hp. destruct R as [R1 [R2 [R3 [R4 [R5 [R6 R7]]]]]]. assert (R : ready p t) by (unfold ready; sp; assumption).
  assert (Lx : x < length (els k N)) by (apply nth_error_Some; congruence).
  destruct (el_flag t k x R1 Lx) as [f [Ef Nf]]. unfold el_step. rewrite Ef, bind_ok. destruct f.
  { exists t. split; [reflexivity|]. split; [apply exts_refl|exact Nf]. }
  assert (NF : ~ eflag t k x) by (unfold eflag; congruence).
  assert (At : at_ (els k N) x = Ok s) by (unfold at_; now rewrite Hs). rewrite At, bind_ok.
  assert (Mp : mem p (s_pos s) = true) by (apply existsb_eqb; exact Hp). rewrite Mp. cbn [negb].
  assert (Two : exists e be, (s_pos s = [p; e] \/ s_pos s = [e; p]) /\ e <> p /\ nth_error (n_bus N) e = Some be).
  { destruct (s_pos_two N S W k s (nth_error_In _ _ Hs)) as [i [j [bi [bj [E [D [Hi [Hj _]]]]]]]]. rewrite E in Hp |- *. destruct Hp as [-> |[-> |[]]].
    - exists j, bj. sp; [tauto|congruence|exact Hj].
    - exists i, bi. sp; [tauto|congruence|exact Hi]. }
  destruct Two as [e [be [Ep [D He]]]].
  assert (Le : e < length (n_bus N)) by (apply nth_error_Some; congruence).
  assert (Hbp : exists bp, nth_error (n_bus N) p = Some bp) by (destruct R6 as [bp [H _]]; now exists bp). destruct Hbp as [bp Hbp].
  (* the ends one by one *)
  set (one := fun t e => do b <- at_ (n_bus N) e; if e =? p then Ok t else do f <- at_ (f_bus (h_flags t)) e;
      if negb f then do t <- rec e t; if high three vol b then do s <- at_ (els k N) x; Ok (on_super (add_art s) t) else Ok t
      else if high three vol b && negb (mem e (u_bus (h_super t))) then do s <- at_ (els k N) x; Ok (on_super (fun u => add_art s (add_coupling e u)) t) else Ok t).
  assert (Op : forall t, one t p = Ok t) by (intros t0; unfold one, at_; rewrite Hbp, bind_ok, Nat.eqb_refl; reflexivity).
  assert (Ce : check_ends three vol N rec k x p (s_pos s) t = one t e).
  { change (foldM one (s_pos s) t = one t e). destruct Ep as [-> | ->]; cbn [foldM].
    - rewrite Op, bind_ok. destruct (one t e); reflexivity.
    - destruct (one t e) as [t1|x1]; [|reflexivity]. rewrite bind_ok, Op. reflexivity. }
  rewrite Ce. unfold one. assert (Ate : at_ (n_bus N) e = Ok be) by (unfold at_; now rewrite He). rewrite Ate, bind_ok.
  destruct (Nat.eqb_spec e p) as [X|_]; [contradiction|]. destruct (bus_flag t e R1 Le) as [fe [Efe Nfe]]. rewrite Efe, bind_ok.
  assert (Ie : In e (s_pos s)) by (destruct Ep as [-> | ->]; cbn; tauto).
  assert (TwoQ : forall q, In q (s_pos s) -> q = p \/ q = e) by (intros q; destruct Ep as [-> | ->]; cbn; intuition congruence).
  assert (HighP : high three vol bp = false) by (destruct R6 as [b [H1 H2]]; congruence).
  assert (Cr : crosses s = high three vol be).
  { unfold crosses. destruct Ep as [-> | ->]; cbn; rewrite Hbp, He, HighP; destruct (high three vol be); reflexivity. }
  destruct (high three vol be) eqn:Hh.
  - (* above the level *)
    assert (NLe : ~ low e) by (intros [b [H1 H2]]; congruence).
    assert (NMe : mem e (u_bus (h_super t)) = false) by (apply existsb_eqb_false; intros I; apply NLe; rewrite Forall_forall in R7; now apply R7).
    assert (CP : Forall2 (couples (u_bus (h_super t))) [e] [s]).
    { constructor; [|constructor]. exists k, x, p. sp; try assumption. }
    set (t1 := if fe then t else on_flags (flag_bus e) t).
    assert (Eq : (if negb fe then do t2 <- rec e t; (do s0 <- Ok s; Ok (on_super (add_art s0) t2)) else do s0 <- Ok s; Ok (on_super (fun u => add_art s0 (add_coupling e u)) t))
       = Ok (on_super (fun u => add_art s (add_coupling e u)) t1)).
    { unfold t1. destruct fe; cbn [negb]; [reflexivity|]. rewrite (CH e t be He Hh R1); [|unfold bflag; congruence|exact Fu]. rewrite R3. reflexivity. }
    rewrite NMe. cbn [negb andb]. rewrite At, Eq, bind_ok.
    assert (F1 : f_els k (h_flags (on_super (fun u => add_art s (add_coupling e u)) t1)) = f_els k (h_flags t)) by (unfold t1; destruct fe, k; reflexivity).
    rewrite F1, Ef, bind_ok. eexists. split; [reflexivity|].
    assert (B1 : forall q, bflag t1 q <-> bflag t q \/ q = e).
    { intros q. unfold t1. destruct fe.
      - split; [tauto|]. intros [H| ->]; [exact H|exact Nfe].
      - rewrite bflag_set. split; [intros [H|[H _]]; auto|]. intros [H| ->]; [tauto|]. right. split; [reflexivity|]. now rewrite (proj1 R1). }
    assert (L1 : lens (h_flags t1)) by (unfold t1; destruct fe; [exact R1|now apply flag_bus_lens]).
    apply (ext_el t _ p e k x s [e] [s]); try assumption.
    + intros q Hq. assert (X : bflag t1 q) by (apply B1; now left). destruct k; exact X.
    + intros q Lq Hq. assert (X : bflag t1 q) by (destruct k; exact Hq). apply B1 in X as [X| ->]; [exact X|contradiction].
    + assert (X : bflag t1 e) by (apply B1; now right). destruct k; exact X.
    + apply flag_el_lens. exact L1.
    + intros k' y. rewrite (eflag_set (on_super (fun u => add_art s (add_coupling e u)) t1) k x k' y).
      assert (X : forall k' y, eflag (on_super (fun u => add_art s (add_coupling e u)) t1) k' y <-> eflag t k' y).
      { intros k2 y2. unfold eflag, t1. destruct fe, k2; cbn; tauto. }
      rewrite X. assert (Y : length (f_els k' (h_flags (on_super (fun u => add_art s (add_coupling e u)) t1))) = length (els k' N)).
      { replace (f_els k' (h_flags (on_super (fun u => add_art s (add_coupling e u)) t1))) with (f_els k' (h_flags t)) by (unfold t1; destruct fe, k'; reflexivity). apply R1. }
      rewrite Y. split; [tauto|]. intros [H|[H1 H2]]; [tauto|]. right. subst. tauto.
    + unfold t1. destruct fe, k; reflexivity.
    + intros k'. unfold t1. destruct fe, k, k'; cbn; try reflexivity; now rewrite app_nil_r.
    + unfold t1. destruct fe, k; reflexivity.
    + unfold t1. destruct fe, k; reflexivity.
    + unfold t1. destruct fe, k; exact R3.
    + now rewrite Cr.
  - assert (Lowe : low e) by (exists be; now split). cbn [andb]. destruct fe; cbn [negb].
    + (* seen before *)
      rewrite bind_ok, Ef, bind_ok. eexists. split; [reflexivity|]. apply (ext_el t _ p e k x s [] []); try assumption.
      * intros q Hq. destruct k; exact Hq.
      * intros q Lq Hq. destruct k; exact Hq.
      * destruct k; exact Nfe.
      * now apply flag_el_lens.
      * intros k' y. rewrite (eflag_set t k x k' y). rewrite (proj2 R1 k'). split; [tauto|]. intros [H|[H1 H2]]; [tauto|]. right. subst. tauto.
      * destruct k; reflexivity.
      * intros k'. destruct k, k'; cbn; try reflexivity; now rewrite app_nil_r.
      * destruct k; cbn; now rewrite app_nil_r.
      * destruct k; cbn; now rewrite app_nil_r.
      * constructor.
      * now rewrite Cr.
    + destruct (CO e t Lowe R1 R2 R7) as [t' [Et [Xt [Done [On [Be Ue]]]]]]; [unfold bflag; congruence|exact Fu|].
      rewrite Et, !bind_ok. assert (I : inc k x e) by (exists s; now split). pose proof (Done k x I) as Fx. unfold eflag in Fx.
      unfold at_. rewrite Fx, bind_ok. exists t'. split; [reflexivity|]. split; [|exact Fx].
      apply (exts_root p e); [|exact Xt]. apply rt_step. split; [exact R6|]. split; [exact Lowe|]. exists k, x. split; [exists s; now split|exact I].
Qed.

Lemma exts_mono_bflag r t t' q : exts r t t' -> bflag t q -> bflag t' q.
Proof. intros [n [w [C [A E]]]] H. now apply (x_mono _ _ _ _ _ _ _ E). Qed.
Lemma fold_els fuel rec p k : call_ok fuel rec -> call_high fuel rec -> forall xs t, ready p t -> unfl (f_bus (h_flags t)) <= fuel ->
  (forall x, In x xs -> exists s, nth_error (els k N) x = Some s /\ In p (s_pos s)) ->
  exists t', foldM (el_step rec p k) xs t = Ok t' /\ exts p t t' /\ forall x, In x xs -> eflag t' k x.
Proof.
  intros CO CH. induction xs as [|x xs IH]; intros t R Fu H.
  - exists t. split; [reflexivity|]. split; [apply exts_refl|intros x []].
  - destruct (H x (or_introl eq_refl)) as [s [Hs Hp]]. destruct (el_step_ok fuel rec p k t x s CO CH R Fu Hs Hp) as [t1 [E1 [X1 F1]]].
    destruct (IH t1) as [t2 [E2 [X2 F2]]].
    + now apply (ready_ext p p t).
    + apply Nat.le_trans with (unfl (f_bus (h_flags t))); [|exact Fu]. apply (exts_unfl p); [apply R|exact X1].
    + intros y Hy. apply H. now right.
    + exists t2. split; [cbn [foldM]; now rewrite E1, bind_ok|]. split; [now apply (exts_trans p t t1 t2)|].
      intros y [<-|Hy]; [now apply (exts_eflag p t1 t2)|now apply F2].
Qed.
Lemma inc_sref k b p x : nth_error (n_bus N) p = Some b -> (In x (sref k (b_pos b)) <-> inc k x p).
Proof.
  intros Hb. rewrite (sref_in N S W k b (nth_error_In _ _ Hb)). split; intros [s [Hs H]]; exists s; (split; [exact Hs|]).
  - apply (s_pos_in N S W k s (nth_error_In _ _ Hs)). now exists b.
  - apply (s_pos_in N S W k s (nth_error_In _ _ Hs)) in H as [b' [Hb' H]]. rewrite Hb in Hb'. injection Hb' as <-. exact H.
Qed.
Lemma check_positions_ok fuel rec p k t : call_ok fuel rec -> call_high fuel rec -> ready p t -> unfl (f_bus (h_flags t)) <= fuel ->
  exists t', check_positions three vol N rec p t k = Ok t' /\ exts p t t' /\ forall x, inc k x p -> eflag t' k x.
Proof.
  intros CO CH R Fu. assert (Lp : low p) by apply R. destruct Lp as [b [Hb _]].
  destruct (fold_els fuel rec p k CO CH (sref k (b_pos b)) t R Fu) as [t' [E [X F]]].
  { intros x Hx. apply (inc_sref k b p x Hb) in Hx as [s Hs]. now exists s. }
  unfold check_positions. destruct (els k N) as [|s0 l0] eqn:El.
  - exists t. split; [reflexivity|]. split; [apply exts_refl|]. intros x [s [Hs _]]. rewrite El in Hs. destruct x; discriminate.
  - exists t'. split; [|split; [exact X|]].
    + unfold at_ at 1. rewrite Hb, bind_ok. rewrite <- El. exact E.
    + intros x Hx. apply F. now apply (inc_sref k b p x Hb).
Qed.
Lemma never_disconnected b : is_disconnected b = false.
Proof. unfold is_disconnected. destruct (r_lines (b_pos b)); reflexivity. Qed.

Lemma track_ok : forall fuel, call_ok fuel (track three vol N fuel) /\ call_high fuel (track three vol N fuel).
Proof.
  assert (PosFu : forall t p, lens (h_flags t) -> p < length (n_bus N) -> ~ bflag t p -> 0 < unfl (f_bus (h_flags t)) /\ nth_error (f_bus (h_flags t)) p = Some false).
  { intros t p L Lp NB. destruct (bus_flag t p L Lp) as [f [_ Nf]]. assert (f = false) by (destruct f; [contradiction|reflexivity]). subst f. split; [|exact Nf].
    pose proof (unfl_set _ _ Nf). lia. }
  induction fuel as [|fuel [CO CH]]; split.
  - intros p t Lp L _ _ NB Fu. destruct (PosFu t p L (low_lt p Lp) NB). lia.
  - intros p t b Hb _ L NB Fu. destruct (PosFu t p L) as [X _]; [apply nth_error_Some; congruence|exact NB|]. lia.
  - intros p t Lp L En Lo NB Fu. destruct (PosFu t p L (low_lt p Lp) NB) as [_ Nf]. pose proof Lp as [b [Hb Hh]].
    cbn [track]. unfold at_ at 1. rewrite Hb, bind_ok, Hh. unfold at_ at 1. rewrite Nf, bind_ok, never_disconnected.
    set (t0 := mkSearch (h_flags (on_flags (flag_bus p) t)) (add_bus p (h_super (on_flags (flag_bus p) t))) true).
    assert (B0 : forall q, bflag t0 q <-> bflag t q \/ q = p).
    { intros q. unfold t0. change (bflag (on_flags (flag_bus p) t) q <-> bflag t q \/ q = p). rewrite bflag_set. split; [intros [H|[H _]]; auto|].
      intros [H| ->]; [tauto|]. right. split; [reflexivity|]. rewrite (proj1 L). now apply low_lt. }
    assert (E0 : forall k x, eflag t0 k x <-> eflag t k x) by (intros k x; unfold eflag; destruct k; cbn; tauto).
    assert (R0 : ready p t0).
    { unfold ready. sp.
      - now apply flag_bus_lens.
      - intros k x q Hx Iq. apply B0. left. apply (En k x q); [now apply E0|exact Iq].
      - reflexivity.
      - cbn. apply in_or_app. right. now left.
      - apply B0. now right.
      - exact Lp.
      - cbn. apply Forall_app. split; [exact Lo|]. constructor; [exact Lp|constructor]. }
    assert (Fu0 : unfl (f_bus (h_flags t0)) <= fuel) by (pose proof (unfl_set _ _ Nf); change (f_bus (h_flags t0)) with (set_nth p true (f_bus (h_flags t))); lia).
    destruct (check_positions_ok fuel (track three vol N fuel) p Lines t0 CO CH R0 Fu0) as [t1 [E1 [X1 D1]]].
    destruct (check_positions_ok fuel (track three vol N fuel) p Trafos t1 CO CH) as [t2 [E2 [X2 D2]]].
    { now apply (ready_ext p p t0). }
    { apply Nat.le_trans with (unfl (f_bus (h_flags t0))); [|exact Fu0]. apply (exts_unfl p); [apply R0|exact X1]. }
    exists t2. split; [unfold series_kinds; cbn [foldM]; now rewrite E1, bind_ok, E2, bind_ok|].
    assert (Done : forall k x, inc k x p -> eflag t2 k x) by (intros [] x I; [apply (exts_eflag p t1); [exact X2|now apply D1]|now apply D2]).
    pose proof (exts_trans p t0 t1 t2 X1 X2) as X. pose proof (ready_ext p p t0 t2 R0 X) as R2.
    split; [|split; [exact Done|split; [apply R2|split; apply R2]]].
    destruct X as [n [w [C [A E]]]]. exists (p :: n), w, C, A. constructor.
    + rewrite (x_bus _ _ _ _ _ _ _ E). cbn. now rewrite <- app_assoc.
    + intros k. rewrite (x_els _ _ _ _ _ _ _ E). destruct k; reflexivity.
    + now rewrite (x_cou _ _ _ _ _ _ _ E).
    + now rewrite (x_art _ _ _ _ _ _ _ E).
    + intros _. apply R2.
    + intros _. apply R2.
    + intros q Hq. apply (x_mono _ _ _ _ _ _ _ E). apply B0. now left.
    + intros q Hq Lq. destruct (x_low _ _ _ _ _ _ _ E q Hq Lq) as [H|H]; [|right; now right]. apply B0 in H as [H| ->]; [now left|right; now left].
    + intros q [<-|Hq].
      * sp; [exact Lp|exact NB| |apply rt_refl]. apply (x_mono _ _ _ _ _ _ _ E). apply B0. now right.
      * destruct (x_new _ _ _ _ _ _ _ E q Hq) as [H1 [H2 [H3 H4]]]. sp; try assumption. intros H. apply H2. apply B0. now left.
    + constructor; [|apply (x_nodup _ _ _ _ _ _ _ E)]. intros Hq. destruct (x_new _ _ _ _ _ _ _ E p Hq) as [_ [H2 _]]. apply H2. apply B0. now right.
    + intros k x. rewrite (x_el _ _ _ _ _ _ _ E), E0. tauto.
    + intros k x Hx. destruct (x_elnew _ _ _ _ _ _ _ E k x Hx) as [H1 H2]. split; [|exact H2]. intros H. apply H1. now apply E0.
    + apply (x_elnodup _ _ _ _ _ _ _ E).
    + intros q k x [<-|Hq] I; [now apply Done|now apply (x_done _ _ _ _ _ _ _ E q)].
    + intros _. apply R2.
    + exact (x_pair _ _ _ _ _ _ _ E).
    + exact (x_cross _ _ _ _ _ _ _ E).
  - intros p t b Hb Hh L NB Fu. cbn [track]. unfold at_ at 1. rewrite Hb, bind_ok, Hh. destruct (h_on t); reflexivity.
Qed.

(** *** All searches *)
(** A supernode: a connected part of the buses below the level, with the elements at them and the buses they lead to. *)
Record super_ok (u : super) : Prop := mkSuperOk {
  so_part : exists root, In root (u_bus u) /\ forall q, In q (u_bus u) <-> low q /\ lconn root q;
  so_el : forall k x, In x (u_els k u) <-> exists q, inc k x q /\ In q (u_bus u);
  so_pair : Forall2 (couples (u_bus u)) (u_coupling u) (u_art u);
  so_cross : Permutation (u_art u) (crossing (fun k => u_els k u)) }.
Record inv (f : flags) (U : list super) : Prop := mkInv {
  i_len : lens f;
  i_ended : ended (mkSearch f no_super false);
  i_closed : forall p k x, low p -> nth_error (f_bus f) p = Some true -> inc k x p -> nth_error (f_els k f) x = Some true;
  i_bus : forall p, low p -> (nth_error (f_bus f) p = Some true <-> In p (flat_map u_bus U));
  i_low : forall p, In p (flat_map u_bus U) -> low p;
  i_nodup : NoDup (flat_map u_bus U);
  i_el : forall k x, nth_error (f_els k f) x = Some true <-> In x (flat_map (u_els k) U);
  i_elnodup : forall k, NoDup (flat_map (u_els k) U);
  i_sup : Forall super_ok U }.

Lemma lconn_low root q : low root -> lconn root q -> low q.
Proof. intros L H. apply clos_rt_rt1n in H. induction H as [|x y z [_ [Ly _]] _ IH]; [exact L|now apply IH]. Qed.
Lemma nodup_app {A} (l m : list A) : NoDup l -> NoDup m -> (forall x, In x l -> ~ In x m) -> NoDup (l ++ m).
Proof.
  intros N1 N2 D. induction l as [|x l IH]; cbn; [exact N2|]. apply NoDup_cons_iff in N1 as [Hx N1]. constructor.
  - rewrite in_app_iff. intros [I|I]; [contradiction|]. apply (D x); [now left|exact I].
  - apply IH; [exact N1|]. intros p Hp. apply D. now right.
Qed.
Definition super_step (st : flags * list super) (p : nat) : res (flags * list super) :=
  do f <- at_ (f_bus (fst st)) p;
  if f then Ok st
  else do t <- track three vol N (Datatypes.S (length (n_bus N))) p (mkSearch (fst st) no_super false);
       Ok (h_flags t, if h_on t then snd st ++ [h_super t] else snd st).
Lemma step_ok f U p : inv f U -> p < length (n_bus N) ->
  exists f' U', super_step (f, U) p = Ok (f', U') /\ inv f' U' /\ nth_error (f_bus f') p = Some true /\
    (forall q, nth_error (f_bus f) q = Some true -> nth_error (f_bus f') q = Some true).
Proof.
  intros I Lp. set (t := mkSearch f no_super false). destruct (bus_flag t p (i_len f U I) Lp) as [b [Eb Nb]]. unfold super_step. cbn [fst snd] in *. cbn [h_flags t] in Eb, Nb.
  rewrite Eb, bind_ok. destruct b.
  { exists f, U. sp; [reflexivity|exact I|exact Nb|tauto]. }
  assert (NB : ~ bflag t p) by (unfold bflag; cbn; congruence).
  assert (Fu : unfl (f_bus (h_flags t)) <= Datatypes.S (length (n_bus N))).
  { unfold unfl. rewrite <- (proj1 (i_len f U I)). apply Nat.le_trans with (length (f_bus f)); [|lia]. cbn. clear. induction (f_bus f) as [|[] l IH]; cbn [filter negb length]; lia. }
  destruct (track_ok (Datatypes.S (length (n_bus N)))) as [CO CH]. fold t.
  destruct (nth_error (n_bus N) p) as [bp|] eqn:Hb; [|apply nth_error_None in Hb; lia].
  destruct (high three vol bp) eqn:Hh.
  - rewrite (CH p t bp Hb Hh (i_len f U I) NB Fu), bind_ok. cbn [h_on t h_flags on_flags]. exists (flag_bus p f), U. split; [reflexivity|].
    assert (NL : ~ low p) by (intros [b' [H1 H2]]; congruence).
    assert (B : forall q, nth_error (f_bus (flag_bus p f)) q = Some true <-> nth_error (f_bus f) q = Some true \/ q = p).
    { intros q. pose proof (bflag_set t p q) as X. unfold bflag in X. cbn [h_flags t on_flags] in X. rewrite X, (proj1 (i_len f U I)). split; [intros [H|[H _]]; auto|].
      intros [H| ->]; auto. }
    split; [|split; [apply B; now right|intros q Hq; apply B; now left]]. constructor.
    + apply flag_bus_lens, (i_len f U I).
    + intros k x q Hx Iq. apply B. left. apply (i_ended f U I k x q); [|exact Iq]. destruct k; exact Hx.
    + intros q k x Lq Hq Iq. apply B in Hq as [Hq| ->]; [|contradiction]. pose proof (i_closed f U I q k x Lq Hq Iq) as X. destruct k; exact X.
    + intros q Lq. rewrite B, <- (i_bus f U I q Lq). split; [|tauto]. intros [H| ->]; [exact H|contradiction].
    + exact (i_low f U I).
    + exact (i_nodup f U I).
    + intros k x. rewrite <- (i_el f U I k x). destruct k; cbn; tauto.
    + exact (i_elnodup f U I).
    + exact (i_sup f U I).
  - assert (L : low p) by (exists bp; now split). destruct (CO p t L (i_len f U I) (i_ended f U I) (Forall_nil _) NB Fu) as [t' [Et [[n [w [C [A E]]]] [_ [On [Bp Up]]]]]].
    rewrite Et, bind_ok, On. exists (h_flags t'), (U ++ [h_super t']). split; [reflexivity|].
    assert (UB : u_bus (h_super t') = n) by (rewrite (x_bus _ _ _ _ _ _ _ E); reflexivity).
    assert (UE : forall k, u_els k (h_super t') = w k) by (intros k; rewrite (x_els _ _ _ _ _ _ _ E); destruct k; reflexivity).
    assert (UC : u_coupling (h_super t') = C) by (rewrite (x_cou _ _ _ _ _ _ _ E); reflexivity).
    assert (UA : u_art (h_super t') = A) by (rewrite (x_art _ _ _ _ _ _ _ E); reflexivity).
    assert (En : ended t') by (apply (x_ended _ _ _ _ _ _ _ E), (i_ended f U I)).
    assert (Ls : lens (h_flags t')) by (apply (x_len _ _ _ _ _ _ _ E), (i_len f U I)).
    assert (Cl : forall q k x, low q -> bflag t' q -> inc k x q -> eflag t' k x).
    { intros q k x Lq Hq Iq. destruct (x_low _ _ _ _ _ _ _ E q Hq Lq) as [H|H]; [|now apply (x_done _ _ _ _ _ _ _ E q)].
      apply (x_el _ _ _ _ _ _ _ E). left. exact (i_closed f U I q k x Lq H Iq). }
    assert (Part : forall q, In q n <-> low q /\ lconn p q).
    { intros q. split; [intros H; destruct (x_new _ _ _ _ _ _ _ E q H); tauto|]. intros [_ H].
      pose proof (x_done _ _ _ _ _ _ _ E) as XD. pose proof (x_low _ _ _ _ _ _ _ E) as XL.
      assert (XN : forall q, In q n -> ~ bflag t q) by (intros r Hr; destruct (x_new _ _ _ _ _ _ _ E r Hr); tauto).
      rewrite UB in Up. clear -I XD XL XN En Up H S W. apply clos_rt_rt1n in H. revert Up. induction H as [q|q r z [Lq [Lr [k [x [I1 I2]]]]] _ IH]; intros Hq; [exact Hq|].
      apply IH. pose proof (XD q k x Hq I1) as Fx. pose proof (En k x r Fx I2) as Br.
      destruct (XL r Br Lr) as [H|H]; [|exact H]. exfalso.
      pose proof (i_closed f U I r k x Lr H I2) as Fx'. pose proof (i_ended f U I k x q Fx' I1) as Bq. now apply (XN q Hq). }
    split; [|split; [exact Bp|intros q Hq; exact (x_mono _ _ _ _ _ _ _ E q Hq)]]. constructor.
    + exact Ls.
    + exact En.
    + exact Cl.
    + intros q Lq. rewrite flat_map_app, in_app_iff. cbn [flat_map]. rewrite app_nil_r, UB. rewrite <- (i_bus f U I q Lq). split.
      * intros H. destruct (x_low _ _ _ _ _ _ _ E q H Lq); tauto.
      * intros [H|H]; [exact (x_mono _ _ _ _ _ _ _ E q H)|]. destruct (x_new _ _ _ _ _ _ _ E q H); tauto.
    + intros q Hq. rewrite flat_map_app in Hq. apply in_app_or in Hq as [Hq|Hq]; [now apply (i_low f U I)|]. cbn [flat_map] in Hq. rewrite app_nil_r, UB in Hq.
      now apply (x_new _ _ _ _ _ _ _ E).
    + rewrite flat_map_app. cbn [flat_map]. rewrite app_nil_r, UB. apply nodup_app; [exact (i_nodup f U I)|exact (x_nodup _ _ _ _ _ _ _ E)|].
      intros q H1 H2. destruct (x_new _ _ _ _ _ _ _ E q H2) as [Lq [X _]]. apply X. apply (i_bus f U I q Lq). exact H1.
    + intros k x. rewrite flat_map_app, in_app_iff. cbn [flat_map]. rewrite app_nil_r, UE, <- (i_el f U I k x). exact (x_el _ _ _ _ _ _ _ E k x).
    + intros k. rewrite flat_map_app. cbn [flat_map]. rewrite app_nil_r, UE. apply nodup_app; [exact (i_elnodup f U I k)|exact (x_elnodup _ _ _ _ _ _ _ E k)|].
      intros x H1 H2. destruct (x_elnew _ _ _ _ _ _ _ E k x H2) as [X _]. apply X. exact (proj2 (i_el f U I k x) H1).
    + apply Forall_app. split; [exact (i_sup f U I)|]. constructor; [|constructor]. constructor.
      * exists p. split; [exact Up|]. now rewrite UB.
      * intros k x. rewrite UE, UB. split.
        -- intros H. destruct (x_elnew _ _ _ _ _ _ _ E k x H) as [_ [q [H1 H2]]]. exists q. split; [exact H1|now rewrite <- UB].
        -- intros [q [H1 H2]]. pose proof (x_done _ _ _ _ _ _ _ E q k x H2 H1) as H. apply (x_el _ _ _ _ _ _ _ E) in H as [H|H]; [|exact H]. exfalso.
           destruct (x_new _ _ _ _ _ _ _ E q H2) as [_ [X _]]. apply X. exact (i_ended f U I k x q H H1).
      * pose proof (x_pair _ _ _ _ _ _ _ E) as X. now rewrite UC, UA.
      * rewrite UA. pose proof (x_cross _ _ _ _ _ _ _ E) as X. unfold crossing in *. now rewrite !UE.
Qed.

Theorem supers_ok : exists f U, find_supers three vol N = Ok (f, U) /\ inv f U /\ forall p, p < length (n_bus N) -> nth_error (f_bus f) p = Some true.
Proof.
  change (exists f U, foldM super_step (seq 0 (length (n_bus N)))
    (mkFlags (map (fun _ => false) (n_bus N)) (map (fun _ => false) (n_lines N)) (map (fun _ => false) (n_trafos N)), []) = Ok (f, U) /\ inv f U /\
    forall p, p < length (n_bus N) -> nth_error (f_bus f) p = Some true).
  assert (G : forall xs f U, inv f U -> Forall (fun p => p < length (n_bus N)) xs -> exists f' U', foldM super_step xs (f, U) = Ok (f', U') /\ inv f' U' /\
    (forall p, In p xs -> nth_error (f_bus f') p = Some true) /\ (forall q, nth_error (f_bus f) q = Some true -> nth_error (f_bus f') q = Some true)).
  { induction xs as [|x xs IH]; intros f U I F.
    - exists f, U. sp; [reflexivity|exact I|intros p []|tauto].
    - apply Forall_cons_iff in F as [Lx F]. destruct (step_ok f U x I Lx) as [f1 [U1 [E1 [I1 [B1 M1]]]]]. destruct (IH f1 U1 I1 F) as [f2 [U2 [E2 [I2 [B2 M2]]]]].
      exists f2, U2. sp; [cbn [foldM]; now rewrite E1, bind_ok|exact I2| |].
      + intros p [<-|Hp]; [now apply M2|now apply B2].
      + intros q Hq. now apply M2, M1. }
  destruct (G (seq 0 (length (n_bus N))) (mkFlags (map (fun _ => false) (n_bus N)) (map (fun _ => false) (n_lines N)) (map (fun _ => false) (n_trafos N))) []) as [f [U [E [I [B _]]]]].
  - assert (Z : forall A (l : list A) p, nth_error (map (fun _ => false) l) p <> Some true).
    { intros A l. induction l as [|y l IH]; intros [|p]; cbn; try discriminate. apply IH. }
    assert (Z' : forall k p, nth_error (f_els k (mkFlags (map (fun _ => false) (n_bus N)) (map (fun _ => false) (n_lines N)) (map (fun _ => false) (n_trafos N)))) p <> Some true) by (intros [] p; apply Z).
    constructor.
    + split; [apply map_length|]. intros []; apply map_length.
    + intros k x q Hx. now contradiction (Z' k x).
    + intros p k x _ H. now contradiction (Z _ _ _ H).
    + intros p _. split; [intros H; now contradiction (Z _ _ _ H)|intros []].
    + intros p [].
    + constructor.
    + intros k x. split; [intros H; now contradiction (Z' k x)|intros []].
    + intros k. constructor.
    + constructor.
  - apply Forall_forall. intros p Hp. apply in_seq in Hp. lia.
  - exists f, U. sp; [exact E|exact I|]. intros p Hp. apply B. apply in_seq. lia.
Qed.
End Track.
