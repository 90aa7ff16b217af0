(** Putting the supernodes back into the network: artificial buses and lines, demand moved to coupling buses. *)
From Coq Require Import List ZArith QArith Bool Lia Arith Permutation Setoid Lqa.
From Verif Require Import Base GraphData Network Cases InputOutputProofs HydroTables ConverterOpen Parameters Analyser Reduction AnalyserSpec GraphDataProofs ParametersProofs.
Import ListNotations.
Open Scope list_scope.
Open Scope nat_scope.

Definition multi (u : super) : bool := 1 <? length (u_coupling u).
(** The lines of an artificial bus. *)
Definition art_lines (no line : nat) (u : super) (x : worth) : list series :=
  map (fun ica => mkSeries (line + fst ica) 0 [b_no (fst (snd ica)); no] [] true (s_b (snd (snd ica))) (s_r (snd (snd ica))) (s_x (snd (snd ica))) (s_limit (snd (snd ica))) (s_ntl (snd (snd ica))))
    (combine (seq 0 (length (u_coupling u))) (combine (w_coupling x) (u_art u))).
(** The numbers given to the supernodes that become buses. *)
Fixpoint plan (no line : nat) (UX : list (super * worth)) : list (nat * nat * (super * worth)) :=
  match UX with
  | [] => []
  | ux :: r => if multi (fst ux) then (no, line, ux) :: plan (S no) (line + length (u_coupling (fst ux))) r else plan no line r
  end.
Definition plan_lines (e : nat * nat * (super * worth)) : list series := art_lines (fst (fst e)) (snd (fst e)) (fst (snd e)) (snd (snd e)).
Definition node_ok (e : nat * nat * (super * worth)) (b : bus) : Prop :=
  b_no b = fst (fst e) /\ b_kv b = 0%Q /\ b_p b = w_p (snd (snd e)) /\ b_q b = w_q (snd (snd e)) /\ b_ntl b = w_ntl (snd (snd e)) /\
  r_lines (b_nos b) = map s_no (plan_lines e) /\ r_trafos (b_nos b) = [] /\ b_zone b = w_zone (snd (snd e)).
(** What a supernode needs: as many coupling buses as lines to them, at least one, and the coupling buses are there. *)
Definition fit (nos : list nat) (ux : super * worth) : Prop :=
  length (w_coupling (snd ux)) = length (u_coupling (fst ux)) /\ length (u_art (fst ux)) = length (u_coupling (fst ux)) /\ u_coupling (fst ux) <> [] /\
  Forall (fun c => In (b_no c) nos) (w_coupling (snd ux)) /\ Forall (fun s => exists a b, s_ends s = [a; b]) (u_art (fst ux)).
(** The bus to which a supernode with one coupling bus goes. *)
Definition goes (a : nat) (ux : super * worth) : bool :=
  negb (multi (fst ux)) && match w_coupling (snd ux) with c :: _ => b_no c =? a | [] => false end.

(** Where the generators of the supernodes go. *)
Fixpoint targets (no : nat) (UX : list (super * worth)) : list (nat * super) :=
  match UX with
  | [] => []
  | (u, x) :: r => if multi u then (no, u) :: targets (S no) r else match w_coupling x with c :: _ => (b_no c, u) :: targets no r | [] => targets no r end
  end.
Definition k_gens (k : gkind) (w : work) : list gen := match k with Conv => k_conv w | Res => k_res w | Hydro => k_hydro w end.
Definition moved_all (T : list (nat * super)) (l : list gen) : list gen := fold_left (fun l d => moved (fst d) (snd d) l) T l.
(** An entry on an artificial line. *)
Definition line_entry (A : list series) (l : series) (e : entry) : Prop :=
  s_ends l = [y_from' e; y_to' e] /\ exists s, In s A /\ s_at s = y_old e /\ s_ends s = [y_from e; y_to e] /\
    s_b l = s_b s /\ s_r l = s_r s /\ s_x l = s_x s /\ s_limit l = s_limit s /\ s_ntl l = s_ntl s.

Lemma qsum_cons q l : qsum (q :: l) = (q + qsum l)%Q.
Proof. reflexivity. Qed.
Lemma qsum_set {A} (g : A -> Q) l i b b' : nth_error l i = Some b -> (qsum (map g (set_nth i b' l)) == qsum (map g l) + (g b' - g b))%Q.
Proof.
  revert i. induction l as [|a l IH]; intros [|i] H; try discriminate; cbn [nth_error] in H; cbn [set_nth map]; rewrite !qsum_cons.
  - injection H as ->. lra.
  - rewrite (IH i H). lra.
Qed.
Lemma Forall2_nth {A B} (R : A -> B -> Prop) l m i a b : Forall2 R l m -> nth_error l i = Some a -> nth_error m i = Some b -> R a b.
Proof.
  intros F. revert i. induction F as [|x y l m H _ IH]; intros [|i] H1 H2; try discriminate; cbn in H1, H2; [congruence|]. now apply (IH i).
Qed.
Lemma Forall2_impl' {A B} (R Q : A -> B -> Prop) l m : (forall a b, R a b -> Q a b) -> Forall2 R l m -> Forall2 Q l m.
Proof. intros H. induction 1; constructor; auto. Qed.
Lemma entry_incl A A' : (forall s, In s A -> In s A') -> forall l e, line_entry A l e -> line_entry A' l e.
Proof. intros H l e [H1 [s [H2 H3]]]. split; [exact H1|]. exists s. split; [now apply H|exact H3]. Qed.
Lemma set_set {A} i (a b : A) l : set_nth i a (set_nth i b l) = set_nth i a l.
Proof. revert i. induction l as [|x l IH]; intros [|i]; cbn; try reflexivity. now rewrite IH. Qed.
Lemma map_set {A B} (g : A -> B) i a b l : nth_error l i = Some b -> g a = g b -> map g (set_nth i a l) = map g l.
Proof. revert i. induction l as [|x l IH]; intros [|i] H E; try discriminate; cbn in H |- *; [injection H as ->; now rewrite E|]. now rewrite (IH i H E). Qed.
Lemma nth_combine {A B} (l : list A) (m : list B) i a b : nth_error l i = Some a -> nth_error m i = Some b -> nth_error (combine l m) i = Some (a, b).
Proof. revert m i. induction l as [|x l IH]; intros [|y m] [|i] H1 H2; try discriminate; cbn in *; [congruence|]. now apply IH. Qed.
Lemma nth_seq i n : i < n -> nth_error (seq 0 n) i = Some i.
Proof. intros H. rewrite nth_error_nth' with (d := 0) by (rewrite seq_length; exact H). now rewrite seq_nth. Qed.

Lemma new_lines_ok nos no line u x : fit nos (u, x) -> exists ls, new_lines no line u x = Ok ls /\ map fst ls = art_lines no line u x /\
  Forall2 (line_entry (u_art u)) (map fst ls) (map snd ls).
Proof.
  intros [L1 [L2 [_ [_ FE]]]]. cbn [fst snd] in *. rewrite Forall_forall in FE. unfold new_lines, art_lines.
  assert (G : forall n is, (forall i, In i is -> i < length (u_coupling u)) -> is = seq n (length is) ->
    exists ls, mapM (fun i => do a <- at_ (u_art u) i; do c <- at_ (w_coupling x) i; do f <- at_ (s_ends a) 0; do t <- at_ (s_ends a) 1;
      Ok (mkSeries (line + i) 0 [b_no c; no] [] true (s_b a) (s_r a) (s_x a) (s_limit a) (s_ntl a), mkEntry (s_at a) f t 0 (b_no c) no)) is = Ok ls /\
      Forall2 (fun i p => exists a c, nth_error (u_art u) i = Some a /\ nth_error (w_coupling x) i = Some c /\
         fst p = mkSeries (line + i) 0 [b_no c; no] [] true (s_b a) (s_r a) (s_x a) (s_limit a) (s_ntl a) /\ y_old (snd p) = s_at a /\ s_ends a = [y_from (snd p); y_to (snd p)] /\ y_from' (snd p) = b_no c /\ y_to' (snd p) = no) is ls).
  { intros n is. revert n. induction is as [|i is IH]; intros n Lt E; [exists []; split; [reflexivity|constructor]|].
    cbn in E. injection E as -> E. destruct (IH (S n)) as [ls [El F]]; [intros j Hj; apply Lt; now right|exact E|].
    assert (Ln : n < length (u_coupling u)) by (apply Lt; now left).
    destruct (nth_error (u_art u) n) as [a|] eqn:Ea; [|apply nth_error_None in Ea; lia]. destruct (nth_error (w_coupling x) n) as [c|] eqn:Ec; [|apply nth_error_None in Ec; lia].
    destruct (FE a (nth_error_In _ _ Ea)) as [f [t Ends]].
    exists ((mkSeries (line + n) 0 [b_no c; no] [] true (s_b a) (s_r a) (s_x a) (s_limit a) (s_ntl a), mkEntry (s_at a) f t 0 (b_no c) no) :: ls). split.
    - apply mapM_Ok. constructor; [|now apply mapM_Ok]. unfold at_. rewrite Ea, bind_ok, Ec, bind_ok, Ends. reflexivity.
    - constructor; [|exact F]. exists a, c. cbn. sp; try reflexivity; try assumption. }
  destruct (G 0 (seq 0 (length (u_coupling u)))) as [ls [El F]]; [intros i Hi; apply in_seq in Hi; lia|now rewrite seq_length|].
  exists ls. split; [exact El|]. split.
  - apply nth_error_ext. intros i. rewrite !nth_error_map. destruct (Nat.lt_ge_cases i (length (u_coupling u))) as [Li|Li].
    + pose proof (nth_seq i _ Li) as Es. destruct (nth_error ls i) as [p|] eqn:Ep.
      2:{ apply nth_error_None in Ep. apply Forall2_length in F. rewrite seq_length in F. lia. }
      assert (X : exists a c, nth_error (u_art u) i = Some a /\ nth_error (w_coupling x) i = Some c /\ fst p = mkSeries (line + i) 0 [b_no c; no] [] true (s_b a) (s_r a) (s_x a) (s_limit a) (s_ntl a)).
      { destruct (Forall2_nth _ _ _ i i p F Es Ep) as [a [c H]]. exists a, c. tauto. }
      destruct X as [a [c [Ea [Ec Ef]]]]. cbn [option_map]. rewrite (nth_combine _ _ i i (c, a) Es (nth_combine _ _ i c a Ec Ea)). cbn [option_map fst snd]. now rewrite Ef.
    + assert (X : nth_error ls i = None) by (apply nth_error_None; apply Forall2_length in F; rewrite seq_length in F; lia). rewrite X.
      assert (Y : nth_error (combine (seq 0 (length (u_coupling u))) (combine (w_coupling x) (u_art u))) i = None) by (apply nth_error_None; rewrite combine_length, seq_length; lia). now rewrite Y.
  - assert (G2 : forall p, In p ls -> line_entry (u_art u) (fst p) (snd p)).
    { intros p Hp. destruct (Forall2_In_r _ _ _ p F Hp) as [i [_ [a [c [Ea [Ec [Ef [H1 [H2 [H3 H4]]]]]]]]]]. rewrite Ef. split; [cbn; congruence|]. exists a. cbn. sp; try reflexivity; try assumption; [now apply nth_error_In in Ea|congruence]. }
    clear -G2. induction ls as [|p l IH]; [constructor|]. cbn. constructor; [apply G2; now left|]. apply IH. intros q Hq. apply G2. now right.
Qed.

(** The state of the loop against the network left. *)
Definition tidy (nos : list nat) (w : work) : Prop := map b_no (k_bus w) = nos /\ in_place b_at (k_bus w).

Lemma add_node_ok nos u x w : fit nos (u, x) -> exists w' b es, add_node u x w = Ok w' /\
  k_bus w' = k_bus w /\ k_nodes w' = k_nodes w ++ [b] /\ node_ok (k_node w, k_line w, (u, x)) b /\ k_new w' = k_new w ++ art_lines (k_node w) (k_line w) u x /\
  k_node w' = S (k_node w) /\ k_line w' = k_line w + length (u_coupling u) /\ k_inter w' = k_inter w ++ es /\ Forall2 (line_entry (u_art u)) (art_lines (k_node w) (k_line w) u x) es /\
  forall k, k_gens k w' = moved (k_node w) u (k_gens k w).
Proof.
  intros F. destruct (new_lines_ok nos (k_node w) (k_line w) u x F) as [ls [E [El En]]]. unfold add_node. rewrite E, bind_ok.
  assert (Len : length ls = length (u_coupling u)).
  { rewrite <- (map_length fst ls), El. unfold art_lines. rewrite map_length, !combine_length, seq_length. destruct F as [L1 [L2 _]]. cbn [fst snd] in *. lia. }
  do 3 eexists. split; [reflexivity|]. cbn [k_bus k_nodes k_new k_node k_line k_inter move_gens]. split; [reflexivity|]. split; [reflexivity|]. split; [|split; [now rewrite El|]].
  - unfold node_ok. cbn. sp; try reflexivity. unfold plan_lines. cbn [fst snd]. rewrite <- El, map_map. reflexivity.
  - split; [reflexivity|]. split; [now rewrite Len|]. split; [reflexivity|]. split; [now rewrite <- El|]. intros []; reflexivity.
Qed.

Definition merge_step (u : super) (x : worth) (w : work) (i : nat) : res work :=
  do c <- at_ (w_coupling x) 0;
  do b <- at_ (k_bus w) i;
  if b_no b =? b_no c then
    let B := set_nth i (add_demand x b) (k_bus w) in
    do y <- at_ B (b_at b);
    let B := set_nth (b_at b) (set_bus_nos (gen_nos (b_no b) u w (b_nos y)) y) B in
    Ok (move_gens (b_no b) u (set_bus w B))
  else Ok w.
Lemma merge_skip u x c r w is : w_coupling x = c :: r -> (forall i, In i is -> exists b, nth_error (k_bus w) i = Some b /\ b_no b <> b_no c) -> foldM (merge_step u x) is w = Ok w.
Proof.
  intros Ec. induction is as [|i is IH]; intros H; [reflexivity|]. cbn [foldM]. destruct (H i (or_introl eq_refl)) as [b [Hb D]].
  unfold merge_step at 1. rewrite Ec. unfold at_ at 1. cbn [nth_error]. rewrite bind_ok. unfold at_ at 1. rewrite Hb, bind_ok.
  destruct (Nat.eqb_spec (b_no b) (b_no c)) as [X|_]; [contradiction|]. rewrite bind_ok. apply IH. intros j Hj. apply H. now right.
Qed.
Lemma merge_ok nos u x w : fit nos (u, x) -> NoDup nos -> tidy nos w -> exists w' i b c r, merge_node u x w = Ok w' /\ w_coupling x = c :: r /\
  nth_error (k_bus w) i = Some b /\ b_no b = b_no c /\
  k_bus w' = set_nth i (set_bus_nos (gen_nos (b_no b) u w (b_nos b)) (add_demand x b)) (k_bus w) /\
  k_nodes w' = k_nodes w /\ k_new w' = k_new w /\ k_node w' = k_node w /\ k_line w' = k_line w /\ k_inter w' = k_inter w /\
  forall k, k_gens k w' = moved (b_no c) u (k_gens k w).
Proof.
  intros [L1 [L2 [NE [FC _]]]] ND [T1 T2]. cbn [fst snd] in *. destruct (w_coupling x) as [|c r] eqn:Ec; [destruct (u_coupling u); [congruence|discriminate]|].
  apply Forall_cons_iff in FC as [Hc _]. rewrite <- T1 in Hc. apply in_map_iff in Hc as [b [Eb Hb]]. apply In_nth_error in Hb as [i Hi].
  assert (Li : i < length (k_bus w)) by (apply nth_error_Some; congruence).
  assert (Uni : forall j bj, nth_error (k_bus w) j = Some bj -> b_no bj = b_no c -> j = i).
  { intros j bj Hj Ej. rewrite <- T1 in ND. apply (proj1 (NoDup_nth_error _) ND j i); [rewrite map_length; apply nth_error_Some; congruence|].
    rewrite !nth_error_map, Hj, Hi. cbn. congruence. }
  change (merge_node u x w) with (foldM (merge_step u x) (seq 0 (length (k_bus w))) w).
  replace (length (k_bus w)) with (i + S (length (k_bus w) - S i)) by lia. rewrite seq_app. cbn [seq]. rewrite foldM_app.
  rewrite (merge_skip u x c r w (seq 0 i) Ec).
  2:{ intros j Hj. apply in_seq in Hj. destruct (nth_error (k_bus w) j) as [bj|] eqn:Ej; [|apply nth_error_None in Ej; lia]. exists bj. split; [reflexivity|]. intros X. pose proof (Uni j bj Ej X). lia. }
  rewrite bind_ok. rewrite Nat.add_0_l. cbn [foldM]. 
  assert (St : merge_step u x w i = Ok (move_gens (b_no b) u (set_bus w (set_nth i (set_bus_nos (gen_nos (b_no b) u w (b_nos b)) (add_demand x b)) (k_bus w))))).
  { unfold merge_step. rewrite Ec. unfold at_ at 1. cbn [nth_error]. rewrite bind_ok. unfold at_ at 1. rewrite Hi, bind_ok, Eb, Nat.eqb_refl. rewrite (T2 i b Hi). unfold at_. rewrite nth_set_nth, Nat.eqb_refl, Hi, bind_ok. cbn zeta.
    rewrite set_set. reflexivity. }
  rewrite St, bind_ok. set (w' := move_gens (b_no b) u (set_bus w (set_nth i (set_bus_nos (gen_nos (b_no b) u w (b_nos b)) (add_demand x b)) (k_bus w)))).
  assert (Bus' : k_bus w' = set_nth i (set_bus_nos (gen_nos (b_no b) u w (b_nos b)) (add_demand x b)) (k_bus w)) by reflexivity.
  rewrite (merge_skip u x c r w' _ Ec).
  - exists w', i, b, c, r. sp; try reflexivity; try assumption. intros k. rewrite <- Eb. destruct k; reflexivity.
  - intros j Hj. apply in_seq in Hj. destruct (nth_error (k_bus w) j) as [bj|] eqn:Ej; [|apply nth_error_None in Ej; lia]. exists bj. split.
    + rewrite Bus', nth_set_nth. destruct (Nat.eqb_spec i j); [lia|exact Ej].
    + intros X. pose proof (Uni j bj Ej X). lia.
Qed.

(** The demand that comes to a bus. *)
Definition comes (g : worth -> Q) (a : nat) (UX : list (super * worth)) : Q := qsum (map (fun ux => if goes a ux then g (snd ux) else 0%Q) UX).
Definition stay_total (g : worth -> Q) (UX : list (super * worth)) : Q := qsum (map (fun ux => if multi (fst ux) then 0%Q else g (snd ux)) UX).
Definition same_but (UX : list (super * worth)) (b0 b : bus) : Prop :=
  b_no b = b_no b0 /\ b_kv b = b_kv b0 /\ b_zone b = b_zone b0 /\ r_lines (b_nos b) = r_lines (b_nos b0) /\ r_trafos (b_nos b) = r_trafos (b_nos b0) /\
  (b_p b == b_p b0 + comes w_p (b_no b0) UX)%Q /\ (b_q b == b_q b0 + comes w_q (b_no b0) UX)%Q /\ (b_ntl b == b_ntl b0 + comes w_ntl (b_no b0) UX)%Q.

Lemma place_all nos : NoDup nos -> forall UX w, Forall (fit nos) UX -> tidy nos w ->
  exists w' nodes es, foldM place UX w = Ok w' /\ tidy nos w' /\ Forall2 (same_but UX) (k_bus w) (k_bus w') /\
    k_nodes w' = k_nodes w ++ nodes /\ Forall2 node_ok (plan (k_node w) (k_line w) UX) nodes /\
    k_new w' = k_new w ++ flat_map plan_lines (plan (k_node w) (k_line w) UX) /\
    k_inter w' = k_inter w ++ es /\ Forall2 (line_entry (flat_map (fun ux => u_art (fst ux)) UX)) (flat_map plan_lines (plan (k_node w) (k_line w) UX)) es /\
    (forall k, k_gens k w' = moved_all (targets (k_node w) UX) (k_gens k w)) /\
    (qsum (map b_p (k_bus w')) == qsum (map b_p (k_bus w)) + stay_total w_p UX)%Q /\
    (qsum (map b_q (k_bus w')) == qsum (map b_q (k_bus w)) + stay_total w_q UX)%Q /\
    (qsum (map b_ntl (k_bus w')) == qsum (map b_ntl (k_bus w)) + stay_total w_ntl UX)%Q.
Proof.
  intros ND. induction UX as [|[u x] UX IH]; intros w F T.
  - exists w, [], []. split; [reflexivity|]. split; [exact T|]. split.
    { clear. induction (k_bus w) as [|b l IH]; constructor; [|exact IH]. unfold same_but, comes. cbn [map]. change (qsum []) with 0%Q. sp; try reflexivity; lra. }
    cbn [plan flat_map]. rewrite !List.app_nil_r. split; [reflexivity|]. split; [constructor|]. split; [reflexivity|]. split; [reflexivity|]. split; [constructor|]. split; [reflexivity|].
    unfold stay_total. cbn [map]. change (qsum []) with 0%Q. sp; lra.
  - apply Forall_cons_iff in F as [Fu F]. cbn [foldM]. unfold place at 1. cbn [fst snd]. cbn [plan fst]. fold (multi u). destruct (multi u) eqn:Mu.
    + destruct (add_node_ok nos u x w Fu) as [w1 [b [es1 [E1 [B1 [N1 [O1 [L1 [M1 [K1 [I1 [J1 G1]]]]]]]]]]]]. rewrite E1, bind_ok.
      destruct (IH w1 F) as [w2 [nodes [es [E2 [T2 [S2 [N2 [O2 [L2 [I2 [J2 [G2 [P1 [P2 P3]]]]]]]]]]]]]].
      { split; rewrite B1; apply T. }
      exists w2, (b :: nodes), (es1 ++ es). split; [exact E2|]. split; [exact T2|]. rewrite M1, K1 in *. rewrite B1 in *. split.
      { clear -S2 Mu. induction S2 as [|b0 b l l' H _ IH]; constructor; [|exact IH]. unfold same_but, comes in *. cbn [map]. unfold goes at 1 3 5. cbn [fst]. rewrite Mu. cbn [negb andb].
        rewrite !qsum_cons. destruct H as [H1 [H2 [H3 [H4 [H5 [H6 [H7 H8]]]]]]]. sp; try assumption; [rewrite H6|rewrite H7|rewrite H8]; lra. }
      split; [rewrite N2, N1, <- app_assoc; reflexivity|]. split; [constructor; [exact O1|exact O2]|]. split; [cbn [flat_map]; rewrite L2, L1, <- app_assoc; reflexivity|].
      split; [now rewrite I2, I1, <- app_assoc|]. split.
      { cbn [flat_map fst]. apply Forall2_app.
        - apply (Forall2_impl' _ _ _ _ (entry_incl _ _ (fun s H => in_or_app _ _ _ (or_introl H))) J1).
        - apply (Forall2_impl' _ _ _ _ (entry_incl _ _ (fun s H => in_or_app _ _ _ (or_intror H))) J2). }
      split; [intros k; cbn [targets]; rewrite Mu; cbn [moved_all fold_left fst snd]; rewrite (G2 k), (G1 k); reflexivity|].
      unfold stay_total in *. cbn [map fst]. rewrite Mu, !qsum_cons. rewrite P1, P2, P3. sp; lra.
    + destruct (merge_ok nos u x w Fu ND T) as [w1 [i [b [c [r [E1 [Ec [Hi [Eb [B1 [N1 [L1 [M1 [K1 [I1 G1]]]]]]]]]]]]]]]. rewrite E1, bind_ok.
      set (b' := set_bus_nos (gen_nos (b_no b) u w (b_nos b)) (add_demand x b)) in *.
      destruct (IH w1 F) as [w2 [nodes [es [E2 [T2 [S2 [N2 [O2 [L2 [I2 [J2 [G2 [P1 [P2 P3]]]]]]]]]]]]]].
      { destruct T as [T1 T3]. split; rewrite B1.
        - rewrite (map_set b_no i b' b _ Hi); [exact T1|reflexivity].
        - intros j y Hj. rewrite nth_set_nth in Hj. destruct (Nat.eqb_spec i j) as [->|D]; [|now apply T3]. rewrite Hi in Hj. injection Hj as <-. exact (T3 _ _ Hi). }
      exists w2, nodes, es. split; [exact E2|]. split; [exact T2|]. rewrite M1, K1 in *. rewrite N1 in N2. rewrite L1 in L2. rewrite I1 in I2.
      split; [|split; [exact N2|split; [exact O2|split; [exact L2|split; [exact I2|split; [exact (Forall2_impl' _ _ _ _ (entry_incl _ _ (fun s H => in_or_app _ _ _ (or_intror H))) J2)|
        split; [intros k; cbn [targets]; rewrite Mu, Ec; cbn [moved_all fold_left fst snd]; rewrite (G2 k), (G1 k); reflexivity|]]]]]]].
      * rewrite B1 in S2. destruct T as [T1 _].
        assert (Uni : forall j bj, nth_error (k_bus w) j = Some bj -> (b_no bj = b_no c <-> j = i)).
        { intros j bj Hj. split; [|intros ->; rewrite Hi in Hj; injection Hj as <-; exact Eb]. intros Ej. rewrite <- T1 in ND. apply (proj1 (NoDup_nth_error _) ND j i); [rewrite map_length; apply nth_error_Some; congruence|].
          rewrite !nth_error_map, Hj, Hi. cbn. congruence. }
        assert (G : forall l l' off, (forall j bj, nth_error l j = Some bj -> (b_no bj = b_no c <-> off + j = i)) ->
          (forall j, off + j = i -> nth_error l j = Some b \/ nth_error l j = None) ->
          Forall2 (same_but UX) (if off <=? i then set_nth (i - off) b' l else l) l' -> Forall2 (same_but ((u, x) :: UX)) l l').
        { clear -Mu Ec Eb. induction l as [|b0 l IH]; intros l' off H Hb F2.
          - assert (X : (if off <=? i then set_nth (i - off) b' [] else []) = @nil bus) by (destruct (off <=? i), (i - off); reflexivity). rewrite X in F2. inversion F2. constructor.
          - assert (Go : goes (b_no b0) (u, x) = (b_no c =? b_no b0)) by (unfold goes; cbn [fst snd]; now rewrite Mu, Ec).
            destruct (Nat.eq_dec off i) as [->|D].
            + rewrite Nat.leb_refl, Nat.sub_diag in F2. cbn [set_nth] in F2. inversion F2 as [|? b1 ? l1 Sb F2']; subst. 
              destruct (Hb 0 (Nat.add_0_r i)) as [Hb0|Hb0]; [|discriminate]. cbn in Hb0. injection Hb0 as ->. constructor.
              * unfold same_but, comes in *. cbn [map]. rewrite Go, Eb, Nat.eqb_refl. rewrite !qsum_cons. cbn [b_no b_kv b_p b_q b_ntl b_zone b_nos set_bus_nos add_demand b' gen_nos r_lines r_trafos snd] in Sb.
                destruct Sb as [H1 [H2 [H3 [H4 [H5 [H6 [H7 H8]]]]]]]. rewrite Eb in H6, H7, H8. sp; try (rewrite ?Eb in *; assumption); [rewrite H6|rewrite H7|rewrite H8]; cbn [snd]; lra.
              * apply (IH l1 (S i)).
                -- intros j bj Hj. rewrite (H (S j) bj Hj). lia.
                -- intros j Hj. lia.
                -- destruct (Nat.leb_spec (S i) i); [lia|exact F2'].
            + assert (Dn : b_no b0 <> b_no c) by (intros X; apply (H 0 b0 eq_refl) in X; lia).
              assert (X : (if off <=? i then set_nth (i - off) b' (b0 :: l) else b0 :: l) = b0 :: (if S off <=? i then set_nth (i - S off) b' l else l)).
              { destruct (Nat.leb_spec off i), (Nat.leb_spec (S off) i); try lia; [|reflexivity]. replace (i - off) with (S (i - S off)) by lia. reflexivity. }
              rewrite X in F2. inversion F2 as [|? b1 ? l1 Sb F2']; subst. constructor.
              * unfold same_but, comes in *. cbn [map]. rewrite Go. destruct (Nat.eqb_spec (b_no c) (b_no b0)) as [Y|_]; [congruence|]. rewrite !qsum_cons.
                destruct Sb as [H1 [H2 [H3 [H4 [H5 [H6 [H7 H8]]]]]]]. sp; try assumption; [rewrite H6|rewrite H7|rewrite H8]; lra.
              * apply (IH l1 (S off)); [| |exact F2'].
                -- intros j bj Hj. rewrite (H (S j) bj Hj). lia.
                -- intros j Hj. apply (Hb (S j)). lia. }
        apply (G (k_bus w) (k_bus w2) 0).
        -- intros j bj Hj. exact (Uni j bj Hj).
        -- intros j Hj. cbn in Hj. subst j. now left.
        -- cbn [Nat.leb]. now rewrite Nat.sub_0_r.
      * unfold stay_total in *. cbn [map fst]. rewrite Mu, !qsum_cons. rewrite B1 in P1, P2, P3. rewrite (qsum_set b_p _ i b b' Hi) in P1. rewrite (qsum_set b_q _ i b b' Hi) in P2. rewrite (qsum_set b_ntl _ i b b' Hi) in P3.
        rewrite P1, P2, P3. cbn [b_p b_q b_ntl b' set_bus_nos add_demand snd]. sp; lra.
Qed.
