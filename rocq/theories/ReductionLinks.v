(** What the reduced network joins, and where the generators go. *)
From Coq Require Import List ZArith QArith Bool Lia Arith Permutation Relation_Operators Operators_Properties Setoid Lqa.
From Verif Require Import Base GraphData Network Cases InputOutputProofs HydroTables ConverterOpen Parameters Analyser Reduction AnalyserSpec ReductionSpec GraphDataProofs ParametersProofs AnalyserProofs AnalyserIslands ReductionTrack ReductionProofs ReductionPlace ReductionParts ReductionMain.
Import ListNotations.
Open Scope list_scope.
Open Scope nat_scope.
Local Arguments multi _ : simpl never.

Lemma targets_in no line UX n u : In (n, u) (targets no UX) -> exists x, In (u, x) UX /\
  ((multi u = true /\ exists e, In e (plan no line UX) /\ snd e = (u, x) /\ fst (fst e) = n) \/ (multi u = false /\ exists c r, w_coupling x = c :: r /\ n = b_no c)).
Proof.
  revert no line. induction UX as [|[v y] UX IH]; intros no line; cbn [targets plan fst]; [intros []|]. destruct (multi v) eqn:M.
  - intros [E|H].
    + injection E as <- <-. exists y. split; [now left|]. left. split; [exact M|]. eexists. split; [left; reflexivity|]. now split.
    + destruct (IH (S no) (line + length (u_coupling v)) H) as [x [Hx D]]. exists x. split; [now right|]. destruct D as [[D1 [e [D2 D3]]]|D]; [left|right; exact D]. split; [exact D1|]. exists e. split; [now right|exact D3].
  - assert (X : In (n, u) (targets no UX) -> exists x, In (u, x) ((v, y) :: UX) /\ ((multi u = true /\ exists e, In e (plan no line UX) /\ snd e = (u, x) /\ fst (fst e) = n) \/ (multi u = false /\ exists c r, w_coupling x = c :: r /\ n = b_no c))).
    { intros H. destruct (IH no line H) as [x [Hx D]]. exists x. split; [now right|exact D]. }
    destruct (w_coupling y) as [|c r] eqn:Ey; [exact X|]. intros [E|H]; [|now apply X]. injection E as <- <-. exists y. split; [now left|]. right. split; [exact M|]. now exists c, r.
Qed.
Lemma targets_has no UX u x : In (u, x) UX -> w_coupling x <> [] -> exists n, In (n, u) (targets no UX).
Proof.
  revert no. induction UX as [|[v y] UX IH]; intros no; cbn [targets]; [intros []|]. intros [E|H] NE.
  - injection E as -> ->. destruct (multi u); [eexists; left; reflexivity|]. destruct (w_coupling x) as [|c r]; [congruence|]. eexists. left. reflexivity.
  - destruct (multi v); [destruct (IH (S no) H NE) as [n Hn]; exists n; now right|]. destruct (IH no H NE) as [n Hn]. destruct (w_coupling y); exists n; [exact Hn|now right].
Qed.
Lemma targets_fst no UX : Forall (fun ux => w_coupling (snd ux) <> []) UX -> map snd (targets no UX) = map fst UX.
Proof.
  intros F. revert no. induction F as [|[u x] UX H _ IH]; intros no; [reflexivity|]. cbn [targets map fst]. cbn [snd] in H. destruct (multi u); cbn [map snd]; [now rewrite IH|].
  destruct (w_coupling x); [congruence|]. cbn [map snd]. now rewrite IH.
Qed.
Lemma art_line_in no line u x l : In l (art_lines no line u x) -> exists c, In c (w_coupling x) /\ s_ends l = [b_no c; no].
Proof.
  unfold art_lines. intros H. apply in_map_iff in H as [[i [c a]] [<- H]]. apply in_combine_r in H. apply in_combine_l in H. exists c. split; [exact H|reflexivity].
Qed.
Lemma art_line_has nos no line u x c : fit nos (u, x) -> In c (w_coupling x) -> exists l, In l (art_lines no line u x) /\ s_ends l = [b_no c; no].
Proof.
  intros [L1 [L2 _]] H. cbn [fst snd] in *. apply In_nth_error in H as [i Hi]. assert (Li : i < length (u_coupling u)) by (rewrite <- L1; apply nth_error_Some; congruence).
  destruct (nth_error (u_art u) i) as [a|] eqn:Ea; [|apply nth_error_None in Ea; lia].
  pose proof (nth_combine _ _ i i (c, a) (nth_seq i _ Li) (nth_combine _ _ i c a Hi Ea)) as X. apply nth_error_In in X. eexists. split; [unfold art_lines; apply in_map, X|]. reflexivity.
Qed.

Lemma in_combine_ex {A B} (l : list A) (m : list B) a : length l = length m -> In a l -> exists b, In (a, b) (combine l m).
Proof. revert m. induction l as [|x l IH]; intros [|y m] E H; try discriminate; [destruct H|]. injection E as E. destruct H as [->|H]; [exists y; now left|]. destruct (IH m E H) as [b Hb]. exists b. now right. Qed.
Lemma map_fst_combine' {A B} (l : list A) (m : list B) : length l = length m -> map fst (combine l m) = l.
Proof. revert m. induction l as [|x l IH]; intros [|y m] E; try discriminate; [reflexivity|]. injection E as E. cbn. now rewrite IH. Qed.

Section Links.
Variables (three vol : Q) (N : net).
Hypothesis S : settled N.
Hypothesis W : wf N.
Variables (f : flags) (U : list super).
Hypothesis I : inv three vol N f U.
Hypothesis All : forall p, p < length (n_bus N) -> nth_error (f_bus f) p = Some true.
Variable Ws : list worth.
Hypothesis F : Forall2 (worth_fact N) U Ws.
Hypothesis NE : Forall (fun u => u_coupling u <> []) U.
Variables (bus0 line0 : option nat) (M : net) (P : list entry) (no line : nat) (kept nodes : list bus) (es : list entry).
Hypothesis O : outcome N U Ws bus0 line0 M P no line kept nodes es.
Let UX := combine U Ws.

Lemma m_line s : In s (n_lines M) -> (exists t, In t (n_lines N) /\ all_up three vol N t = true /\ s_ends s = s_ends t) \/ exists e, In e (plan no line UX) /\ In (s_ends s) (map s_ends (plan_lines e)).
Proof.
  intros H. destruct (in_bare bare_series _ _ s (eq_sym (o_lines _ _ _ _ _ _ _ _ _ _ _ _ O)) H) as [t [Ht E]]. apply (f_equal s_ends) in E. cbn in E. apply in_app_or in Ht as [Ht|Ht].
  - left. change (n_lines (rest N U)) with (els Lines (rest N U)) in Ht. destruct (in_bare bare_series _ _ t (eq_sym (rest_els three vol N S W f U I All Lines)) Ht) as [v [Hv E']].
    apply filter_In in Hv as [Hv Es]. exists v. split; [exact Hv|]. split; [now rewrite <- (stays_up three vol N S W Lines v Hv)|]. apply (f_equal s_ends) in E'. cbn in E'. congruence.
  - right. apply in_flat_map in Ht as [e [He Ht]]. exists e. split; [exact He|]. rewrite <- E. now apply in_map.
Qed.
Lemma m_trafo s : In s (n_trafos M) -> exists t, In t (n_trafos N) /\ all_up three vol N t = true /\ s_ends s = s_ends t.
Proof.
  intros H. destruct (in_bare bare_series _ _ s (eq_sym (o_trafos _ _ _ _ _ _ _ _ _ _ _ _ O)) H) as [t [Ht E]]. apply (f_equal s_ends) in E. cbn in E.
  change (n_trafos (rest N U)) with (els Trafos (rest N U)) in Ht. destruct (in_bare bare_series _ _ t (eq_sym (rest_els three vol N S W f U I All Trafos)) Ht) as [v [Hv E']].
  apply filter_In in Hv as [Hv Es]. exists v. split; [exact Hv|]. split; [now rewrite <- (stays_up three vol N S W Trafos v Hv)|]. apply (f_equal s_ends) in E'. cbn in E'. congruence.
Qed.
Lemma m_up k t : In t (els k N) -> all_up three vol N t = true -> exists s, In s (els k M) /\ s_ends s = s_ends t.
Proof.
  intros H E. rewrite <- (stays_up three vol N S W k t H) in E.
  assert (X : In t (filter (stays three vol N) (els k N))) by (apply filter_In; now split).
  destruct (in_bare bare_series _ _ t (rest_els three vol N S W f U I All k) X) as [v [Hv E']]. apply (f_equal s_ends) in E'. cbn in E'. destruct k; cbn [els] in *.
  - destruct (in_bare bare_series _ _ v (o_lines _ _ _ _ _ _ _ _ _ _ _ _ O)) as [s [Hs Es]]; [apply in_or_app; now left|]. exists s. split; [exact Hs|]. apply (f_equal s_ends) in Es. cbn in Es. congruence.
  - destruct (in_bare bare_series _ _ v (o_trafos _ _ _ _ _ _ _ _ _ _ _ _ O)) as [s [Hs Es]]; [exact Hv|]. exists s. split; [exact Hs|]. apply (f_equal s_ends) in Es. cbn in Es. congruence.
Qed.
Lemma m_art e l : In e (plan no line UX) -> In l (plan_lines e) -> exists s, In s (n_lines M) /\ s_ends s = s_ends l.
Proof.
  intros He Hl. destruct (in_bare bare_series _ _ l (o_lines _ _ _ _ _ _ _ _ _ _ _ _ O)) as [s [Hs Es]]; [apply in_or_app; right; apply in_flat_map; now exists e|]. exists s. split; [exact Hs|]. apply (f_equal s_ends) in Es. cbn in Es. congruence.
Qed.
Lemma coupling_eq u x : In (u, x) UX -> map b_no (w_coupling x) = nos_at N (u_coupling u).
Proof. intros H. apply (pair_fit N U Ws F) in H as [_ [_ [H _]]]. now apply objects_nos. Qed.
Lemma ux_fit u x : In (u, x) UX -> fit (numbers (rest N U)) (u, x).
Proof. intros H. pose proof (fits three vol N S W f U I All Ws F NE) as X. rewrite Forall_forall in X. now apply X. Qed.
(** A bus of the level next to a supernode is among its coupling buses. *)
Lemma neighbour u a c : In u U -> In a (nos_at N (u_bus u)) -> high_no three vol N c -> any_link N a c -> In c (nos_at N (u_coupling u)).
Proof.
  intros Hu Ha Hc [k [s [Hs [Ea Ec]]]]. assert (X : In s (u_art u)).
  { apply (Permutation_in _ (Permutation_sym (art_perm three vol N S W f U I u Hu))). apply filter_In. split.
    - assert (Y : In s (els_at k N (u_els k u))) by (apply (part_els three vol N S W f U I All k u s Hu); split; [exact Hs|now exists a]). apply in_or_app. destruct k; [now left|now right].
    - unfold crossing_up. apply existsb_exists. exists c. split; [exact Ec|]. now apply upper_high. }
  destruct (Forall2_in_r _ _ _ s (coupling_nos three vol N S W f U I All u Hu) X) as [c' [Hc' [_ [Hh [b [Hb Pb]]]]]]. assert (In c [c'; b]) by (apply (Permutation_in _ (Permutation_sym Pb)), Ec).
  destruct H as [->|[->|[]]]; [exact Hc'|]. exfalso. apply (high_not_low three vol N W c Hc). now apply (part_low three vol N W f U I u).
Qed.
Lemma neighbour_back u c : In u U -> In c (nos_at N (u_coupling u)) -> high_no three vol N c /\ exists a, In a (nos_at N (u_bus u)) /\ any_link N a c.
Proof.
  intros Hu Hc. destruct (Forall2_in_l _ _ _ c (coupling_nos three vol N S W f U I All u Hu) Hc) as [s [_ [[k Hk] [Hh [b [Hb Pb]]]]]]. split; [exact Hh|]. exists b. split; [exact Hb|]. exists k, s. split; [exact Hk|].
  split; apply (Permutation_in _ Pb); cbn; tauto.
Qed.
Lemma home_link n u a c : In (n, u) (targets no UX) -> In a (nos_at N (u_bus u)) -> high_no three vol N c -> any_link N a c -> n = c \/ any_link M n c.
Proof.
  intros Ht Ha Hc L. destruct (targets_in no line UX n u Ht) as [x [Hx D]]. assert (Hu : In u U) by (apply in_combine_l in Hx; exact Hx).
  pose proof (neighbour u a c Hu Ha Hc L) as Hn. rewrite <- (coupling_eq u x Hx) in Hn. destruct D as [[_ [e [He [Es En]]]]|[Mu [c0 [r [Ec ->]]]]].
  - right. apply in_map_iff in Hn as [cb [<- Hcb]]. destruct (art_line_has _ n (snd (fst e)) u x cb (ux_fit u x Hx) Hcb) as [l [Hl El]].
    assert (Hl' : In l (plan_lines e)) by (unfold plan_lines; rewrite Es, En; exact Hl). destruct (m_art e l He Hl') as [s [Hs E]]. exists Lines, s. split; [exact Hs|]. rewrite E, El. cbn. tauto.
  - left. assert (Len : length (w_coupling x) = length (u_coupling u)) by apply (ux_fit u x Hx). unfold multi in Mu. apply Nat.ltb_ge in Mu. rewrite Ec in Len, Hn. cbn in Len. destruct r; [|cbn in Len; lia]. cbn in Hn. destruct Hn as [<-|[]]. reflexivity.
Qed.
Lemma targets_nonempty u : In u U -> exists n, In (n, u) (targets no UX).
Proof.
  intros Hu. destruct (Forall2_in_l _ _ _ u F Hu) as [x [_ _]]. clear x. assert (X : exists x, In (u, x) UX).
  { apply (in_combine_ex U Ws u (Forall2_length _ _ _ F) Hu). }
  destruct X as [x Hx]. apply (targets_has no UX u x Hx). pose proof (ux_fit u x Hx) as [L1 [_ [Nu _]]]. cbn [fst snd] in *. intros E. rewrite E in L1. destruct (u_coupling u); [congruence|discriminate].
Qed.
Lemma targets_unique n n' u : In (n, u) (targets no UX) -> In (n', u) (targets no UX) -> n = n'.
Proof.
  intros H H'. assert (ND : NoDup (map snd (targets no UX))).
  { rewrite targets_fst.
    - assert (E : map fst UX = U) by (apply map_fst_combine', (Forall2_length _ _ _ F)).
      rewrite E. pose proof (parts_nodup three vol N W f U I) as Q. pose proof (fun u Hu => part_connected three vol N S W f U I u Hu) as C.
      assert (C' : forall u, In u U -> nos_at N (u_bus u) <> []) by (intros v Hv X; destruct (C v Hv) as [r [Hr _]]; rewrite X in Hr; destruct Hr).
      clear -Q C'. induction U as [|v l IH]; [constructor|]. cbn in Q. apply nodup_split in Q as [_ [Q D]]. constructor.
      + intros Hv. destruct (nos_at N (u_bus v)) as [|a r] eqn:E; [now apply (C' v (or_introl eq_refl))|]. apply (D a); [now left|]. apply in_flat_map. exists v. split; [exact Hv|]. rewrite E. now left.
      + apply IH; [exact Q|]. intros w Hw. apply C'. now right.
    - apply Forall_forall. intros [v x] Hx. pose proof (ux_fit v x Hx) as [L1 [_ [Nu _]]]. cbn [fst snd] in *. intros E. rewrite E in L1. destruct (u_coupling v); [congruence|discriminate]. }
  revert H H' ND. generalize (targets no UX). clear. induction l as [|[m v] l IH]; intros H H' ND; [destruct H|]. cbn in ND. apply NoDup_cons_iff in ND as [Hv ND]. destruct H as [E|H], H' as [E'|H'].
  - congruence.
  - exfalso. injection E as -> ->. apply Hv. now apply (in_map snd) in H'.
  - exfalso. injection E' as -> ->. apply Hv. now apply (in_map snd) in H.
  - now apply IH.
Qed.

(** The bus of the reduced network that stands for a bus. *)
Definition rep (a x : nat) : Prop := (high_no three vol N a /\ x = a) \/ exists u, In (x, u) (targets no UX) /\ In a (nos_at N (u_bus u)).
Lemma rep_total a : In a (numbers N) -> exists x, rep a x.
Proof.
  intros H. destruct (high_or_low three vol N a H) as [Hh|Hl]; [exists a; left; tauto|]. destruct (part_cover three vol N W f U I All a Hl) as [u [Hu Ha]]. destruct (targets_nonempty u Hu) as [n Hn]. exists n. right. now exists u.
Qed.
Lemma any_link_sym K a b : any_link K a b -> any_link K b a.
Proof. intros [k [s [H1 [H2 H3]]]]. exists k, s. tauto. Qed.
Lemma link_numbers a b : any_link N a b -> In a (numbers N) /\ In b (numbers N).
Proof.
  intros [k [s [Hs [Ha Hb]]]]. destruct (wf_ends N W k s Hs) as [x [y [E [_ [Hx Hy]]]]]. rewrite E in *. cbn in Ha, Hb. destruct Ha as [<-|[<-|[]]], Hb as [<-|[<-|[]]]; tauto.
Qed.
Lemma target_super n u : In (n, u) (targets no UX) -> In u U.
Proof. intros H. destruct (targets_in no line UX n u H) as [x [Hx _]]. now apply in_combine_l in Hx. Qed.
Lemma link_forward a b x y : any_link N a b -> rep a x -> rep b y -> joined_by_any M x y.
Proof.
  intros L [[Ha ->]|[u [Hu Ha]]] [[Hb ->]|[v [Hv Hb]]].
  - destruct L as [k [s [Hs [Ea Eb]]]]. destruct (Nat.eq_dec a b) as [<-|D].
    + apply rt_refl.
    + apply rt_step. destruct (m_up k s Hs) as [t [Ht E]]; [|exists k, t; rewrite E; tauto]. unfold all_up. apply forallb_forall. intros c Hc. destruct (wf_ends N W k s Hs) as [p [q [E _]]]. rewrite E in *. cbn in Ea, Eb, Hc. apply upper_high.
      destruct Ea as [<-|[<-|[]]], Eb as [<-|[<-|[]]], Hc as [<-|[<-|[]]]; congruence || assumption.
  - destruct (home_link y v b a Hv Hb Ha (any_link_sym _ _ _ L)) as [->|H]; [apply rt_refl|apply rt_step; now apply any_link_sym].
  - destruct (home_link x u a b Hu Ha Hb L) as [->|H]; [apply rt_refl|now apply rt_step].
  - assert (Lu : low_link three vol N a b) by (split; [apply (part_low three vol N W f U I u a (target_super x u Hu) Ha)|]; split; [apply (part_low three vol N W f U I v b (target_super y v Hv) Hb)|exact L]).
    assert (u = v) by (apply (part_unique three vol N W f U I u v b (target_super x u Hu) (target_super y v Hv)); [apply (part_same three vol N S W f U I u a b (target_super x u Hu) Ha Lu)|exact Hb]). subst v.
    rewrite (targets_unique x y u Hu Hv). apply rt_refl.
Qed.
Lemma forward a b x y : joined_by_any N a b -> rep a x -> rep b y -> joined_by_any M x y.
Proof.
  intros J. revert x. apply clos_rt_rt1n in J. induction J as [a|a c b L _ IH]; intros x Hx Hy.
  - destruct Hx as [[Ha ->]|[u [Hu Ha]]], Hy as [[Hb ->]|[v [Hv Hb]]].
    + apply rt_refl.
    + exfalso. apply (high_not_low three vol N W a Ha). now apply (part_low three vol N W f U I v a (target_super y v Hv)).
    + exfalso. apply (high_not_low three vol N W a Hb). now apply (part_low three vol N W f U I u a (target_super x u Hu)).
    + assert (u = v) by (apply (part_unique three vol N W f U I u v a (target_super x u Hu) (target_super y v Hv) Ha Hb)). subst v. rewrite (targets_unique x y u Hu Hv). apply rt_refl.
  - destruct (rep_total c) as [z Hz]; [now apply link_numbers in L|]. apply rt_trans with z; [now apply (link_forward a c)|now apply IH].
Qed.

(** The other way, for new numbers. *)
Hypothesis Fresh : forall e, In e (plan no line UX) -> ~ high_no three vol N (fst (fst e)).
Definition back (x a : nat) : Prop := (high_no three vol N x /\ a = x) \/ exists e, In e (plan no line UX) /\ x = fst (fst e) /\ In a (nos_at N (u_bus (fst (snd e)))).
Lemma joined_sym K a b : joined_by_any K a b -> joined_by_any K b a.
Proof. intros J. apply clos_rt_rt1n in J. induction J as [|a c b L _ IH]; [apply rt_refl|]. apply rt_trans with c; [exact IH|]. apply rt_step. now apply any_link_sym. Qed.
Lemma low_joined a b : low_connected three vol N a b -> joined_by_any N a b.
Proof. intros J. apply clos_rt_rt1n in J. induction J as [|a c b [_ [_ L]] _ IH]; [apply rt_refl|]. apply rt_trans with c; [|exact IH]. now apply rt_step. Qed.
Lemma part_joined u a b : In u U -> In a (nos_at N (u_bus u)) -> In b (nos_at N (u_bus u)) -> joined_by_any N a b.
Proof.
  intros Hu Ha Hb. destruct (part_connected three vol N S W f U I u Hu) as [r [_ H]]. apply rt_trans with r; [apply joined_sym|]; apply low_joined; now apply H.
Qed.
Lemma plan_super e : In e (plan no line UX) -> In (fst (snd e)) U /\ In (snd e) UX.
Proof. intros H. apply plan_in in H as [H _]. split; [|exact H]. destruct (snd e) as [u x]. now apply in_combine_l in H. Qed.
Lemma back_same x a b : back x a -> back x b -> joined_by_any N a b.
Proof.
  intros [[H ->]|[e [He [-> Ha]]]] [[H' ->]|[e' [He' [Ee Hb]]]].
  - apply rt_refl.
  - exfalso. apply (Fresh e' He'). now rewrite <- Ee.
  - exfalso. now apply (Fresh e He).
  - assert (e = e') by (apply (plan_one no line UX); assumption). subst e'. apply (part_joined (fst (snd e))); try assumption. now apply plan_super.
Qed.
Lemma back_total x y : any_link M x y -> exists a, back x a.
Proof.
  intros [k [s [Hs [Hx _]]]]. assert (G : forall k t, In t (els k N) -> all_up three vol N t = true -> In x (s_ends t) -> exists a, back x a).
  { intros k' t Ht E Hin. exists x. left. split; [|reflexivity]. apply upper_high. unfold all_up in E. rewrite forallb_forall in E. now apply E. }
  destruct k; cbn [els] in Hs.
  - destruct (m_line s Hs) as [[t [Ht [E Et]]]|[e [He Hl]]]; [apply (G Lines t Ht E); now rewrite <- Et|]. apply in_map_iff in Hl as [l [El Hl]]. unfold plan_lines in Hl. apply art_line_in in Hl as [c [Hc Ec]].
    rewrite <- El, Ec in Hx. destruct (plan_super e He) as [Hu HUX]. cbn in Hx. destruct Hx as [<-|[<-|[]]].
    + exists (b_no c). left. split; [|reflexivity]. destruct (snd e) as [u x'] eqn:Ee. apply (neighbour_back u). { exact Hu. } rewrite <- (coupling_eq u x' HUX). now apply in_map.
    + destruct (part_connected three vol N S W f U I _ Hu) as [r [Hr _]]. exists r. right. now exists e.
  - destruct (m_trafo s Hs) as [t [Ht [E Et]]]. apply (G Trafos t Ht E). now rewrite <- Et.
Qed.
Lemma link_back x y a b : any_link M x y -> back x a -> back y b -> joined_by_any N a b.
Proof.
  intros [k [s [Hs [Hx Hy]]]] Ba Bb. assert (G : forall k t, In t (els k N) -> all_up three vol N t = true -> In x (s_ends t) -> In y (s_ends t) -> joined_by_any N a b).
  { intros k' t Ht E Hx' Hy'. unfold all_up in E. rewrite forallb_forall in E. apply rt_trans with x; [|apply rt_trans with y].
    - apply (back_same x a x Ba). left. split; [apply upper_high; now apply E|reflexivity].
    - apply rt_step. now exists k', t.
    - apply (back_same y y b); [|exact Bb]. left. split; [apply upper_high; now apply E|reflexivity]. }
  destruct k; cbn [els] in Hs.
  - destruct (m_line s Hs) as [[t [Ht [E Et]]]|[e [He Hl]]]; [apply (G Lines t Ht E); now rewrite <- Et|]. apply in_map_iff in Hl as [l [El Hl]]. unfold plan_lines in Hl. apply art_line_in in Hl as [c [Hc Ec]].
    rewrite <- El, Ec in Hx, Hy. destruct (plan_super e He) as [Hu HUX]. destruct (part_connected three vol N S W f U I _ Hu) as [r [Hr _]].
    assert (Bn : back (fst (fst e)) r) by (right; now exists e).
    assert (Nb : exists a', In a' (nos_at N (u_bus (fst (snd e)))) /\ any_link N a' (b_no c) /\ high_no three vol N (b_no c)).
    { destruct (snd e) as [u x'] eqn:Ee. cbn [fst snd] in *. destruct (neighbour_back u (b_no c) Hu) as [Hh [a' [H1 H2]]]; [rewrite <- (coupling_eq u x' HUX); now apply in_map|]. exists a'. tauto. }
    destruct Nb as [a' [Ha' [La Hh]]]. assert (Bc : back (b_no c) (b_no c)) by (left; tauto).
    assert (J : joined_by_any N (b_no c) r) by (apply rt_trans with a'; [apply rt_step; now apply any_link_sym|now apply (part_joined (fst (snd e)))]).
    cbn in Hx, Hy. destruct Hx as [<-|[<-|[]]], Hy as [<-|[<-|[]]].
    + now apply (back_same (b_no c)).
    + apply rt_trans with (b_no c); [now apply (back_same (b_no c))|]. apply rt_trans with r; [exact J|]. now apply (back_same (fst (fst e))).
    + apply rt_trans with r; [now apply (back_same (fst (fst e)))|]. apply rt_trans with (b_no c); [now apply joined_sym|]. now apply (back_same (b_no c)).
    + now apply (back_same (fst (fst e))).
  - destruct (m_trafo s Hs) as [t [Ht [E Et]]]. apply (G Trafos t Ht E); now rewrite <- Et.
Qed.
Lemma backward x y a b : joined_by_any M x y -> back x a -> back y b -> joined_by_any N a b.
Proof.
  intros J. revert a. apply clos_rt_rt1n in J. induction J as [x|x z y L _ IH]; intros a Ha Hb; [now apply (back_same x)|].
  destruct (back_total z x (any_link_sym _ _ _ L)) as [c Hc]. apply rt_trans with c; [now apply (link_back x z)|now apply IH].
Qed.
End Links.

Section Generators.
(** One generator through all moves. *)
Definition moved_one (T : list (nat * super)) (g : gen) : gen := fold_left (fun g d => if mem (g_pos g) (u_bus (snd d)) then set_g_bus (fst d) g else g) T g.
Lemma moved_all_map T l : moved_all T l = map (moved_one T) l.
Proof.
  unfold moved_all. revert l. induction T as [|d T IH]; intros l; cbn [fold_left]; [unfold moved_one; cbn; now rewrite map_id|]. rewrite IH. unfold moved. rewrite map_map. apply map_ext. intros g. unfold moved_one. cbn [fold_left]. reflexivity.
Qed.
Lemma moved_one_same T g : g_pos (moved_one T g) = g_pos g /\ g_name (moved_one T g) = g_name g.
Proof.
  unfold moved_one. revert g. induction T as [|d T IH]; intros g; [tauto|]. cbn [fold_left]. destruct (IH (if mem (g_pos g) (u_bus (snd d)) then set_g_bus (fst d) g else g)) as [-> ->]. destruct (mem (g_pos g) (u_bus (snd d))); cbn; tauto.
Qed.
Lemma moved_one_none T g : (forall n u, In (n, u) T -> ~ In (g_pos g) (u_bus u)) -> moved_one T g = g.
Proof.
  unfold moved_one. induction T as [|[n u] T IH]; intros H; [reflexivity|]. cbn [fold_left fst snd]. assert (X : mem (g_pos g) (u_bus u) = false).
  { apply existsb_eqb_false. apply (H n). now left. }
  rewrite X. apply IH. intros n' u' H'. apply (H n'). now right.
Qed.
Lemma moved_one_bus T g n u : In (n, u) T -> In (g_pos g) (u_bus u) -> (forall n' u', In (n', u') T -> In (g_pos g) (u_bus u') -> n' = n) -> g_bus (moved_one T g) = n.
Proof.
  assert (G : forall T g, (forall n' u', In (n', u') T -> In (g_pos g) (u_bus u') -> n' = n) -> (g_bus g = n \/ exists u, In (n, u) T /\ In (g_pos g) (u_bus u)) -> g_bus (moved_one T g) = n).
  { clear. unfold moved_one. induction T as [|[n' u'] T IH]; intros g Uq D; cbn [fold_left fst snd].
    - destruct D as [D|[u [[] _]]]. exact D.
    - destruct (mem (g_pos g) (u_bus u')) eqn:Em.
      + apply existsb_eqb in Em. assert (n' = n) by (apply (Uq n' u'); [now left|exact Em]). subst n'. apply IH; [|left; reflexivity]. intros m v Hm Hv. apply (Uq m v); [now right|exact Hv].
      + apply IH; [intros m v Hm; apply Uq; now right|]. destruct D as [D|[u [[E|Hu] Hin]]]; [now left| |right; now exists u]. exfalso. injection E as -> ->. apply existsb_eqb_false in Em. contradiction. }
  intros H1 H2 H3. apply G; [exact H3|]. right. now exists u.
Qed.
End Generators.
