(** What holds of every conversion, whatever the file. *)
From Coq Require Import List String Ascii Bool Arith ZArith QArith Lia Sorted.
From Verif Require Import Base Container GraphDataProofs Reader MatFile MatFileSpec MatFileProofs Converter ConverterSpec ConverterProofs ConverterFile.
Import ListNotations.
Open Scope string_scope.
Open Scope nat_scope.
Open Scope list_scope.

Local Ltac sp := repeat match goal with |- _ /\ _ => split end.
Local Ltac step H := match type of H with rbind ?m _ = Ok _ => let E := fresh "E" in destruct m eqn:E; cbn [rbind] in H; [|discriminate] end.

Section Copy.
Variable V : variant.

(** An invariant of rows and of the assignment of baseMVA holds at the end. *)
Lemma convert_inv (I : case -> Prop) : (forall ws fl c fl' c', I c -> rows V ws fl c = Ok (fl', c') -> I c') ->
  (forall ws c c', I c -> set_base ws c = Ok c' -> I c') ->
  forall n ls fl c c', List.length ls <= n -> I c -> convert_lines V ls fl c = Ok c' -> I c'.
Proof.
  intros R B. induction n as [|n IH]; intros ls fl c c' L H E.
  - destruct ls; [|cbn in L; lia]. injection E as <-. exact H.
  - destruct ls as [|l ls]; [injection E as <-; exact H|]. cbn [List.length] in L. cbn [convert_lines] in E.
    assert (NEXT : forall ws fl0 c0 rest, List.length rest <= n -> I c0 -> (do fc <- rows V ws fl0 c0; convert_lines V rest (fst fc) (snd fc)) = Ok c' -> I c').
    { intros ws fl0 c0 rest Lr H0 E0. destruct (rows V ws fl0 c0) as [[fl1 c1]|] eqn:E1; cbn [rbind fst snd] in E0; [|discriminate]. apply (IH rest fl1 c1 c'); eauto. }
    destruct (head_of V (split l)).
    + step E. apply (NEXT (split l) fl a ls); eauto; lia.
    + apply (IH ls (open HBus fl) c c'); auto; lia.
    + apply (IH ls (open HGen fl) c c'); auto; lia.
    + apply (IH ls (open HBranch fl) c c'); auto; lia.
    + destruct (v_row_at_once V).
      * destruct ls as [|l' ls]; [injection E as <-; exact H|]. cbn [List.length] in L. apply (NEXT (split l') (open HCost fl) c ls); auto; lia.
      * apply (IH ls (open HCost fl) c c'); auto; lia.
    + destruct ls as [|l' ls]; [injection E as <-; exact H|]. cbn [List.length] in L. apply (NEXT (split l') (open HDemandP fl) c ls); auto; lia.
    + apply (IH ls (open HDemandQ fl) c c'); auto; lia.
    + apply (NEXT (split l) fl c ls); auto; lia.
Qed.

Lemma convert_final (I : case -> Prop) ls c : (forall ws fl c fl' c', I c -> rows V ws fl c = Ok (fl', c') -> I c') ->
  (forall ws c c', I c -> set_base ws c = Ok c' -> I c') -> I empty_case -> convert V ls = Ok c -> I c.
Proof. intros R B H E. exact (convert_inv I R B (List.length ls) ls no_flags empty_case c (le_n _) H E). Qed.

Lemma rows_parts ws fl c fl' c' : rows V ws fl c = Ok (fl', c') ->
  (k_base c' = k_base c) /\
  ((k_bus c', k_slack c') = (k_bus c, k_slack c) \/ bus_row V ws (k_bus c, k_slack c) = Ok (k_bus c', k_slack c')) /\
  (k_gen c' = k_gen c \/ gen_row V ws (k_gen c) = Ok (k_gen c')) /\
  (k_branch c' = k_branch c \/ branch_row V ws (k_branch c) = Ok (k_branch c')) /\
  (k_costs c' = k_costs c \/ cost_row V ws (k_costs c) = Ok (k_costs c')).
Proof.
  unfold rows. destruct ws as [|w ws]; intros E; [injection E as <- <-; sp; auto|]. destruct (closes (w :: ws)); [injection E as <- <-; sp; auto|].
  destruct (f_bus fl); [destruct (bus_row V (w :: ws) (k_bus c, k_slack c)) as [[b s]|] eqn:E1|]; cbn [rbind fst snd] in E; try discriminate;
  (destruct (f_gen fl); [destruct (gen_row V (w :: ws) (k_gen c)) as [g|] eqn:E2|]; cbn [rbind fst snd] in E; try discriminate);
  (destruct (f_branch fl); [destruct (branch_row V (w :: ws) (k_branch c)) as [br|] eqn:E3|]; cbn [rbind fst snd] in E; try discriminate);
  (destruct (f_cost fl); [destruct (cost_row V (w :: ws) (k_costs c)) as [co|] eqn:E4|]; cbn [rbind fst snd] in E; try discriminate);
  step E; step E; injection E as <- <-; cbn [k_base k_bus k_slack k_gen k_branch k_costs]; sp; auto.
Qed.
Lemma base_parts ws c c' : set_base ws c = Ok c' -> k_bus c' = k_bus c /\ k_slack c' = k_slack c /\ k_gen c' = k_gen c /\ k_branch c' = k_branch c /\ k_costs c' = k_costs c.
Proof. unfold set_base. intros E. step E. step E. injection E as <-. auto. Qed.

(** ** Columns *)

Definition lengths (t : table) : list nat := map (fun cl => List.length (snd cl)) t.
Definition nested (t : table) : Prop := StronglySorted ge (lengths t).

Lemma extend_bound : forall t vs n, Forall (ge n) (lengths t) -> Forall (ge (S n)) (lengths (extend vs t)).
Proof.
  induction t as [|(c, l) t IH]; intros vs n F; [destruct vs; constructor|]. inversion F as [|? ? A B]; subst. cbn [snd] in A. destruct vs as [|v vs]; cbn [extend].
  - change (lengths ((c, l) :: t)) with (List.length l :: lengths t). constructor; [lia|]. eapply Forall_impl; [|exact B]. cbn. intros; lia.
  - change (lengths ((c, l ++ [v]) :: extend vs t)) with (List.length (l ++ [v]) :: lengths (extend vs t)). constructor; [rewrite app_length; cbn; lia|]. apply IH. exact B.
Qed.
Lemma extend_nested : forall t vs, nested t -> nested (extend vs t).
Proof.
  unfold nested. induction t as [|(c, l) t IH]; intros vs H; [destruct vs; constructor|]. change (lengths ((c, l) :: t)) with (List.length l :: lengths t) in H. inversion H as [|? ? A B]; subst.
  destruct vs as [|v vs]; [exact H|]. cbn [extend]. change (lengths ((c, l ++ [v]) :: extend vs t)) with (List.length (l ++ [v]) :: lengths (extend vs t)).
  constructor; [apply IH; exact A|]. rewrite app_length. cbn [List.length]. rewrite Nat.add_1_r. apply extend_bound. exact B.
Qed.
Lemma sorted_ge l : StronglySorted ge l -> forall i j a b, i <= j -> nth_error l i = Some a -> nth_error l j = Some b -> b <= a.
Proof.
  induction 1 as [|x l S1 IH F]; intros i j a b L A B; [destruct i; discriminate|]. destruct i as [|i], j as [|j]; cbn in A, B; try lia.
  - injection A as ->. injection B as ->. auto.
  - injection A as ->. rewrite Forall_forall in F. apply nth_error_In in B. apply F in B. lia.
  - apply (IH i j); auto. lia.
Qed.

Definition columns_of (name : string) : list string := if String.eqb name "bus" then bus_columns else if String.eqb name "gen" then gen_columns else branch_columns.
Definition shaped (name : string) (t : table) : Prop := map fst t = columns_of name /\ nested t.

Lemma layout_columns name cols : layout name = Some cols -> map fst cols = columns_of name.
Proof. intros L. destruct (layout_name name cols L) as [->|[->| ->]]; now injection L as <-. Qed.

Lemma bus_shaped ws t s t' s' : shaped "bus" t -> bus_row V ws (t, s) = Ok (t', s') -> shaped "bus" t' /\ exists vs, mapM (bus_cell V) (combine ws bus_columns) = Ok vs /\ t' = extend vs t /\ s' = slack_of V ws s.
Proof.
  intros (A & B) E. rewrite bus_row_eq in E by exact A. step E. injection E as <- <-. split; [split; [now rewrite extend_names|now apply extend_nested]|eauto].
Qed.
Lemma columns_distinct name : NoDup (columns_of name).
Proof.
  unfold columns_of. destruct (String.eqb name "bus"); [|destruct (String.eqb name "gen")]; repeat constructor; cbn; intuition discriminate.
Qed.
Lemma gen_shaped ws t t' : shaped "gen" t -> gen_row V ws t = Ok t' -> shaped "gen" t'.
Proof.
  intros (A & B) E. unfold gen_row in E. rewrite read_row_eq in E; [|exact A|apply (columns_distinct "gen")]. step E. injection E as <-. split; [now rewrite extend_names|now apply extend_nested].
Qed.
Lemma branch_shaped ws t t' : shaped "branch" t -> branch_row V ws t = Ok t' -> shaped "branch" t'.
Proof.
  intros (A & B) E. unfold branch_row in E. rewrite read_row_eq in E; [|exact A|apply (columns_distinct "branch")]. step E. injection E as <-. split; [now rewrite extend_names|now apply extend_nested].
Qed.

Lemma convert_shaped ls c : convert V ls = Ok c -> shaped "bus" (k_bus c) /\ shaped "gen" (k_gen c) /\ shaped "branch" (k_branch c).
Proof.
  apply (convert_final (fun c => shaped "bus" (k_bus c) /\ shaped "gen" (k_gen c) /\ shaped "branch" (k_branch c))).
  - intros ws fl c0 fl' c' (A & B & C) E. destruct (rows_parts ws fl c0 fl' c' E) as (_ & X & Y & Z & _). sp.
    + destruct X as [X|X]; [injection X as -> _; exact A|exact (proj1 (bus_shaped _ _ _ _ _ A X))].
    + destruct Y as [->|Y]; [exact B|exact (gen_shaped _ _ _ B Y)].
    + destruct Z as [->|Z]; [exact C|exact (branch_shaped _ _ _ C Z)].
  - intros ws c0 c' (A & B & C) E. destruct (base_parts ws c0 c' E) as (-> & _ & -> & -> & _). auto.
  - sp; unfold nested; cbn; repeat constructor.
Qed.

Lemma get_at t : NoDup (map fst t) -> forall i (c : string) (l : list value), nth_error (map fst t) i = Some c -> d_get c t = Some l -> nth_error (lengths t) i = Some (List.length l).
Proof.
  unfold d_get, lengths. induction t as [|(d, m) t IH]; intros N i c l E G; [destruct i; discriminate|]. cbn [map fst] in *. inversion N as [|? ? Nd N']; subst. destruct i as [|i]; cbn in E, G |- *.
  - injection E as ->. rewrite String.eqb_refl in G. now injection G as ->.
  - destruct (String.eqb_spec d c) as [->|]; [destruct Nd; eapply nth_error_In; eauto|]. apply (IH N' i c l E G).
Qed.

Lemma columns_nested name cols c : layout name = Some cols -> shaped "bus" (k_bus c) /\ shaped "gen" (k_gen c) /\ shaped "branch" (k_branch c) ->
  forall i j a b k k' la lb, i <= j -> nth_error cols i = Some (a, k) -> nth_error cols j = Some (b, k') -> d_get a (the_table name c) = Some la -> d_get b (the_table name c) = Some lb ->
  List.length lb <= List.length la.
Proof.
  intros L SH i j a b k k' la lb IJ A B GA GB. assert (S1 : shaped name (the_table name c)).
  { destruct SH as (S1 & S2 & S3). destruct (layout_name name cols L) as [->|[->| ->]]; assumption. }
  destruct S1 as (N & S1). rewrite <- (layout_columns name cols L) in N.
  assert (D : NoDup (map fst (the_table name c))) by (rewrite N; eapply layout_distinct; eauto).
  apply (sorted_ge _ S1 i j); auto.
  - apply (get_at _ D i a); auto. rewrite N, nth_error_map, A. reflexivity.
  - apply (get_at _ D j b); auto. rewrite N, nth_error_map, B. reflexivity.
Qed.

(** ** The slack bus *)

Definition in_column (c : string) (v : value) (t : table) : Prop := exists l, d_get c t = Some l /\ In v l.

Lemma in_extend t vs c v : in_column c v t -> in_column c v (extend vs t).
Proof.
  unfold in_column, d_get. revert vs. induction t as [|(d, m) t IH]; intros vs (l & G & I); [discriminate|]. destruct vs as [|w vs]; [eauto|]. cbn in G |- *.
  destruct (String.eqb d c); [injection G as ->; eexists; split; [reflexivity|]; rewrite in_app_iff; auto|]. apply IH. eauto.
Qed.

Lemma slack_in_bus ls c z : convert V ls = Ok c -> k_slack c = Some z -> in_column "BUS_I" (VI z) (k_bus c) /\ in_column "BUS_TYPE" (VI 3) (k_bus c).
Proof.
  intros E. assert (G : shaped "bus" (k_bus c) /\ forall z, k_slack c = Some z -> in_column "BUS_I" (VI z) (k_bus c) /\ in_column "BUS_TYPE" (VI 3) (k_bus c)).
  2:{ exact (proj2 G z). }
  apply (convert_final (fun c => shaped "bus" (k_bus c) /\ forall z, k_slack c = Some z -> in_column "BUS_I" (VI z) (k_bus c) /\ in_column "BUS_TYPE" (VI 3) (k_bus c)) ls); [| | |exact E]; clear.
  - intros ws fl c fl' c' (SH & H) E. destruct (rows_parts ws fl c fl' c' E) as (_ & X & _). destruct X as [X|X].
    + injection X as -> ->. auto.
    + destruct (bus_shaped _ _ _ _ _ SH X) as (SH' & vs & M & T & SL). split; [exact SH'|]. intros z G. rewrite T. rewrite SL in G. clear X SL.
      assert (OLD : k_slack c = Some z -> in_column "BUS_I" (VI z) (extend vs (k_bus c)) /\ in_column "BUS_TYPE" (VI 3) (extend vs (k_bus c))).
      { intros G'. destruct (H z G'). split; now apply in_extend. }
      destruct ws as [|w0 [|w1 ws]]; [auto|auto|]. cbn [slack_of] in G. destruct (read_whole V w1) as [ty|] eqn:E1; [|auto]. destruct (read_whole V w0) as [z0|] eqn:E0; [|auto]. destruct (Z.eqb_spec ty 3) as [->|]; [|auto].
      injection G as ->. unfold bus_columns in M. cbn [combine mapM] in M. unfold bus_cell at 1 2 in M. cbn [fst snd] in M.
      change (cell V ["BUS_I"; "BUS_TYPE"; "BUS_AREA"; "ZONE"] "VMIN" "BUS_I" w0) with (do z <- read_whole V w0; Ok (VI z)) in M.
      change (cell V ["BUS_I"; "BUS_TYPE"; "BUS_AREA"; "ZONE"] "VMIN" "BUS_TYPE" w1) with (do z <- read_whole V w1; Ok (VI z)) in M.
      rewrite E0, E1 in M. cbn [rbind] in M. step M. injection M as <-. step E2. injection E2 as <-.
      destruct SH as (N & _). destruct (k_bus c) as [|(n0, l0) [|(n1, l1) t]]; try discriminate. injection N as -> -> _. cbn [extend]. unfold in_column, d_get. cbn.
      split; eexists; (split; [reflexivity|]); rewrite in_app_iff; cbn; auto.
  - intros ws c c' H E. destruct (base_parts ws c c' E) as (-> & -> & _). exact H.
  - split; [split; unfold nested; cbn; repeat constructor|discriminate].
Qed.

(** ** The costs *)

Definition even_costs (c : costs) : Prop :=
  List.length (c_startup c) = List.length (c_model c) /\ List.length (c_shutdown c) = List.length (c_model c) /\
  List.length (c_ncost c) = List.length (c_model c) /\ Forall2 (fun n l => List.length l = Z.to_nat n) (c_ncost c) (c_cost c).
Definition text_last (n : Z) (l : list value) : Prop := (0 < n)%Z -> exists fs t, l = fs ++ [VT t].

Lemma cost_row_shape ws c c' : cost_row V ws c = Ok c' -> exists m u d n l,
  c' = mkCosts (c_model c ++ [m]) (c_startup c ++ [u]) (c_shutdown c ++ [d]) (c_ncost c ++ [n]) (c_cost c ++ [l]) /\ List.length l = Z.to_nat n /\
  (v_keeps_text V = true -> text_last n l) /\ (v_keeps_text V = false -> Forall (fun v => match v with VT _ => False | _ => True end) l).
Proof.
  unfold cost_row. intros E. do 9 step E. injection E as <-. do 5 eexists. split; [reflexivity|]. match goal with H : mapM _ (seq 0 (Z.to_nat ?n)) = Ok ?l |- _ => rename H into M; rename n into k; rename l into r end.
  clear -M. apply mapM_Ok in M. pose proof M as L. apply Forall2_length in L. rewrite seq_length in L. sp; auto.
  - intros KT P. destruct (Z.to_nat k) as [|n] eqn:K; [lia|]. rewrite seq_S in M. apply Forall2_app_inv_l in M. destruct M as (l1 & l2 & _ & M & ->). inversion M as [|? v ? l3 X M']; subst. inversion M'; subst.
    exists l1. cbn [Nat.add] in X. step X. destruct (Z.ltb_spec (Z.of_nat n) (k - 1)); [lia|]. rewrite KT in X. injection X as <-. eauto.
  - intros KT. clear -M KT. induction M as [|x v xs vs X M IH]; constructor; [|exact IH]. step X. destruct (Z.of_nat x <? k - 1)%Z; [step X; now injection X as <-|]. rewrite KT in X. step X. now injection X as <-.
Qed.

Lemma convert_costs ls c : convert V ls = Ok c -> even_costs (k_costs c) /\ (v_keeps_text V = true -> Forall2 text_last (c_ncost (k_costs c)) (c_cost (k_costs c))) /\
  (v_keeps_text V = false -> Forall (Forall (fun v => match v with VT _ => False | _ => True end)) (c_cost (k_costs c))).
Proof.
  apply (convert_final (fun c => even_costs (k_costs c) /\ (v_keeps_text V = true -> Forall2 text_last (c_ncost (k_costs c)) (c_cost (k_costs c))) /\
    (v_keeps_text V = false -> Forall (Forall (fun v => match v with VT _ => False | _ => True end)) (c_cost (k_costs c))))).
  - intros ws fl c0 fl' c' (A & B & C) E. destruct (rows_parts ws fl c0 fl' c' E) as (_ & _ & _ & _ & [->|X]); [auto|].
    destruct (cost_row_shape _ _ _ X) as (m & u & d & n & l & -> & L & T & P). unfold even_costs in *. cbn [c_model c_startup c_shutdown c_ncost c_cost]. destruct A as (A1 & A2 & A3 & A4).
    sp; rewrite ?app_length; cbn [List.length]; try congruence.
    + apply Forall2_app; auto.
    + intros K. apply Forall2_app; auto.
    + intros K. apply Forall_app; auto.
  - intros ws c0 c' H E. destruct (base_parts ws c0 c' E) as (_ & _ & _ & _ & ->). exact H.
  - unfold even_costs. cbn. sp; auto.
Qed.
End Copy.
