(** Balances of water. *)
From Coq Require Import List Bool Arith ZArith QArith Lia Lqa.
From Verif Require Import Base GraphData GraphDataProofs Cases CasesProofs Network InputOutput InputOutputProofs ConverterOpen Hydro HydroSpec HydroNet HydroParts HydroTables HydroModel.
Import ListNotations.
Open Scope nat_scope.
Open Scope list_scope.

Local Ltac sp := repeat match goal with |- _ /\ _ => split end.
Local Ltac binv H := repeat (let a := fresh "v" in let E := fresh "E" in apply bind_inv in H as (a & E & H)).

Lemma node_balance_eq E Y rs s n t h : tidy E Y rs -> rules Y s -> y_time Y = e_time E -> n < y_nodes Y -> t < y_time Y -> h < y_scen Y ->
  (at_node (y_in Y) (S n) (water_in Y s h t) + at_node (map ri_to rs) (S n) (down Y s h t) ==
   at_node (map ri_from rs) (S n) (up Y s h t) + at_node (y_out Y) (S n) (water_out Y s h t) + at_node (storage_nodes E) (S n) (stored Y s h t) - at_node (storage_nodes E) (S n) (stored Y s h (before (e_time E) t)))%Q.
Proof.
  intros TD RU TM Ln Lt Lh. destruct (ru_balance Y s RU n t h Ln Lt Lh) as (c & B & S1). unfold node_balance in B.
  destruct (td_in _ _ _ TD) as (NDi & _ & Ti). destruct (td_out _ _ _ TD) as (NDo & _ & To). destruct (td_adj _ _ _ TD n Ln) as (ao & ai & Eo & Ei & Mo & Mi). destruct (td_stor _ _ _ TD) as (NDs & _ & Ts & SN & _ & LT & HT). cbv zeta in *. fold (storage_nodes E) in NDs, Ts.
  destruct (table_sum _ _ _ n (water_in Y s h t) Ti NDi Ln) as (li & Eli & Sli). destruct (table_sum _ _ _ n (water_out Y s h t) To NDo Ln) as (lo & Elo & Slo).
  destruct (table_sum _ _ _ n (stored Y s h t) Ts NDs Ln) as (st & Est & Sst). destruct (table_sum _ _ _ n (stored Y s h (before (e_time E) t)) Ts NDs Ln) as (st' & Est' & Sst'). rewrite Est in Est'. injection Est' as <-.
  assert (Z : nth_error (s_time (y_stor Y)) t <> None) by (apply nth_error_Some; lia). destruct (nth_error (s_time (y_stor Y)) t) as [tm|] eqn:Etm; [|contradiction].
  rewrite (proj2 (at_nth _ _ _) Est), bind_ok in B. rewrite (proj2 (at_nth _ _ _) Eli), bind_ok in B. rewrite (proj2 (at_nth _ _ _) Elo), bind_ok in B. rewrite (proj2 (at_nth _ _ _) Ei), bind_ok in B. rewrite (proj2 (at_nth _ _ _) Eo), bind_ok in B. rewrite (proj2 (at_nth _ _ _) Etm), bind_ok in B. cbv zeta in B.
  apply bind_inv in B as (ea & Ea & B). rewrite Mi, bind_ok in B. apply bind_inv in B as (ed & Ed & B). rewrite Mo, bind_ok in B. apply bind_inv in B as (eu & Eu & B). apply bind_inv in B as (eo & Eo2 & B). apply bind_inv in B as (e0 & E0 & B). apply bind_inv in B as (e1 & E1 & B). injection B as <-. cbn [sat eval] in S1.
  rewrite (gets_eval _ s _ _ Ea), (gets_eval _ s _ _ Ed), (gets_eval _ s _ _ Eu), (gets_eval _ s _ _ Eo2), (gets_eval _ s _ _ E0), (gets_eval _ s _ _ E1) in S1. rewrite !map_map in S1.
  rewrite <- Sli, <- Slo, <- Sst, <- Sst', <- (rivers_sum ri_to rs), <- (rivers_sum ri_from rs).
  assert (X1 : (qsum (map (fun x => s (HStor (h * s_no (y_stor Y) + snd st + x) (fst tm))) (seq 0 (fst st))) == qsum (map (fun _ => stored Y s h t (snd st)) (seq 0 (fst st))))%Q /\
               (qsum (map (fun x => s (HStor (h * s_no (y_stor Y) + snd st + x) (snd tm))) (seq 0 (fst st))) == qsum (map (fun _ => stored Y s h (before (e_time E) t) (snd st)) (seq 0 (fst st))))%Q).
  { destruct Ts as (_ & Ts). destruct (Ts n Ln) as [(p & Ep & _ & T)|(_ & T)]; rewrite Est in T; injection T as ->; [|split; reflexivity]. cbn [fst snd].
    assert (NW : with_storage (e_units E) (e_storage E) <> []) by (intros W; unfold storage_nodes in Ep; rewrite W in Ep; destruct p; discriminate). rewrite (HT NW t ltac:(lia)) in Etm. injection Etm as <-. cbn [fst snd seq map]. rewrite Nat.add_0_r. unfold stored, before. split; reflexivity. }
  destruct X1 as (X1 & X2). rewrite X1, X2 in S1. unfold con_in, con_out, con_river in S1. rewrite !(Nat.mul_comm _ h) in S1. exact S1.
Qed.

Lemma river_balance_eq Y s r t h : rules Y s -> r < y_rivers Y -> t < y_time Y -> h < y_scen Y -> (y_dt Y * down Y s h t r == y_dt Y * up Y s h t r + content Y s h t r - content Y s h (t + 1) r)%Q.
Proof.
  intros RU Lr Lt Lh. destruct (ru_river Y s RU r t h Lr Lt Lh) as (c & B & S1). unfold river_balance in B. binv B. injection B as <-. apply get_inv in E as (-> & _). apply get_inv in E0 as (-> & _). apply get_inv in E1 as (-> & _). apply get_inv in E2 as (-> & _).
  cbn [sat eval] in S1. unfold con_river in S1. rewrite (Nat.mul_comm _ h) in S1. exact S1.
Qed.

(** One step of the whole system. *)
Lemma system_step E Y rs s t h : tidy E Y rs -> rules Y s -> y_rivers Y = List.length rs -> y_time Y = e_time E -> t < y_time Y -> h < y_scen Y ->
  (y_dt Y * below (List.length (y_in Y)) (water_in Y s h t) + below (y_rivers Y) (content Y s h t) + y_dt Y * below (s_no (y_stor Y)) (stored Y s h (before (e_time E) t)) ==
   y_dt Y * below (List.length (y_out Y)) (water_out Y s h t) + below (y_rivers Y) (content Y s h (t + 1)) + y_dt Y * below (s_no (y_stor Y)) (stored Y s h t))%Q.
Proof.
  intros TD RU LR TM Lt Lh. pose proof (td_nodes _ _ _ TD) as NO. destruct (td_in _ _ _ TD) as (_ & Fi & _). destruct (td_out _ _ _ TD) as (_ & Fo & _). destruct (td_stor _ _ _ TD) as (_ & Fs & _ & SN & _). cbv zeta in *. fold (storage_nodes E) in Fs.
  assert (F1 : Forall (fun x => 1 <= x <= y_nodes Y) (map ri_to rs)) by (rewrite Forall_map; eapply Forall_impl; [|exact NO]; cbn; tauto).
  assert (F2 : Forall (fun x => 1 <= x <= y_nodes Y) (map ri_from rs)) by (rewrite Forall_map; eapply Forall_impl; [|exact NO]; cbn; tauto).
  assert (LS : List.length (storage_nodes E) = s_no (y_stor Y)) by (unfold storage_nodes; now rewrite map_length).
  assert (B : (below (List.length (y_in Y)) (water_in Y s h t) + below (y_rivers Y) (down Y s h t) == below (y_rivers Y) (up Y s h t) + below (List.length (y_out Y)) (water_out Y s h t) + below (s_no (y_stor Y)) (stored Y s h t) - below (s_no (y_stor Y)) (stored Y s h (before (e_time E) t)))%Q).
  { rewrite <- LS, LR. rewrite <- (map_length ri_to rs) at 1. rewrite <- (map_length ri_from rs). rewrite <- (all_nodes _ _ (water_in Y s h t) Fi), <- (all_nodes _ _ (down Y s h t) F1), <- (all_nodes _ _ (up Y s h t) F2), <- (all_nodes _ _ (water_out Y s h t) Fo), <- (all_nodes _ _ (stored Y s h t) Fs), <- (all_nodes _ _ (stored Y s h (before (e_time E) t)) Fs).
    rewrite <- !below_add, <- below_sub. apply below_ext. intros n Ln. apply node_balance_eq; auto. }
  assert (R : (y_dt Y * below (y_rivers Y) (down Y s h t) == y_dt Y * below (y_rivers Y) (up Y s h t) + below (y_rivers Y) (content Y s h t) - below (y_rivers Y) (content Y s h (t + 1)))%Q).
  { rewrite <- !below_mul, <- below_add, <- below_sub. apply below_ext. intros r Lr. apply river_balance_eq; auto. }
  set (a := below _ (water_in _ _ _ _)) in *. set (d := below _ (down _ _ _ _)) in *. set (u := below _ (up _ _ _ _)) in *. set (o := below _ (water_out _ _ _ _)) in *. set (c0 := below _ (content _ _ _ t)) in *. set (c1 := below _ (content _ _ _ (t + 1))) in *. set (s1 := below _ (stored _ _ _ t)) in *. set (s0 := below _ (stored _ _ _ (before _ t))) in *.
  assert (B2 : (y_dt Y * (a + d) == y_dt Y * (u + o + s1 - s0))%Q) by now rewrite B. clearbody a d u o c0 c1 s1 s0. lra.
Qed.

Lemma before_S T t : before T (S t) = t.
Proof. unfold before. cbn. lia. Qed.

(** The first [t] steps. *)
Lemma system_steps E Y rs s h : tidy E Y rs -> rules Y s -> y_rivers Y = List.length rs -> y_time Y = e_time E -> h < y_scen Y -> forall t, t <= y_time Y ->
  (y_dt Y * below t (fun t => below (List.length (y_in Y)) (water_in Y s h t)) + below (y_rivers Y) (content Y s h 0) + y_dt Y * below (s_no (y_stor Y)) (stored Y s h (before (e_time E) 0)) ==
   y_dt Y * below t (fun t => below (List.length (y_out Y)) (water_out Y s h t)) + below (y_rivers Y) (content Y s h t) + y_dt Y * below (s_no (y_stor Y)) (stored Y s h (if t =? 0 then before (e_time E) 0 else t - 1)))%Q.
Proof.
  intros TD RU LR TM Lh t. induction t as [|t IH]; intros Lt; [change (y_dt Y * 0 + below (y_rivers Y) (content Y s h 0) + y_dt Y * below (s_no (y_stor Y)) (stored Y s h (before (e_time E) 0)) == y_dt Y * 0 + below (y_rivers Y) (content Y s h 0) + y_dt Y * below (s_no (y_stor Y)) (stored Y s h (before (e_time E) 0)))%Q; reflexivity|]. rewrite !below_S. pose proof (system_step E Y rs s t h TD RU LR TM ltac:(lia) Lh) as ST. specialize (IH ltac:(lia)).
  replace (S t =? 0) with false by reflexivity. replace (S t - 1) with t by lia. replace (t + 1) with (S t) in ST by lia.
  assert (Eb : (if t =? 0 then before (e_time E) 0 else t - 1) = before (e_time E) t) by (destruct t; unfold before; cbn; lia). rewrite Eb in IH. lra.
Qed.

(** ** Links between the ends of scenarios *)

Lemma soc_equal Y s l r : rules Y s -> In l (y_soc Y) -> r < y_rivers Y -> (s (HSoC (fst (fst l) + r) (snd (fst l))) == s (HSoC (fst (snd l) + r) (snd (snd l))))%Q.
Proof.
  intros RU I Lr. destruct (ru_soc Y s RU l r I Lr) as (c & B & S1). unfold soc_link in B. destruct l as ((a, b), (c0, d)). binv B. injection B as <-. apply get_inv in E as (-> & _). apply get_inv in E0 as (-> & _). exact S1.
Qed.

(** ** Shares *)

Lemma share_in rs nodes a sh : (forall n, n < nodes -> exists o, nth_error (a_out a) n = Some o /\ fst o = List.length (rivers_at ri_from rs (S n)) /\ mapM (nth_river (a_list a) o) (seq 0 (fst o)) = Ok (rivers_at ri_from rs (S n))) ->
  share_links rs nodes a = Ok sh -> forall n i b1 b2 r1 r2, n < nodes -> nth_error (rivers_at ri_from rs (S n)) i = Some b1 -> nth_error (rivers_at ri_from rs (S n)) (S i) = Some b2 -> nth_error rs b1 = Some r1 -> nth_error rs b2 = Some r2 ->
  ~ (ri_share r1 == 0)%Q /\ In (b1, b2, (ri_share r2 / ri_share r1)%Q) sh.
Proof.
  intros H E n i b1 b2 r1 r2 Ln N1 N2 R1 R2. unfold share_links in E. apply bind_inv in E as (ls & Els & E). injection E as <-. destruct (mapM_in _ _ _ n Els) as (l & El & Il); [apply in_seq; lia|]. cbv beta in El.
  destruct (H n Ln) as (o & Eo & Lo & Mo). rewrite (proj2 (at_nth _ _ _) Eo), bind_ok in El. assert (L2 : S i < List.length (rivers_at ri_from rs (S n))) by (apply nth_error_Some; congruence).
  destruct (mapM_in _ _ _ i El) as (w & Ew & Iw); [apply in_seq; lia|]. cbv beta in Ew.
  assert (NR : forall k b, nth_error (rivers_at ri_from rs (S n)) k = Some b -> nth_river (a_list a) o k = Ok b).
  { intros k b Ek. apply mapM_Ok in Mo. assert (Lk : k < List.length (rivers_at ri_from rs (S n))) by (apply nth_error_Some; congruence). destruct (F2_nth_r _ _ _ _ _ Mo Ek) as (x & Ex & Hx). rewrite nth_seq0 in Ex by lia. injection Ex as <-. exact Hx. }
  rewrite (NR i b1 N1), bind_ok in Ew. rewrite Nat.add_1_r, (NR (S i) b2 N2), bind_ok in Ew. rewrite (proj2 (at_nth _ _ _) R1), bind_ok in Ew. rewrite (proj2 (at_nth _ _ _) R2), bind_ok in Ew.
  destruct (Qeq_bool (ri_share r1) 0) eqn:Z; [discriminate|]. injection Ew as <-. split; [intros X; apply Qeq_eq_bool in X; congruence|]. apply in_concat. eauto.
Qed.

Lemma weights_eq Y s b1 b2 k t h : rules Y s -> In (b1, b2, k) (y_share Y) -> t < y_time Y -> h < y_scen Y -> (k * up Y s h t b1 == up Y s h t b2)%Q.
Proof.
  intros RU I Lt Lh. destruct (ru_weights Y s RU _ t h I Lt Lh) as (c & B & S1). unfold weights in B. binv B. injection B as <-. apply get_inv in E as (-> & _). apply get_inv in E0 as (-> & _). cbn [sat eval] in S1. unfold con_river in S1. rewrite (Nat.mul_comm _ h) in S1. exact S1.
Qed.

(** Flows of all rivers that leave a node are in the proportion of their shares. *)
Lemma share_chain (rs : list river) (l : list nat) (u : nat -> Q) : (forall b, In b l -> exists r, nth_error rs b = Some r) ->
  (forall i b1 b2 r1 r2, nth_error l i = Some b1 -> nth_error l (S i) = Some b2 -> nth_error rs b1 = Some r1 -> nth_error rs b2 = Some r2 -> ~ (ri_share r1 == 0)%Q /\ (ri_share r2 / ri_share r1 * u b1 == u b2)%Q) ->
  forall i j b1 b2 r1 r2, i <= j -> nth_error l i = Some b1 -> nth_error l j = Some b2 -> nth_error rs b1 = Some r1 -> nth_error rs b2 = Some r2 -> (ri_share r2 * u b1 == ri_share r1 * u b2)%Q.
Proof.
  intros HR HS i j. induction j as [|j IH]; intros b1 b2 r1 r2 Lij N1 N2 R1 R2.
  - replace i with 0 in * by lia. rewrite N1 in N2. injection N2 as ->. rewrite R1 in R2. injection R2 as ->. reflexivity.
  - destruct (Nat.eq_dec i (S j)) as [->|Ne]; [rewrite N1 in N2; injection N2 as ->; rewrite R1 in R2; injection R2 as ->; reflexivity|].
    assert (exists b, nth_error l j = Some b) as (b & Nb). { destruct (nth_error l j) eqn:X; eauto. apply nth_error_None in X. assert (S j < List.length l) by (apply nth_error_Some; congruence). lia. }
    destruct (HR b (nth_error_In _ _ Nb)) as (r & Rb). specialize (IH b1 b r1 r ltac:(lia) N1 Nb R1 Rb). destruct (HS j b b2 r r2 Nb N2 Rb R2) as (NZ & X). rewrite <- X.
    assert (Y : (ri_share r * (ri_share r2 * u b1) == ri_share r * (ri_share r1 * (ri_share r2 / ri_share r * u b)))%Q).
    { setoid_replace (ri_share r * (ri_share r1 * (ri_share r2 / ri_share r * u b)))%Q with (ri_share r2 * (ri_share r1 * u b))%Q by (field; auto). rewrite <- IH. ring. }
    apply Qmult_inj_l in Y; auto.
Qed.
