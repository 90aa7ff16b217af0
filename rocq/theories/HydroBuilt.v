(** Well set settings give a model. *)
From Coq Require Import List Bool Arith ZArith QArith Lia Lqa.
From Verif Require Import Base GraphData GraphDataProofs Cases CasesProofs Network InputOutput InputOutputProofs ConverterOpen Hydro HydroSpec HydroNet HydroParts HydroTables HydroModel HydroFlow HydroLimits.
Import ListNotations.
Open Scope nat_scope.
Open Scope list_scope.

Local Ltac sp := repeat match goal with |- _ /\ _ => split end.

(** ** Output constraints *)

Lemma first_to_ok rs node : forall k, In node (map ri_to rs) -> exists i r, first_to rs node k = Ok (k + i) /\ nth_error rs i = Some r /\ ri_to r = node /\ forall j q, nth_error rs j = Some q -> j < i -> ri_to q <> node.
Proof.
  induction rs as [|r rs IH]; intros k I; [destruct I|]. cbn [first_to]. destruct (Nat.eqb_spec (ri_to r) node) as [E|N].
  - exists 0, r. rewrite Nat.add_0_r. sp; auto. intros j q _ L. lia.
  - destruct I as [I|I]; [contradiction|]. destruct (IH (S k) I) as (i & x & E & Nx & Ex & U). exists (S i), x. rewrite E. sp; auto; [f_equal; lia|]. intros [|j] q Ej L; [cbn in Ej; congruence|]. cbn in Ej. apply (U j q Ej). lia.
Qed.
Lemma first_to_none rs node : forall k, ~ In node (map ri_to rs) -> first_to rs node k = Err IndexError.
Proof. induction rs as [|r rs IH]; intros k N; [reflexivity|]. cbn [first_to]. cbn in N. destruct (Nat.eqb_spec (ri_to r) node); [tauto|]. apply IH. tauto. Qed.

(** [l] lists the output nodes without a river that leaves, by position, each with the first river that ends there. *)
Definition outlets (rs : list river) (n_out : list nat) (l : list (nat * nat)) : Prop :=
  forall o xr, In (o, xr) l <-> exists x r, nth_error n_out o = Some x /\ ~ In x (map ri_from rs) /\ nth_error rs xr = Some r /\ ri_to r = x /\ forall j q, nth_error rs j = Some q -> j < xr -> ri_to q <> x.
Lemma existsb_nat x l : existsb (Nat.eqb x) l = true <-> In x l.
Proof. rewrite existsb_exists. split; [intros (y & I & E); apply Nat.eqb_eq in E; now subst|intros I; exists x; split; auto; apply Nat.eqb_refl]. Qed.
Lemma out_ok rs n_out : (forall x, In x n_out -> In x (map ri_from rs) \/ In x (map ri_to rs)) -> exists l, out_constraints rs n_out = Ok l /\ outlets rs n_out l.
Proof.
  intros H. unfold out_constraints.
  assert (X : forall l2 l1 acc, n_out = l1 ++ l2 -> outlets rs l1 acc -> exists l, foldM (fun l ix => if existsb (Nat.eqb (snd ix)) (map ri_from rs) then Ok l else do xr <- first_to rs (snd ix) 0; Ok (l ++ [(fst ix, xr)])) (combine (seq (List.length l1) (List.length l2)) l2) acc = Ok l /\ outlets rs n_out l).
  { induction l2 as [|x l2 IH]; intros l1 acc E O; [rewrite List.app_nil_r in E; subst; exists acc; auto|]. cbn [List.length seq combine foldM fst snd].
    destruct (existsb (Nat.eqb x) (map ri_from rs)) eqn:EX.
    - cbn [rbind]. apply existsb_nat in EX. destruct (IH (l1 ++ [x]) acc) as (l & El & Ol); [now rewrite <- app_assoc| |rewrite app_length, Nat.add_1_r in El; eauto].
      intros o xr. rewrite (O o xr). split; intros (y & r & N & NI & R); exists y, r; split; auto; [apply nth_snoc; now left|]. apply nth_snoc in N as [N|(_ & ->)]; [auto|contradiction].
    - assert (NI : ~ In x (map ri_from rs)) by (intros I; apply existsb_nat in I; congruence). destruct (H x) as [I|I]; [rewrite E, in_app_iff; right; now left|contradiction|]. destruct (first_to_ok rs x 0 I) as (i & r & Ei & Nr & Er & U). rewrite Ei. cbn [rbind Nat.add].
      destruct (IH (l1 ++ [x]) (acc ++ [(List.length l1, i)])) as (l & El & Ol); [now rewrite <- app_assoc| |rewrite app_length, Nat.add_1_r in El; eauto].
      intros o xr. rewrite in_app_iff. cbn [In]. rewrite (O o xr). split.
      + intros [(y & q & N & R)|[X|[]]]; [exists y, q; split; auto; apply nth_snoc; now left|]. injection X as <- <-. exists x, r. sp; auto. apply nth_snoc. auto.
      + intros (y & q & N & NI2 & R & Ey & U2). apply nth_snoc in N as [N|(-> & ->)]; [left; exists y, q; auto|]. right. left. f_equal. destruct (Nat.lt_trichotomy i xr) as [L|[L|L]]; auto; exfalso; [exact (U2 i r Nr L Er)|exact (U xr q R L Ey)]. }
  apply (X n_out [] []); auto. intros o xr. split; [intros []|]. intros (x & r & N & _). destruct o; discriminate.
Qed.
Lemma out_inv rs n_out l : out_constraints rs n_out = Ok l -> forall x, In x n_out -> In x (map ri_from rs) \/ In x (map ri_to rs).
Proof.
  intros H x I. destruct (in_dec Nat.eq_dec x (map ri_from rs)) as [|N1]; [now left|]. destruct (in_dec Nat.eq_dec x (map ri_to rs)) as [|N2]; [now right|]. exfalso. unfold out_constraints in H.
  assert (X : forall l2 k acc, In x l2 -> foldM (fun l ix => if existsb (Nat.eqb (snd ix)) (map ri_from rs) then Ok l else do xr <- first_to rs (snd ix) 0; Ok (l ++ [(fst ix, xr)])) (combine (seq k (List.length l2)) l2) acc <> Ok l).
  { induction l2 as [|y l2 IH]; intros k acc J; [destruct J|]. cbn [List.length seq combine foldM fst snd]. destruct J as [->|J].
    - destruct (existsb (Nat.eqb x) (map ri_from rs)) eqn:EX; [apply existsb_nat in EX; contradiction|]. rewrite (first_to_none _ _ _ N2). cbn [rbind]. discriminate.
    - destruct (existsb (Nat.eqb y) (map ri_from rs)); [cbn [rbind]; now apply IH|]. destruct (first_to rs y 0); [|discriminate]. cbn [rbind]. now apply IH. }
  exact (X n_out 0 [] I H).
Qed.
Lemma outlets_of rs n_out l : out_constraints rs n_out = Ok l -> outlets rs n_out l.
Proof. intros H. destruct (out_ok rs n_out (out_inv _ _ _ H)) as (l2 & E & O). rewrite H in E. now injection E as <-. Qed.

(** ** All constraints can be built *)

Lemma over_total Y {A} (l : list A) f : (forall a t h, In a l -> t < y_time Y -> h < y_scen Y -> exists c, f a t h = Ok c) -> exists cs, over Y l f = Ok cs.
Proof.
  intros H. unfold over. destruct (mapM_total (fun a => do r <- mapM (fun t => mapM (fun h => f a t h) (seq 0 (y_scen Y))) (seq 0 (y_time Y)); Ok (List.concat r)) l) as (m & E).
  - intros a I. destruct (mapM_total (fun t => mapM (fun h => f a t h) (seq 0 (y_scen Y))) (seq 0 (y_time Y))) as (m & E); [|rewrite E; cbn; eauto]. intros t It. apply in_seq in It. apply mapM_total. intros h Ih. apply in_seq in Ih. apply H; auto; lia.
  - rewrite E. cbn. eauto.
Qed.
Lemma get_ok Y v : declared Y v = true -> get Y v = Ok (EV v).
Proof. unfold get. now intros ->. Qed.
Lemma gets_ok Y vs : (forall v, In v vs -> declared Y v = true) -> exists e, gets Y vs = Ok e.
Proof. intros H. unfold gets. destruct (mapM_total (get Y) vs) as (m & E); [intros v I; rewrite (get_ok Y v (H v I)); eauto|]. rewrite E. cbn. eauto. Qed.

Section Declared.
Variable Y : hydro.
Lemma dec_river (w : nat -> nat -> var) r t h : (forall i t, declared Y (w i t) = (i <? y_scen Y * y_rivers Y) && (t <? y_time Y)) -> r < y_rivers Y -> t < y_time Y -> h < y_scen Y -> declared Y (w (con_river Y h + r) t) = true.
Proof. intros H Lr Lt Lh. rewrite H. apply andb_true_intro. unfold con_river. split; apply Nat.ltb_lt; auto. nia. Qed.
Lemma dec_up r t h : r < y_rivers Y -> t < y_time Y -> h < y_scen Y -> get Y (HUp (con_river Y h + r) t) = Ok (EV (HUp (con_river Y h + r) t)).
Proof. intros. apply get_ok, (dec_river HUp); auto. Qed.
Lemma dec_down r t h : r < y_rivers Y -> t < y_time Y -> h < y_scen Y -> get Y (HDown (con_river Y h + r) t) = Ok (EV (HDown (con_river Y h + r) t)).
Proof. intros. apply get_ok, (dec_river HDown); auto. Qed.
Lemma dec_soc r t h : r < y_rivers Y -> t <= y_time Y -> h < y_scen Y -> get Y (HSoC (con_river Y h + r) t) = Ok (EV (HSoC (con_river Y h + r) t)).
Proof. intros Lr Lt Lh. apply get_ok. unfold declared, con_river. apply andb_true_intro. split; apply Nat.ltb_lt; [nia|lia]. Qed.
Lemma dec_slack r t h : r < y_rivers Y -> t < y_time Y -> h < y_scen Y -> exists e, slack Y r t h = Ok e.
Proof. intros. unfold slack. rewrite get_ok by (apply slack_declared; auto). eauto. Qed.
Lemma dec_in i t h : i < List.length (y_in Y) -> t < y_time Y -> h < y_scen Y -> declared Y (HIn (con_in Y h + i) t) = true.
Proof. intros. unfold declared, con_in. apply andb_true_intro. split; apply Nat.ltb_lt; [nia|lia]. Qed.
Lemma dec_out i t h : i < List.length (y_out Y) -> t < y_time Y -> h < y_scen Y -> declared Y (HOut (con_out Y h + i) t) = true.
Proof. intros. unfold declared, con_out. apply andb_true_intro. split; apply Nat.ltb_lt; [nia|lia]. Qed.
Lemma dec_stor i t h : i < s_no (y_stor Y) -> t < y_time Y -> h < y_scen Y -> declared Y (HStor (h * s_no (y_stor Y) + i) t) = true.
Proof. intros. unfold declared. rewrite !andb_true_iff. repeat split; [apply Bool.negb_true_iff, Nat.eqb_neq; lia|apply Nat.ltb_lt; nia|apply Nat.ltb_lt; lia]. Qed.
End Declared.

(** Given inputs name declared variables. *)
Definition inputs_ok (E : settings) (n_in : nat) : Prop :=
  Forall (fun f => fst (fst f) < e_scen E * n_in /\ snd (fst f) < e_time E) (e_fixed E) /\
  (List.length (e_incn E) = 1 -> Forall (fun n => n < e_scen E * n_in) (e_incn E) /\ e_time E <= List.length (e_series1 E)) /\
  (1 < List.length (e_incn E) -> Forall (fun n => n < n_in) (e_incn E) /\ (exists hs, firstn (List.length (e_incn E)) (e_incs E) = hs /\ List.length hs = List.length (e_incn E) /\ Forall (fun h => h < e_scen E) hs) /\
    List.length (e_incn E) <= List.length (e_series E) /\ Forall (fun l => e_time E <= List.length l) (e_series E)).

Lemma at_some {A} (l : list A) i : i < List.length l -> exists a, at_ l i = Ok a /\ In a l.
Proof. intros L. destruct (nth_error l i) as [a|] eqn:E; [|apply nth_error_None in E; lia]. exists a. split; [now apply at_nth|eapply nth_error_In; eauto]. Qed.
Lemma table_entry size nodes t n : table size nodes t -> n < size -> exists e, at_ t n = Ok e /\ (fst e = 0 \/ fst e = 1 /\ snd e < List.length nodes).
Proof.
  intros (L & H) Ln. destruct (H n Ln) as [(p & E & _ & T)|(_ & T)]; eexists; (split; [apply at_nth; exact T|]); cbn; auto. right. split; auto. apply nth_error_Some. congruence.
Qed.

Section Powers.
Variables (pow53 root pow23 : Q -> Q).

Lemma ramp_all rs ramp rp : rs <> [] -> ramp_limit pow53 root rs ramp = Ok rp -> exists q, rp = RampAll q.
Proof.
  intros N. unfold ramp_limit. destruct rs as [|r rs]; [contradiction|]. cbn [List.length seq combine foldM]. intros H. apply bind_inv in H as (a & Ea & H). apply bind_inv in Ea as (k & _ & Ea). injection Ea as <-.
  assert (X : forall l q, foldM (fun _ ir => do k <- at_ ramp (fst ir); Ok (RampAll ((q_max pow53 root (snd ir) - q_min pow53 root (snd ir)) * inject_Z (Z.of_nat k))%Q)) l (RampAll q) = Ok rp -> exists q, rp = RampAll q).
  { induction l as [|x l IH]; intros q; cbn [foldM]; [intros [= <-]; eauto|]. intros H2. apply bind_inv in H2 as (a & Ea & H2). apply bind_inv in Ea as (k2 & _ & Ea). injection Ea as <-. eauto. }
  eauto.
Qed.
Lemma share_rivers rs nodes a sh b1 b2 k : share_links rs nodes a = Ok sh -> In (b1, b2, k) sh -> b1 < List.length rs /\ b2 < List.length rs.
Proof.
  unfold share_links. intros H I. apply bind_inv in H as (ls & El & H). injection H as <-. apply in_concat in I as (l & Il & I). apply mapM_Ok in El. apply In_nth_error in Il as (i & Ei). destruct (F2_nth_r _ _ _ _ _ El Ei) as (n & _ & Hn). cbv beta in Hn. apply bind_inv in Hn as (cp & _ & Hn). apply mapM_Ok in Hn. apply In_nth_error in I as (j & Ej). destruct (F2_nth_r _ _ _ _ _ Hn Ej) as (x & _ & Hx). cbv beta in Hx.
  apply bind_inv in Hx as (c1 & _ & Hx). apply bind_inv in Hx as (c2 & _ & Hx). apply bind_inv in Hx as (r1 & R1 & Hx). apply bind_inv in Hx as (r2 & R2 & Hx). destruct (Qeq_bool (ri_share r1) 0); [discriminate|]. injection Hx as -> -> <-. apply at_nth in R1, R2. split; apply nth_error_Some; congruence.
Qed.
Lemma soc_range lf lt scen rivers time l a b c d : soc_links lf lt scen rivers time = Ok l -> In (a, b, (c, d)) l -> exists h g, h < scen /\ g < scen /\ a = rivers * h /\ c = rivers * g /\ b <= time /\ d <= time.
Proof.
  unfold soc_links. destruct lf as [|f lf]; [discriminate|]. intros H I. apply mapM_Ok in H. apply In_nth_error in I as (i & Ei). destruct (F2_nth_r _ _ _ _ _ H Ei) as (x & _ & Hx). cbv beta in Hx.
  apply bind_inv in Hx as (f1 & _ & Hx). apply bind_inv in Hx as (t1 & _ & Hx). apply bind_inv in Hx as (a1 & A1 & Hx). apply bind_inv in Hx as (b1 & B1 & Hx). apply bind_inv in Hx as (c1 & C1 & Hx). apply bind_inv in Hx as (d1 & D1 & Hx). injection Hx as -> -> -> ->.
  destruct (Nat.ltb_spec (fst f1) scen) as [L1|]; [|discriminate]. destruct (Nat.ltb_spec (fst t1) scen) as [L2|]; [|discriminate]. injection A1 as <-. injection C1 as <-. exists (fst f1), (fst t1). apply at_nth in B1, D1.
  assert (TT : forall k v, nth_error [0; time] k = Some v -> v <= time) by (intros [|[|k]] v X; cbn in X; try (injection X as <-); try lia; destruct k; discriminate). sp; eauto.
Qed.

Theorem constraints_total E Y rs nodes ramp : well_set E -> made pow53 root pow23 E Y rs nodes ramp -> inputs_ok E (List.length (y_in Y)) -> exists cs, constraints Y = Ok cs.
Proof.
  intros W M (IF & I1 & IM). destruct (made_tidy pow53 root pow23 _ _ _ _ _ W M) as (TD & parts & pieces & _ & _ & _ & NE & _ & _). pose proof (md_rivers _ _ _ _ _ _ _ _ M) as LR. pose proof (md_time _ _ _ _ _ _ _ _ M) as TM. pose proof (md_scen _ _ _ _ _ _ _ _ M) as SC.
  assert (TP : 1 <= e_time E) by (destruct W as (? & _ & _ & W); cbv zeta in W; tauto).
  assert (QM : forall r, r < y_rivers Y -> exists q, at_ (y_qmax Y) r = Ok q). { intros r L. destruct (at_some (y_qmax Y) r) as (q & E1 & _); eauto. rewrite (md_qmax _ _ _ _ _ _ _ _ M), map_length. lia. }
  assert (Qm : forall r, r < y_rivers Y -> exists q, at_ (y_qmin Y) r = Ok q). { intros r L. destruct (at_some (y_qmin Y) r) as (q & E1 & _); eauto. rewrite (md_qmin _ _ _ _ _ _ _ _ M), map_length. lia. }
  assert (QL : forall r, r < y_rivers Y -> exists q, at_ (y_qlin Y) r = Ok q). { intros r L. destruct (at_some (y_qlin Y) r) as (q & E1 & _); eauto. rewrite (md_qlin _ _ _ _ _ _ _ _ M), map_length. lia. }
  assert (FL : forall r, r < y_rivers Y -> exists q, at_ (y_flin Y) r = Ok q). { intros r L. destruct (at_some (y_flin Y) r) as (q & E1 & _); eauto. rewrite (md_flin _ _ _ _ _ _ _ _ M), map_length. lia. }
  assert (RS : forall (f : nat -> nat -> nat -> res constr), (forall r t h, r < y_rivers Y -> t < y_time Y -> h < y_scen Y -> exists c, f r t h = Ok c) -> exists cs, over Y (rivers_set Y) f = Ok cs). { intros f H. apply over_total. intros r t h I. apply in_seq in I. apply H. lia. }
  destruct (ramp_all _ _ _ NE (md_ramp _ _ _ _ _ _ _ _ M)) as (rq & RQ).
  unfold constraints.
  destruct (RS (max_down Y)) as (c1 & C1). { intros r t h Lr Lt Lh. unfold max_down. rewrite dec_down by auto. rewrite bind_ok. destruct (QM r Lr) as (q & ->). rewrite bind_ok. destruct (dec_slack Y r t h Lr Lt Lh) as (e & ->). cbn. eauto. } rewrite C1, bind_ok.
  destruct (RS (max_up Y)) as (c2 & C2). { intros r t h Lr Lt Lh. unfold max_up. rewrite dec_up by auto. rewrite bind_ok. destruct (QM r Lr) as (q & ->). rewrite bind_ok. destruct (dec_slack Y r t h Lr Lt Lh) as (e & ->). cbn. eauto. } rewrite C2, bind_ok.
  destruct (RS (min_down Y)) as (c3 & C3). { intros r t h Lr Lt Lh. unfold min_down. rewrite dec_down by auto. rewrite bind_ok. destruct (Qm r Lr) as (q & ->). rewrite bind_ok. destruct (dec_slack Y r t h Lr Lt Lh) as (e & ->). cbn. eauto. } rewrite C3, bind_ok.
  destruct (RS (min_up Y)) as (c4 & C4). { intros r t h Lr Lt Lh. unfold min_up. rewrite dec_up by auto. rewrite bind_ok. destruct (Qm r Lr) as (q & ->). rewrite bind_ok. destruct (dec_slack Y r t h Lr Lt Lh) as (e & ->). cbn. eauto. } rewrite C4, bind_ok.
  destruct (over_total Y (y_minout Y) (min_out Y)) as (c5 & C5).
  { intros (o, xr) t h I Lt Lh. apply (outlets_of _ _ _ (md_out _ _ _ _ _ _ _ _ M)) in I as (x & r & Nx & _ & Nr & _). assert (Lo : o < List.length (y_out Y)) by (apply nth_error_Some; congruence). assert (Lr : xr < y_rivers Y) by (rewrite LR; apply nth_error_Some; congruence).
    unfold min_out. cbn [fst snd]. rewrite get_ok by (apply dec_out; auto). rewrite bind_ok. destruct (Qm xr Lr) as (q & ->). rewrite bind_ok. destruct (dec_slack Y xr t h Lr Lt Lh) as (e & ->). cbn. eauto. } rewrite C5, bind_ok.
  destruct (over_total Y (seq 0 (y_nodes Y)) (node_balance Y)) as (c6 & C6).
  { intros n t h I Lt Lh. apply in_seq in I. assert (Ln : n < y_nodes Y) by lia. clear I. unfold node_balance. destruct (td_in _ _ _ TD) as (_ & _ & Ti). destruct (td_out _ _ _ TD) as (_ & _ & To). destruct (td_adj _ _ _ TD n Ln) as (ao & ai & Eo & Ei & Mo & Mi). destruct (td_stor _ _ _ TD) as (_ & _ & Ts & SN & _ & LT & HT). cbv zeta in *.
    destruct (table_entry _ _ _ _ Ts Ln) as (st & -> & Dst). rewrite bind_ok. destruct (table_entry _ _ _ _ Ti Ln) as (li & -> & Dli). rewrite bind_ok. destruct (table_entry _ _ _ _ To Ln) as (lo & -> & Dlo). rewrite bind_ok. rewrite (proj2 (at_nth _ _ _) Ei), bind_ok. rewrite (proj2 (at_nth _ _ _) Eo), bind_ok.
    destruct (at_some (s_time (y_stor Y)) t ltac:(lia)) as (tm & Etm & _). rewrite Etm, bind_ok. cbv zeta.
    destruct (gets_ok Y (map (fun _ => HIn (con_in Y h + snd li) t) (seq 0 (fst li)))) as (e1 & ->). { intros v Iv. apply in_map_iff in Iv as (k & <- & Ik). apply in_seq in Ik. apply dec_in; auto. lia. } rewrite bind_ok, Mi, bind_ok.
    destruct (gets_ok Y (map (fun b => HDown (con_river Y h + b) t) (rivers_at ri_to rs (S n)))) as (e2 & ->). { intros v Iv. apply in_map_iff in Iv as (k & <- & Ik). apply rivers_at_bound in Ik. apply (dec_river Y HDown); auto. lia. } rewrite bind_ok, Mo, bind_ok.
    destruct (gets_ok Y (map (fun b => HUp (con_river Y h + b) t) (rivers_at ri_from rs (S n)))) as (e3 & ->). { intros v Iv. apply in_map_iff in Iv as (k & <- & Ik). apply rivers_at_bound in Ik. apply (dec_river Y HUp); auto. lia. } rewrite bind_ok.
    destruct (gets_ok Y (map (fun _ => HOut (con_out Y h + snd lo) t) (seq 0 (fst lo)))) as (e4 & ->). { intros v Iv. apply in_map_iff in Iv as (k & <- & Ik). apply in_seq in Ik. apply dec_out; auto. lia. } rewrite bind_ok.
    assert (DS : forall k tt, k < fst st -> tt < y_time Y -> declared Y (HStor (h * s_no (y_stor Y) + snd st + k) tt) = true). { intros k tt Lk Ltt. destruct Dst as [Z|(Z & Lz)]; [lia|]. replace (h * s_no (y_stor Y) + snd st + k) with (h * s_no (y_stor Y) + snd st) by lia. apply dec_stor; auto. rewrite map_length in Lz. lia. }
    assert (TT : 0 < fst st -> fst tm < y_time Y /\ snd tm < y_time Y). { intros P. destruct Dst as [Z|(_ & Lz)]; [lia|]. assert (NW : with_storage (e_units E) (e_storage E) <> []) by (intros Z; rewrite Z in Lz; cbn in Lz; lia). apply at_nth in Etm. rewrite (HT NW t ltac:(lia)) in Etm. injection Etm as <-. cbn [fst snd]. destruct (t =? 0); lia. }
    destruct (gets_ok Y (map (fun x => HStor (h * s_no (y_stor Y) + snd st + x) (fst tm)) (seq 0 (fst st)))) as (e5 & ->). { intros v Iv. apply in_map_iff in Iv as (k & <- & Ik). apply in_seq in Ik. apply DS; [lia|]. apply TT. lia. } rewrite bind_ok.
    destruct (gets_ok Y (map (fun x => HStor (h * s_no (y_stor Y) + snd st + x) (snd tm)) (seq 0 (fst st)))) as (e6 & ->). { intros v Iv. apply in_map_iff in Iv as (k & <- & Ik). apply in_seq in Ik. apply DS; [lia|]. apply TT. lia. } rewrite bind_ok. eauto. } rewrite C6, bind_ok.
  assert (PN : exists c, penalty_rule Y = Ok c).
  { unfold penalty_rule. destruct (mapM_total (fun h => do l <- mapM (fun t => do l <- mapM (fun r => slack Y r t h) (seq 0 (y_rivers Y)); Ok (EMul (y_penalty Y) (esum l))) (seq 0 (y_time Y)); Ok (esum l)) (seq 0 (y_scen Y))) as (m & ->); [|cbn; eauto]. intros h Ih. apply in_seq in Ih.
    destruct (mapM_total (fun t => do l <- mapM (fun r => slack Y r t h) (seq 0 (y_rivers Y)); Ok (EMul (y_penalty Y) (esum l))) (seq 0 (y_time Y))) as (m & ->); [|cbn; eauto]. intros t It. apply in_seq in It.
    destruct (mapM_total (fun r => slack Y r t h) (seq 0 (y_rivers Y))) as (m & ->); [|cbn; eauto]. intros r Ir. apply in_seq in Ir. apply dec_slack; lia. }
  destruct PN as (c7 & C7). rewrite C7, bind_ok.
  destruct (RS (river_balance Y)) as (c8 & C8). { intros r t h Lr Lt Lh. unfold river_balance. rewrite dec_down by auto. rewrite bind_ok. rewrite dec_up by auto. rewrite bind_ok. rewrite dec_soc by (auto; lia). rewrite bind_ok. rewrite dec_soc by (auto; lia). rewrite bind_ok. eauto. } rewrite C8, bind_ok.
  destruct (over_total Y (y_share Y) (weights Y)) as (c9 & C9). { intros ((b1, b2), k) t h I Lt Lh. destruct (share_rivers _ _ _ _ _ _ _ (md_share _ _ _ _ _ _ _ _ M) I) as (L1 & L2). unfold weights. rewrite dec_up by (auto; lia). rewrite bind_ok. rewrite dec_up by (auto; lia). rewrite bind_ok. eauto. } rewrite C9, bind_ok.
  destruct (mapM_total (fun l => mapM (soc_link Y l) (rivers_set Y)) (y_soc Y)) as (c10 & C10). { intros ((a, b), (c, d)) I. apply mapM_total. intros r Ir. apply in_seq in Ir. destruct (soc_range _ _ _ _ _ _ _ _ _ _ (md_soc _ _ _ _ _ _ _ _ M) I) as (h & g & Lh & Lg & -> & -> & Lb & Ld). unfold soc_link. rewrite <- LR. fold (con_river Y h). fold (con_river Y g). rewrite dec_soc by lia. rewrite bind_ok. rewrite dec_soc by lia. rewrite bind_ok. eauto. } rewrite C10, bind_ok.
  destruct (RS (down_time Y)) as (c11 & C11). { intros r t h Lr Lt Lh. unfold down_time. rewrite dec_down by auto. rewrite bind_ok. destruct (FL r Lr) as (((f0, f1), f2) & ->). rewrite bind_ok. rewrite dec_up by auto. rewrite bind_ok. destruct (dec_slack Y r t h Lr Lt Lh) as (e & ->). rewrite bind_ok. rewrite dec_soc by (auto; lia). rewrite bind_ok. destruct (QL r Lr) as (q & ->). rewrite bind_ok. destruct (Qm r Lr) as (qq & ->). rewrite bind_ok. eauto. } rewrite C11, bind_ok.
  destruct (mapM_total (fixed_input Y) (y_fixed Y)) as (c12 & C12). { intros f I. rewrite (md_fixed _ _ _ _ _ _ _ _ M) in I. rewrite Forall_forall in IF. specialize (IF f I). unfold fixed_input. rewrite get_ok; [cbn; eauto|]. unfold declared. apply andb_true_intro. split; apply Nat.ltb_lt; rewrite ?SC, ?TM; tauto. } rewrite C12, bind_ok.
  destruct (over_total Y (seq 0 (s_no (y_stor Y))) (stor_max Y)) as (c13 & C13). { intros n t h I Lt Lh. apply in_seq in I. unfold stor_max. rewrite get_ok by (apply dec_stor; auto; lia). rewrite bind_ok. destruct (td_stor _ _ _ TD) as (_ & _ & _ & SN & CP & _). cbv zeta in *. destruct (nth_error (with_storage (e_units E) (e_storage E)) n) as [uq|] eqn:Eu; [|apply nth_error_None in Eu; lia]. rewrite (proj2 (at_nth _ (n + 1) _)) with (1 := eq_trans (f_equal _ (Nat.add_1_r n)) (CP n uq Eu)). cbn. eauto. } rewrite C13, bind_ok.
  destruct (mapM_total (stor_link Y) (seq 0 (y_scen Y * s_no (y_stor Y)))) as (c14 & C14). { intros n I. apply in_seq in I. unfold stor_link. assert (DD : forall t, t < y_time Y -> declared Y (HStor n t) = true). { intros t Lt. unfold declared. rewrite !andb_true_iff. repeat split; [apply Bool.negb_true_iff, Nat.eqb_neq; nia|apply Nat.ltb_lt; lia|apply Nat.ltb_lt; lia]. } rewrite get_ok by (apply DD; lia). rewrite bind_ok. rewrite get_ok by (apply DD; lia). rewrite bind_ok. eauto. } rewrite C14, bind_ok.
  assert (FT : forall t, t < y_time Y -> feas_time Y t < y_time Y) by (intros t Lt; unfold feas_time; destruct (y_feas Y); lia).
  destruct (RS (ramp_down Y)) as (c15 & C15). { intros r t h Lr Lt Lh. unfold ramp_down. rewrite dec_up by auto. rewrite bind_ok. rewrite dec_up by auto. rewrite bind_ok, RQ. eauto. } rewrite C15, bind_ok.
  destruct (RS (ramp_up Y)) as (c16 & C16). { intros r t h Lr Lt Lh. unfold ramp_up. rewrite dec_up by auto. rewrite bind_ok. rewrite dec_up by auto. rewrite bind_ok, RQ. eauto. } rewrite C16, bind_ok.
  rewrite (md_incn _ _ _ _ _ _ _ _ M).
  assert (C17 : exists c, match e_incn E with [] => Ok [] | [_] => mapM (fixed_vector Y) (seq 0 (y_time Y)) | _ => do l <- mapM (fun t => mapM (fixed_matrix Y t) (seq 0 (List.length (e_incn E)))) (seq 0 (y_time Y)); Ok (List.concat l) end = Ok c).
  { destruct (e_incn E) as [|n1 [|n2 ns]] eqn:EI; [eauto| |].
    - destruct (I1 eq_refl) as (F1 & L1). apply mapM_total. intros t It. apply in_seq in It. unfold fixed_vector. rewrite (md_incn _ _ _ _ _ _ _ _ M), EI. cbn [at_ nth_error]. rewrite bind_ok. inversion F1; subst. rewrite get_ok by (unfold declared; apply andb_true_intro; split; apply Nat.ltb_lt; [rewrite SC; auto|lia]). rewrite bind_ok. rewrite (md_series1 _ _ _ _ _ _ _ _ M). destruct (at_some (e_series1 E) t ltac:(lia)) as (q & -> & _). cbn. eauto.
    - destruct IM as (F1 & (hs & Ehs & Lhs & Fhs) & LS & FS); [cbn; lia|]. assert (LI : List.length (e_incn E) = List.length (n1 :: n2 :: ns)) by now rewrite EI. rewrite <- EI in *. destruct (mapM_total (fun t => mapM (fixed_matrix Y t) (seq 0 (List.length (e_incn E)))) (seq 0 (y_time Y))) as (m & Em); [|rewrite Em; cbn; eauto]. intros t It. apply in_seq in It. apply mapM_total. intros x Ix. apply in_seq in Ix.
      unfold fixed_matrix. rewrite (md_incs _ _ _ _ _ _ _ _ M), (md_incn _ _ _ _ _ _ _ _ M), (md_series _ _ _ _ _ _ _ _ M), SC. destruct (at_some hs x ltac:(lia)) as (h & Eh & Ih). assert (Eh2 : at_ (e_incs E) x = Ok h). { apply at_nth in Eh. apply at_nth. rewrite <- Ehs in Eh. rewrite <- Eh. symmetry. apply ReaderProofs.nth_error_firstn_lt. lia. } rewrite Eh2, bind_ok. rewrite Forall_forall in Fhs. rewrite (proj2 (Nat.ltb_lt _ _)) by (apply Fhs; auto). rewrite bind_ok.
      destruct (at_some (e_incn E) x ltac:(lia)) as (n & -> & In_). rewrite bind_ok. rewrite Forall_forall in F1. rewrite get_ok by (apply dec_in; [apply F1; auto|lia|rewrite SC; apply Fhs; auto]). rewrite bind_ok. destruct (at_some (e_series E) x ltac:(lia)) as (sr & -> & Isr). rewrite bind_ok. rewrite Forall_forall in FS. specialize (FS sr Isr). destruct (at_some sr t ltac:(lia)) as (q & -> & _). cbn. eauto. }
  destruct C17 as (c17 & C17). rewrite C17, bind_ok. eauto.
Qed.
End Powers.

(** ** A model is made *)

Section Making.
Variables (pow53 root pow23 : Q -> Q).

Lemma soc_total lf lt scen rivers time : lf <> [] -> List.length lf <= List.length lt -> Forall (fun l => fst l < scen /\ snd l <= 1) lf -> Forall (fun l => fst l < scen /\ snd l <= 1) (firstn (List.length lf) lt) -> exists l, soc_links lf lt scen rivers time = Ok l /\
  Forall2 (fun ft x => x = (rivers * fst (fst ft), if snd (fst ft) =? 0 then 0 else time, (rivers * fst (snd ft), if snd (snd ft) =? 0 then 0 else time))) (combine lf lt) l.
Proof.
  intros N L F1 F2. unfold soc_links. destruct lf as [|f lf]; [contradiction|]. set (LF := f :: lf) in *.
  assert (EN : forall k, k <= 1 -> at_ [0; time] k = Ok (if k =? 0 then 0 else time)) by (intros [|[|k]] B; [reflexivity|reflexivity|lia]).
  assert (X : forall i, i < List.length LF -> exists a b, nth_error LF i = Some a /\ nth_error lt i = Some b /\ (fst a < scen /\ snd a <= 1) /\ fst b < scen /\ snd b <= 1).
  { intros i Li. destruct (nth_error LF i) as [a|] eqn:Ea; [|apply nth_error_None in Ea; lia]. destruct (nth_error lt i) as [b|] eqn:Eb; [|apply nth_error_None in Eb; lia]. exists a, b. rewrite Forall_forall in F1, F2. split; [auto|]. split; [auto|]. split; [apply F1; eapply nth_error_In; eauto|apply F2; eapply nth_error_In with (n := i); rewrite ReaderProofs.nth_error_firstn_lt; auto]. }
  set (g := fun i => _ : res (nat * nat * (nat * nat))).
  assert (G : forall i a b, nth_error LF i = Some a -> nth_error lt i = Some b -> i < List.length LF -> g i = Ok (rivers * fst a, if snd a =? 0 then 0 else time, (rivers * fst b, if snd b =? 0 then 0 else time))).
  { intros i a b Ea Eb Li. destruct (X i Li) as (a2 & b2 & Ea2 & Eb2 & (A1 & A2) & B1 & B2). rewrite Ea in Ea2. injection Ea2 as <-. rewrite Eb in Eb2. injection Eb2 as <-. unfold g. rewrite (proj2 (at_nth _ _ _) Ea), bind_ok, (proj2 (at_nth _ _ _) Eb), bind_ok. rewrite (proj2 (Nat.ltb_lt _ _) A1), bind_ok, EN, bind_ok by auto. rewrite (proj2 (Nat.ltb_lt _ _) B1), bind_ok, EN, bind_ok by auto. reflexivity. }
  clearbody g. destruct (mapM_total g (seq 0 (List.length LF))) as (l & El). { intros i I. apply in_seq in I. destruct (X i ltac:(lia)) as (a & b & Ea & Eb & _). rewrite (G i a b Ea Eb) by lia. eauto. }
  exists l. split; auto. apply mapM_Ok in El. pose proof (Forall2_length _ _ _ El) as LL. rewrite seq_length in LL. apply F2_of_nth; [rewrite combine_length; lia|].
  intros i (a, b) x Ec Ex. destruct (F2_nth_r _ _ _ _ _ El Ex) as (j & Ej & Hj). assert (Li : i < List.length LF) by (rewrite LL; apply nth_error_Some; congruence). rewrite nth_seq0 in Ej by lia. injection Ej as <-. destruct (X i Li) as (a2 & b2 & Ea & Eb & _).
  assert (Eab : nth_error (combine LF lt) i = Some (a2, b2)). { clear - Ea Eb. revert lt Ea Eb. generalize LF. induction i as [|i IH]; intros [|u l] [|v m] Ea Eb; try discriminate; cbn in *; [congruence|auto]. }
  rewrite Ec in Eab. injection Eab as <- <-. rewrite (G i a b Ea Eb Li) in Hj. injection Hj as <-. reflexivity.
Qed.

Lemma pump_total nodes pf pt : 0 < nodes -> Forall (fun x => x <= nodes) pf -> List.length pf <= List.length pt -> exists t, pump_tables nodes pf pt = Ok t.
Proof.
  intros P F L. unfold pump_tables. set (st := (repeat (0, 0) nodes, repeat (0, 0) nodes)). clearbody st.
  assert (X : forall l st, (forall x, In x l -> x < List.length pf) -> exists t, foldM (fun (st : list (nat * nat) * list (nat * nat)) x => do f <- at_ pf x; do i <- row nodes f; let a := set_nth i (1, x) (fst st) in do t <- at_ pt x; if 0 <? t then Ok (a, set_nth i (1, x) (snd st)) else Ok (a, snd st)) l st = Ok t).
  { induction l as [|x l IH]; intros s H; [cbn; eauto|]. cbn [foldM]. destruct (at_some pf x (H x (or_introl eq_refl))) as (f & Ef & If). rewrite Ef, bind_ok. rewrite Forall_forall in F. specialize (F f If). assert (RW : exists i, row nodes f = Ok i). { destruct f as [|f]; [destruct nodes; [lia|]; cbn; eauto|]. rewrite row_node by lia. eauto. } destruct RW as (i & ->). rewrite bind_ok. cbv zeta.
    specialize (H x (or_introl eq_refl)) as Hx. destruct (at_some pt x ltac:(lia)) as (t & -> & _). rewrite bind_ok. destruct (0 <? t); cbn [rbind]; apply IH; intros y Iy; apply H; now right. }
  apply X. intros x I. apply in_seq in I. lia.
Qed.

Lemma ramp_limit_total rs ramp : List.length rs <= List.length ramp -> exists rp, ramp_limit pow53 root rs ramp = Ok rp.
Proof.
  intros L. unfold ramp_limit. generalize RampZeros. assert (X : forall l rp, (forall x, In x l -> fst x < List.length ramp) -> exists rp2, foldM (fun _ ir => do k <- at_ ramp (fst ir); Ok (RampAll ((q_max pow53 root (snd ir) - q_min pow53 root (snd ir)) * inject_Z (Z.of_nat k))%Q)) l rp = Ok rp2).
  { induction l as [|x l IH]; intros rp H; [cbn; eauto|]. cbn [foldM]. destruct (at_some ramp (fst x) (H x (or_introl eq_refl))) as (k & -> & _). cbn [rbind]. apply IH. intros y I. apply H. now right. }
  intros rp. apply X. intros (i, r) I. apply in_combine_l in I. apply in_seq in I. cbn. lia.
Qed.

Lemma share_total rs nodes a : (forall n, n < nodes -> exists o, nth_error (a_out a) n = Some o /\ fst o = List.length (rivers_at ri_from rs (S n)) /\ mapM (nth_river (a_list a) o) (seq 0 (fst o)) = Ok (rivers_at ri_from rs (S n))) ->
  Forall (fun r => ~ (ri_share r == 0)%Q) rs -> exists sh, share_links rs nodes a = Ok sh.
Proof.
  intros H NZ. unfold share_links. set (f := fun xn => _ : res (list (nat * nat * Q))). destruct (mapM_total f (seq 0 nodes)) as (m & Em); [|rewrite Em; cbn; eauto]. intros n I. apply in_seq in I. destruct (H n ltac:(lia)) as (o & Eo & Lo & Mo). unfold f. rewrite (proj2 (at_nth _ _ _) Eo), bind_ok. apply mapM_total. intros k Ik. apply in_seq in Ik.
  assert (NR : forall k, k < fst o -> exists b r, nth_river (a_list a) o k = Ok b /\ nth_error rs b = Some r). { intros j Lj. apply mapM_Ok in Mo. destruct (F2_nth _ _ _ j j Mo) as (b & Eb & Hb); [now apply nth_seq0|]. apply nth_error_In in Eb. apply rivers_at_in in Eb as (r & Er & _). eauto. }
  destruct (NR k ltac:(lia)) as (b1 & r1 & -> & R1). rewrite bind_ok. destruct (NR (k + 1) ltac:(lia)) as (b2 & r2 & -> & R2). rewrite bind_ok, (proj2 (at_nth _ _ _) R1), bind_ok, (proj2 (at_nth _ _ _) R2), bind_ok. rewrite Forall_forall in NZ. rewrite (Qeq_bool_false _ (NZ r1 (nth_error_In _ _ R1))). eauto.
Qed.

Theorem initialise_total E : complete E -> exists Y, initialise pow53 root pow23 E = Ok Y.
Proof.
  intros (W & NP & FS & GA & NL & LL & FL & FT & LPu). destruct (set_divided E W) as (parts & pieces & PS & BP & D & NO & LN & NE). destruct W as (parts2 & PS2 & FP & W). rewrite (parts_set_unique _ _ _ _ PS2 PS) in *. cbv zeta in W. set (n := all_nodes_count E parts) in *. set (rs := List.concat pieces) in *. destruct W as (NE0 & FB & NR & NDi & Fi & NDo & Fo & FPu & LS & NDs & Fs & TM).
  unfold initialise. rewrite BP, bind_ok.
  assert (IO : exists i o, water_nodes rs (e_in E) (e_out E) (e_pump_from E) (e_pump_to E) = Ok (i, o) /\ Forall (fun x => 1 <= x <= n) i /\ Forall (fun x => 1 <= x <= n) o).
  { unfold water_nodes. destruct (e_pump_from E) as [|p ps] eqn:EP; [eauto 6|]. rewrite LN, bind_ok. apply Forall_app in FPu as (F1 & F2). destruct (add_pump_ok n (e_out E) (p :: ps) NDo Fo F1) as (o & -> & _ & Fo2). rewrite bind_ok. destruct (add_pump_ok n (e_in E) (e_pump_to E) NDi Fi F2) as (i & -> & _ & Fi2). rewrite bind_ok. eauto 6. }
  destruct IO as (ni & no & -> & Fi2 & Fo2). rewrite bind_ok. cbn [fst snd]. destruct (node_table_ok n ni Fi2) as (li & -> & _). rewrite bind_ok. destruct (node_table_ok n no Fo2) as (lo & -> & _). rewrite bind_ok.
  assert (LRS : List.length rs = nsum parts). { destruct D as (F2 & LP & _). unfold rs. clear - F2 LP. revert parts pieces F2 LP. induction (e_rivers E) as [|r l IH]; intros [|k parts] pieces F2 LP; cbn in LP; try discriminate; cbn [combine] in F2; inversion F2 as [|? ps ? pieces2 P F3]; subst; [reflexivity|]. cbn [List.concat]. rewrite app_length, nsum_cons, (IH parts) by auto. destruct P as (P & _). cbn in P. now rewrite P. }
  destruct (ramp_limit_total rs (repeat 1 (nsum parts))) as (rp & ->); [rewrite repeat_length; lia|]. rewrite bind_ok.
  assert (PA : no_parallel rs). { apply (divided_parallel _ _ _ _ _ D); auto. destruct (last_node_ok _ NE0) as (m & Em & _ & FM). rewrite max_end_last in Em by auto. injection Em as <-. rewrite Forall_forall in *. intros r I. specialize (FM r I). specialize (FS r I). cbn beta in *. tauto. }
  destruct (build_network_ok rs n NE NO) as (B1 & _). destruct (B1 (proj2 (edges_parallel rs) PA)) as (a & -> & HA). rewrite bind_ok.
  destruct (share_total rs n a) as (sh & ->). { intros k Lk. destruct (HA k Lk) as (o & i & H1 & _ & H2 & _ & H3 & _). eauto. } { apply Forall_forall. intros p Ip. apply in_concat in Ip as (ps & Ips & Ip). destruct (divided_river _ _ _ _ _ _ D Ips) as (r & k & Ir & P). destruct P as (_ & _ & _ & _ & _ & q & rest & -> & Sq & Sr). rewrite Forall_forall in FS. destruct (FS r Ir) as (_ & NZ). destruct Ip as [<-|Ip]; [now rewrite Sq|]. rewrite Forall_forall in Sr. rewrite (Sr p Ip). discriminate. } rewrite bind_ok.
  destruct (soc_total (e_links_from E) (e_links_to E) (e_scen E) (List.length rs) (e_time E) NL LL FL FT) as (sl & -> & _). rewrite bind_ok.
  assert (FN : Forall (fun x => 1 <= x <= n) (map (fun uq => u_node (fst uq)) (with_storage (e_units E) (e_storage E)))). { rewrite Forall_map. eapply Forall_impl; [|exact Fs]. cbn. tauto. }
  destruct (storage_ok n (e_time E) (e_units E) (e_storage E) LS) as (st & -> & _); auto. { assert (H : List.length (map (fun uq => u_node (fst uq)) (with_storage (e_units E) (e_storage E))) <= List.length (seq 1 n)). { apply NoDup_incl_length; auto. intros x I. apply in_seq. rewrite Forall_forall in FN. specialize (FN x I). lia. } now rewrite map_length, seq_length in H. } rewrite bind_ok.
  assert (Pn : 0 < n). { destruct rs as [|r0 rs0]; [contradiction|]. inversion NO; subst. lia. }
  apply Forall_app in FPu as (F1 & F2). destruct (pump_total n (e_pump_from E) (e_pump_to E) Pn F1 LPu) as (pt & ->). rewrite bind_ok.
  destruct (out_ok rs no) as (oc & -> & _); [|rewrite bind_ok; eauto].
  intros x I. rewrite Forall_forall in Fo2. specialize (Fo2 x I). destruct (Nat.le_gt_cases x (max_end (e_rivers E))) as [Lx|Lx].
  - destruct (GA x ltac:(lia)) as (r & Ir & H). destruct (divided_piece _ _ _ _ _ r D Ir) as (ps & k & Ips & (_ & LD & _)). destruct (leads_ends _ _ _ LD) as (A & B). destruct H as [<-|<-]; [left; apply in_map_iff in A as (p & <- & Ip)|right; apply in_map_iff in B as (p & <- & Ip)]; apply in_map; apply in_concat; eauto.
  - right. destruct D as (_ & _ & _ & _ & CI). assert (J : In x (List.concat (map inner pieces))) by (rewrite CI; apply in_seq; lia). apply in_concat in J as (y & J1 & J2). apply in_map_iff in J1 as (ps & <- & J1). apply inner_to in J2. apply in_map_iff in J2 as (p & <- & Ip). apply in_map. apply in_concat. eauto.
Qed.
End Making.
