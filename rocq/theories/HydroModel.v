(** What an answer of the hydraulic model satisfies. *)
From Coq Require Import List Bool Arith ZArith QArith Lia Lqa.
From Verif Require Import Base GraphData GraphDataProofs Cases CasesProofs Network InputOutput InputOutputProofs ConverterOpen Hydro HydroSpec HydroNet HydroParts HydroTables.
Import ListNotations.
Open Scope nat_scope.
Open Scope list_scope.

Local Ltac sp := repeat match goal with |- _ /\ _ => split end.
Local Ltac binv H := repeat (let a := fresh "v" in let E := fresh "E" in apply bind_inv in H as (a & E & H)).

(** ** Expressions *)

Lemma fold_eval s l : forall e, (eval s (fold_left EAdd l e) == eval s e + qsum (map (eval s) l))%Q.
Proof. induction l as [|x l IH]; intros e; [cbn; ring|]. cbn [fold_left map]. rewrite IH. cbn [eval]. change (qsum (eval s x :: map (eval s) l)) with (eval s x + qsum (map (eval s) l))%Q. ring. Qed.
Lemma esum_eval s l : (eval s (esum l) == qsum (map (eval s) l))%Q.
Proof. unfold esum. rewrite fold_eval. cbn [eval]. ring. Qed.
Lemma get_inv Y v e : get Y v = Ok e -> e = EV v /\ declared Y v = true.
Proof. unfold get. destruct (declared Y v); [|discriminate]. now intros [= <-]. Qed.
Lemma gets_eval Y s vs e : gets Y vs = Ok e -> (eval s e == qsum (map s vs))%Q.
Proof.
  unfold gets. intros H. binv H. injection H as <-. rewrite esum_eval. apply mapM_Ok in E. clear - E. induction E as [|x y l m X F IH]; [reflexivity|]. apply get_inv in X as (-> & _). cbn [map eval]. change (s x + qsum (map (eval s) m) == s x + qsum (map s l))%Q. now rewrite IH.
Qed.

Definition holds (s : var -> Q) (m : res constr) : Prop := exists c, m = Ok c /\ sat s c.
Lemma mapM_in {A B} (f : A -> res B) l m a : mapM f l = Ok m -> In a l -> exists b, f a = Ok b /\ In b m.
Proof. intros H. apply mapM_Ok in H. induction H as [|x y l m X F IH]; intros I; [destruct I|]. destruct I as [<-|I]; [exists y; split; [auto|now left]|]. destruct (IH I) as (b & E & J). exists b. split; [auto|now right]. Qed.
Lemma over_in Y {A} (l : list A) f cs s : over Y l f = Ok cs -> Forall (sat s) cs -> forall a t h, In a l -> t < y_time Y -> h < y_scen Y -> holds s (f a t h).
Proof.
  unfold over. intros H F a t h I Lt Lh. binv H. injection H as <-. destruct (mapM_in _ _ _ _ E I) as (r1 & E1 & I1). cbv beta in E1. binv E1. injection E1 as <-. destruct (mapM_in _ _ _ t E0) as (r2 & E2 & I2); [apply in_seq; lia|].
  destruct (mapM_in _ _ _ h E2) as (c & E3 & I3); [apply in_seq; lia|]. exists c. split; auto. rewrite Forall_forall in F. apply F. apply in_concat. exists (List.concat v0). split; auto. apply in_concat. eauto.
Qed.

(** All rules of an answer. *)
Record rules (Y : hydro) (s : var -> Q) : Prop := {
  ru_max_down : forall r t h, r < y_rivers Y -> t < y_time Y -> h < y_scen Y -> holds s (max_down Y r t h);
  ru_max_up : forall r t h, r < y_rivers Y -> t < y_time Y -> h < y_scen Y -> holds s (max_up Y r t h);
  ru_min_down : forall r t h, r < y_rivers Y -> t < y_time Y -> h < y_scen Y -> holds s (min_down Y r t h);
  ru_min_up : forall r t h, r < y_rivers Y -> t < y_time Y -> h < y_scen Y -> holds s (min_up Y r t h);
  ru_min_out : forall o t h, In o (y_minout Y) -> t < y_time Y -> h < y_scen Y -> holds s (min_out Y o t h);
  ru_balance : forall n t h, n < y_nodes Y -> t < y_time Y -> h < y_scen Y -> holds s (node_balance Y n t h);
  ru_penalty : holds s (penalty_rule Y);
  ru_river : forall r t h, r < y_rivers Y -> t < y_time Y -> h < y_scen Y -> holds s (river_balance Y r t h);
  ru_weights : forall w t h, In w (y_share Y) -> t < y_time Y -> h < y_scen Y -> holds s (weights Y w t h);
  ru_soc : forall l r, In l (y_soc Y) -> r < y_rivers Y -> holds s (soc_link Y l r);
  ru_down : forall r t h, r < y_rivers Y -> t < y_time Y -> h < y_scen Y -> holds s (down_time Y r t h);
  ru_fixed : forall f, In f (y_fixed Y) -> holds s (fixed_input Y f);
  ru_stor_max : forall n t h, n < s_no (y_stor Y) -> t < y_time Y -> h < y_scen Y -> holds s (stor_max Y n t h);
  ru_stor_link : forall n, n < y_scen Y * s_no (y_stor Y) -> holds s (stor_link Y n);
  ru_ramp_down : forall r t h, r < y_rivers Y -> t < y_time Y -> h < y_scen Y -> holds s (ramp_down Y r t h);
  ru_ramp_up : forall r t h, r < y_rivers Y -> t < y_time Y -> h < y_scen Y -> holds s (ramp_up Y r t h);
  ru_vector : List.length (y_incn Y) = 1 -> forall t, t < y_time Y -> holds s (fixed_vector Y t);
  ru_matrix : 1 < List.length (y_incn Y) -> forall t x, t < y_time Y -> x < List.length (y_incn Y) -> holds s (fixed_matrix Y t x) }.

Lemma answer_rules Y s : answer Y s -> rules Y s.
Proof.
  intros (_ & cs & H & F). unfold constraints in H. binv H. injection H as <-. repeat rewrite Forall_app in F. decompose [and] F. clear F.
  match goal with H : Forall _ (_ :: _) |- _ => inversion H as [|? ? S5 F5]; subst; clear H end. repeat rewrite Forall_app in F5. decompose [and] F5. clear F5.
  assert (SQ : forall r n, r < n -> In r (seq 0 n)) by (intros; apply in_seq; lia). unfold rivers_set in *.
  constructor; intros; try (eapply over_in; eauto; fail).
  - eexists. eauto.
  - destruct (mapM_in _ _ _ l E8) as (m & E17 & I1); auto. destruct (mapM_in _ _ _ r E17) as (c & E18 & I2); auto. exists c. split; auto. match goal with H : Forall _ (List.concat v8) |- _ => rewrite Forall_forall in H; apply H end. apply in_concat. eauto.
  - destruct (mapM_in _ _ _ f E10) as (c & E17 & I1); auto. exists c. split; auto. match goal with H : Forall _ v10 |- _ => rewrite Forall_forall in H; auto end.
  - destruct (mapM_in _ _ _ n E12) as (c & E17 & I1); auto. exists c. split; auto. match goal with H : Forall _ v12 |- _ => rewrite Forall_forall in H; auto end.
  - destruct (y_incn Y) as [|a [|b l]]; try discriminate. destruct (mapM_in _ _ _ t E15) as (c & E17 & I1); auto. exists c. split; auto. match goal with H : Forall _ v15 |- _ => rewrite Forall_forall in H; auto end.
  - destruct (y_incn Y) as [|a [|b l]] eqn:N; cbn [List.length] in *; try lia. binv E15. injection E15 as <-. destruct (mapM_in _ _ _ t E16) as (m & E17 & I1); auto. destruct (mapM_in _ _ _ x E17) as (c & E18 & I2); auto. exists c. split; auto.
    match goal with H : Forall _ (List.concat v16) |- _ => rewrite Forall_forall in H; apply H end. apply in_concat. eauto.
Qed.

(** ** The parts of a model *)

Section Powers.
Variables (pow53 root pow23 : Q -> Q).

Record made (E : settings) (Y : hydro) (rs : list river) (nodes : nat) (ramp : list nat) : Prop := {
  md_parts : build_parts (e_parts E) (e_ramps E) (e_rivers E) = Ok (rs, nodes, ramp);
  md_io : water_nodes rs (e_in E) (e_out E) (e_pump_from E) (e_pump_to E) = Ok (y_in Y, y_out Y);
  md_lin : node_table nodes (y_in Y) = Ok (y_lin Y);
  md_lout : node_table nodes (y_out Y) = Ok (y_lout Y);
  md_ramp : ramp_limit pow53 root rs ramp = Ok (y_ramp Y);
  md_adj : build_network rs nodes = Ok (y_adj Y);
  md_share : share_links rs nodes (y_adj Y) = Ok (y_share Y);
  md_soc : soc_links (e_links_from E) (e_links_to E) (e_scen E) (List.length rs) (e_time E) = Ok (y_soc Y);
  md_stor : storage_units nodes (e_time E) (e_units E) (e_storage E) = Ok (y_stor Y);
  md_out : out_constraints rs (y_out Y) = Ok (y_minout Y);
  md_rivers : y_rivers Y = List.length rs;
  md_nodes : y_nodes Y = nodes;
  md_time : y_time Y = e_time E;
  md_scen : y_scen Y = e_scen E;
  md_feas : y_feas Y = e_feas E;
  md_dt : y_dt Y = (e_seconds E / e_m E)%Q;
  md_penalty : y_penalty Y = e_penalty E;
  md_qmax : y_qmax Y = map (q_max pow53 root) rs;
  md_qmin : y_qmin Y = map (q_min pow53 root) rs;
  md_qlin : y_qlin Y = map (q_linear pow53 root pow23 (e_seconds E) (e_m E)) rs;
  md_flin : y_flin Y = map (f_linear pow53 root pow23 (e_seconds E)) rs;
  md_fixed : y_fixed Y = e_fixed E;
  md_incn : y_incn Y = e_incn E; md_incs : y_incs Y = e_incs E; md_series1 : y_series1 Y = e_series1 E; md_series : y_series Y = e_series E }.

Lemma initialise_made E Y : initialise pow53 root pow23 E = Ok Y -> exists rs nodes ramp, made E Y rs nodes ramp.
Proof.
  unfold initialise. intros H. apply bind_inv in H as (((rs, nodes), ramp) & E0 & H). binv H. injection H as <-. exists rs, nodes, ramp. constructor; cbn; auto. rewrite E1. now destruct v.
Qed.

Lemma max_end_last rs : rs <> [] -> last_node rs = Ok (max_end rs).
Proof.
  intros N. apply last_node_is; auto.
  - clear N. induction rs as [|r rs IH]; constructor; cbn [max_end fold_right]; fold (max_end rs); [lia|]. eapply Forall_impl; [|exact IH]. cbn. intros x. lia.
  - induction rs as [|r rs IH]; [contradiction|]. cbn [max_end fold_right]. fold (max_end rs). destruct rs as [|r2 rs].
    + exists r. split; [now left|]. cbn. lia.
    + destruct IH as (x & I & H); [discriminate|]. destruct (Nat.le_ge_cases (max_end (r2 :: rs)) (Nat.max (ri_from r) (ri_to r))) as [L|L].
      * exists r. split; [now left|]. lia.
      * exists x. split; [now right|]. lia.
Qed.
Lemma list_sum_nsum l : list_sum l = nsum l.
Proof. induction l as [|x l IH]; [reflexivity|]. rewrite nsum_cons. cbn. now rewrite <- IH. Qed.
Lemma parts_set_unique g n p q : parts_set g n p -> parts_set g n q -> p = q.
Proof. unfold parts_set. intros [(-> & ->)|[(k & -> & ->)|(-> & L & N)]] [(E & ->)|[(k2 & E & ->)|(E & L2 & N2)]]; subst; try discriminate; auto; cbn in *; try lia; congruence. Qed.

(** Division in well set settings. *)
Lemma set_divided E : well_set E -> exists parts pieces, parts_set (e_parts E) (List.length (e_rivers E)) parts /\
  build_parts (e_parts E) (e_ramps E) (e_rivers E) = Ok (List.concat pieces, all_nodes_count E parts, repeat 1 (nsum parts)) /\ divided (max_end (e_rivers E)) (e_rivers E) parts pieces (all_nodes_count E parts) /\
  nodes_ok (all_nodes_count E parts) (List.concat pieces) /\ last_node (List.concat pieces) = Ok (all_nodes_count E parts) /\ List.concat pieces <> [].
Proof.
  intros (parts & PS & FP & W). cbv zeta in W. destruct W as (NE & FB & NR & _). pose proof (max_end_last _ NE) as LN.
  destruct (build_parts_ok (e_parts E) (e_ramps E) (e_rivers E) _ NE LN NR) as (parts2 & pieces & n' & PS2 & BP & F2 & LP & LL & CI).
  - destruct PS as [(-> & _)|[(k & -> & _)|(_ & L & _)]]; cbn; auto.
  - destruct PS as [(-> & _)|[(k & -> & ->)|(-> & _)]]; auto. constructor; auto. destruct (e_rivers E); [contradiction|]. cbn in FP. now inversion FP.
  - rewrite (parts_set_unique _ _ _ _ PS2 PS) in *. assert (EN : n' = all_nodes_count E parts) by (unfold all_nodes_count; rewrite list_sum_nsum; lia). subst n'. exists parts, pieces.
    assert (D : divided (max_end (e_rivers E)) (e_rivers E) parts pieces (all_nodes_count E parts)) by (unfold divided; auto). destruct (divided_last _ _ _ _ _ D NE LN) as (L1 & L2). sp; auto.
    eapply divided_nodes; eauto. unfold nodes_ok. destruct (last_node_ok _ NE) as (m & Em & _ & FM). rewrite LN in Em. injection Em as <-. rewrite Forall_forall in *. intros r I. specialize (FB r I). specialize (FM r I). cbn beta in *. lia.
Qed.

(** ** Balances *)

(** The rivers, tables and storage of a model from well set settings. *)
Record tidy (E : settings) (Y : hydro) (rs : list river) : Prop := {
  td_nodes : nodes_ok (y_nodes Y) rs;
  td_in : NoDup (y_in Y) /\ Forall (fun x => 1 <= x <= y_nodes Y) (y_in Y) /\ table (y_nodes Y) (y_in Y) (y_lin Y);
  td_out : NoDup (y_out Y) /\ Forall (fun x => 1 <= x <= y_nodes Y) (y_out Y) /\ table (y_nodes Y) (y_out Y) (y_lout Y);
  td_adj : forall n, n < y_nodes Y -> exists o i, nth_error (a_out (y_adj Y)) n = Some o /\ nth_error (a_in (y_adj Y)) n = Some i /\
    mapM (nth_river (a_list (y_adj Y)) o) (seq 0 (fst o)) = Ok (rivers_at ri_from rs (S n)) /\ mapM (nth_river (a_list (y_adj Y)) i) (seq 0 (fst i)) = Ok (rivers_at ri_to rs (S n));
  td_stor : let w := with_storage (e_units E) (e_storage E) in let ns := map (fun uq => u_node (fst uq)) w in
    NoDup ns /\ Forall (fun x => 1 <= x <= y_nodes Y) ns /\ table (y_nodes Y) ns (s_node (y_stor Y)) /\ s_no (y_stor Y) = List.length w /\
    (forall k uq, nth_error w k = Some uq -> nth_error (s_cap (y_stor Y)) (S k) = Some (capacity uq)) /\ List.length (s_time (y_stor Y)) = e_time E /\
    (w <> [] -> forall t, t < e_time E -> nth_error (s_time (y_stor Y)) t = Some (t, if t =? 0 then e_time E - 1 else t - 1)) }.

Lemma extends_same l : NoDup l -> forall p, extends l p l <-> (forall x, In x p -> x = 0 \/ In x l).
Proof.
  intros ND p. split.
  - intros (new & E & _ & H) x I. destruct (Nat.eq_dec x 0); auto. destruct (in_dec Nat.eq_dec x l); auto. assert (J : In x new) by (apply H; auto). assert (new = []) by (apply (app_inv_head l); now rewrite <- E, List.app_nil_r). subst. destruct J.
  - intros H. exists []. rewrite List.app_nil_r. sp; auto. intros x. split; [intros []|]. intros (I & N & M). destruct (H x I); contradiction.
Qed.

Lemma made_tidy E Y rs nodes ramp : well_set E -> made E Y rs nodes ramp -> tidy E Y rs /\ exists parts pieces, parts_set (e_parts E) (List.length (e_rivers E)) parts /\ rs = List.concat pieces /\ divided (max_end (e_rivers E)) (e_rivers E) parts pieces (y_nodes Y) /\ rs <> [] /\ last_node rs = Ok (y_nodes Y) /\ ramp = repeat 1 (nsum parts).
Proof.
  intros W M. destruct (set_divided E W) as (parts & pieces & PS & BP & D & NO & LN & NE). pose proof (md_parts _ _ _ _ _ M) as BP2. rewrite BP in BP2. injection BP2 as <- <- <-. set (rs := List.concat pieces) in *. set (n := all_nodes_count E parts) in *.
  assert (EN : y_nodes Y = n) by apply (md_nodes _ _ _ _ _ M). destruct W as (parts2 & PS2 & FP & W). rewrite (parts_set_unique _ _ _ _ PS2 PS) in *. cbv zeta in W. fold n in W. destruct W as (NE0 & FB & NR & NDi & Fi & NDo & Fo & FPu & LS & NDs & Fs & TM).
  assert (IO : (NoDup (y_in Y) /\ Forall (fun x => 1 <= x <= n) (y_in Y)) /\ NoDup (y_out Y) /\ Forall (fun x => 1 <= x <= n) (y_out Y)).
  { pose proof (md_io _ _ _ _ _ M) as IO. unfold water_nodes in IO. destruct (e_pump_from E) as [|p ps] eqn:EP; [injection IO as <- <-; auto|]. rewrite LN in IO. rewrite bind_ok in IO.
    apply Forall_app in FPu as (F1 & F2). destruct (add_pump_ok n (e_out E) (p :: ps) NDo Fo F1) as (o & Eo & (new & Xo & NDo2 & _) & Fo2). destruct (add_pump_ok n (e_in E) (e_pump_to E) NDi Fi F2) as (i & Ei & (newi & Xi & NDi2 & _) & Fi2).
    rewrite Eo, bind_ok, Ei, bind_ok in IO. injection IO as <- <-. auto. }
  destruct IO as ((NDi2 & Fi2) & NDo2 & Fo2). split.
  - constructor; rewrite ?EN; auto.
    + sp; auto. destruct (node_table_ok n (y_in Y) Fi2) as (t & Et & T). rewrite (md_lin _ _ _ _ _ M) in Et. now injection Et as <-.
    + sp; auto. destruct (node_table_ok n (y_out Y) Fo2) as (t & Et & T). rewrite (md_lout _ _ _ _ _ M) in Et. now injection Et as <-.
    + intros k Lk. destruct (build_network_ok rs n NE NO) as (B1 & B2). pose proof (md_adj _ _ _ _ _ M) as A. destruct (Nat.le_gt_cases (List.length rs) (graph_edges rs)) as [L|L]; [|rewrite (B2 L) in A; discriminate].
      destruct (B1 L) as (a & Ea & H). rewrite A in Ea. injection Ea as <-. destruct (H k Lk) as (o & i & H1 & H2 & _ & _ & H3 & H4). exists o, i. auto.
    + cbv zeta. assert (FN : Forall (fun x => 1 <= x <= n) (map (fun uq => u_node (fst uq)) (with_storage (e_units E) (e_storage E)))). { rewrite Forall_map. eapply Forall_impl; [|exact Fs]. cbn. tauto. }
      destruct (storage_ok n (e_time E) (e_units E) (e_storage E) LS) as (s & Es & S1 & S2 & S3 & S4 & S5); auto.
      * assert (H : List.length (map (fun uq => u_node (fst uq)) (with_storage (e_units E) (e_storage E))) <= List.length (seq 1 n)). { apply NoDup_incl_length; auto. intros x I. apply in_seq. rewrite Forall_forall in FN. specialize (FN x I). lia. } now rewrite map_length, seq_length in H.
      * rewrite (md_stor _ _ _ _ _ M) in Es. injection Es as <-. sp; auto.
  - exists parts, pieces. rewrite EN. sp; auto.
Qed.
End Powers.
