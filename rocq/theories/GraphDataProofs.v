(** Lemmas about the data attached to the control graph. *)
From Coq Require Import List String Bool Arith ZArith QArith Lia Permutation Sorted.
From Verif Require Import Base Container Graph GraphSpec GraphProofs GraphTree GraphData.
Import ListNotations.
Open Scope string_scope.
Open Scope nat_scope.
Open Scope list_scope.

Local Ltac sp := repeat match goal with |- _ /\ _ => split end.

Lemma mapM_Ok {A B} (f : A -> res B) : forall l r, mapM f l = Ok r <-> Forall2 (fun a b => f a = Ok b) l r.
Proof.
  induction l as [|a l IH]; intros r; simpl.
  - split; [intros E; injection E as <-; constructor|]. intros H. inversion H. reflexivity.
  - split.
    + intros E. destruct (f a) as [b|] eqn:Eb; [|discriminate]. cbn [rbind] in E. destruct (mapM f l) as [bs|] eqn:El; [|discriminate].
      injection E as <-. constructor; auto. now apply IH.
    + intros H. inversion H as [|? b ? bs Hb Hbs]; subst. rewrite Hb. cbn [rbind]. apply IH in Hbs. now rewrite Hbs.
Qed.

Lemma Forall2_length {A B} (R : A -> B -> Prop) l r : Forall2 R l r -> List.length l = List.length r.
Proof. induction 1; simpl; auto. Qed.

Lemma mapM_total {A B} (f : A -> res B) l : (forall a, In a l -> exists b, f a = Ok b) -> exists r, mapM f l = Ok r.
Proof.
  induction l as [|a l IH]; intros H; [eexists; reflexivity|]. destruct (H a) as [b Eb]; [now left|]. simpl. rewrite Eb. cbn [rbind].
  destruct IH as [r Er]; [intros x Ix; apply H; now right|]. rewrite Er. eexists; reflexivity.
Qed.

Lemma Forall2_map_l {A B} (R : A -> B -> Prop) (f : B -> A) l r : Forall2 R l r -> (forall a b, R a b -> f b = a) -> map f r = l.
Proof. induction 1; intros H'; simpl; auto. f_equal; auto. Qed.

Lemma Forall2_In_r {A B} (R : A -> B -> Prop) l r b : Forall2 R l r -> In b r -> exists a, In a l /\ R a b.
Proof. induction 1 as [|a b' l r H F IH]; intros I; [destruct I|]. destruct I as [<-|I]; [exists a; simpl; auto|]. destruct (IH I) as (x & Ix & Rx). exists x. simpl. auto. Qed.

Lemma Forall2_In_l {A B} (R : A -> B -> Prop) l r a : Forall2 R l r -> In a l -> exists b, In b r /\ R a b.
Proof. induction 1 as [|a' b l r H F IH]; intros I; [destruct I|]. destruct I as [<-|I]; [exists b; simpl; auto|]. destruct (IH I) as (x & Ix & Rx). exists x. simpl. auto. Qed.

Lemma existsb_Z z l : existsb (Z.eqb z) l = true <-> In z l.
Proof.
  rewrite existsb_exists. split; [intros (x & I & E); apply Z.eqb_eq in E; now subst|]. intros I. exists z. split; auto. apply Z.eqb_refl.
Qed.

Lemma unique_gen : forall l acc, NoDup acc -> NoDup (fold_left (fun acc z => if existsb (Z.eqb z) acc then acc else acc ++ [z]) l acc) /\
  forall z, In z (fold_left (fun acc z => if existsb (Z.eqb z) acc then acc else acc ++ [z]) l acc) <-> In z acc \/ In z l.
Proof.
  induction l as [|x l IH]; intros acc N; simpl; [split; auto; intros z; tauto|].
  destruct (existsb (Z.eqb x) acc) eqn:E.
  - apply existsb_Z in E. destruct (IH acc N) as [A B]. split; auto. intros z. rewrite B. split; [tauto|]. intros [?|[->|?]]; auto.
  - assert (NI : ~ In x acc) by (intros I; apply existsb_Z in I; congruence).
    destruct (IH (acc ++ [x])) as [A B].
    + apply NoDup_Add with (a := x) (l := acc); [|auto]. replace (acc ++ [x]) with (acc ++ x :: []) by reflexivity.
      replace acc with (acc ++ []) at 1 by apply List.app_nil_r. apply Add_app.
    + split; auto. intros z. rewrite B, in_app_iff. simpl. tauto.
Qed.

Lemma unique_NoDup l : NoDup (unique l).
Proof. apply unique_gen. constructor. Qed.

Lemma unique_In l z : In z (unique l) <-> In z l.
Proof. unfold unique. rewrite (proj2 (unique_gen l [] (NoDup_nil _))). simpl. tauto. Qed.

(* ------------------------------------------------------------------ *)
(** ** sorting of the years *)

Lemma zinsert_In z l x : In x (zinsert z l) <-> x = z \/ In x l.
Proof. induction l as [|y l IH]; simpl; [intuition|]. destruct (z <=? y)%Z; simpl; rewrite ?IH; intuition. Qed.

Lemma zinsert_perm z l : Permutation (zinsert z l) (z :: l).
Proof. induction l as [|y l IH]; simpl; auto. destruct (z <=? y)%Z; auto. rewrite IH. constructor. Qed.

Lemma zsort_perm l : Permutation (zsort l) l.
Proof. induction l as [|x l IH]; simpl; auto. rewrite zinsert_perm. now constructor. Qed.

Lemma zinsert_sorted z l : StronglySorted Z.le l -> StronglySorted Z.le (zinsert z l).
Proof.
  induction 1 as [|x l H IH F]; simpl; [repeat constructor|]. destruct (Z.leb_spec z x).
  - constructor; [now constructor|]. constructor; auto. eapply Forall_impl; [|exact F]. intros; lia.
  - constructor; auto. rewrite Forall_forall in *. intros y Iy. apply zinsert_In in Iy as [->|Iy]; [lia|auto].
Qed.

Lemma zsort_sorted l : StronglySorted Z.le (zsort l).
Proof. induction l as [|x l IH]; simpl; [constructor|]. now apply zinsert_sorted. Qed.

Lemma zsort_id l : StronglySorted Z.le l -> zsort l = l.
Proof.
  induction 1 as [|x l H IH F]; simpl; auto. rewrite IH. destruct l as [|y l]; auto. simpl.
  inversion F as [|? ? L _]; subst. apply Z.leb_le in L. now rewrite L.
Qed.

Lemma py_index_nat {A} (l : list A) i : py_index l (Z.of_nat i) = match nth_error l i with Some a => Ok a | None => Err IndexError end.
Proof.
  unfold py_index. replace (Z.of_nat i <? 0)%Z with false by (symmetry; apply Z.ltb_ge; lia).
  replace (Z.of_nat i <? 0)%Z with false by (symmetry; apply Z.ltb_ge; lia). now rewrite Nat2Z.id.
Qed.

Lemma nth_error_ext {A} : forall l l' : list A, (forall i, nth_error l i = nth_error l' i) -> l = l'.
Proof.
  induction l as [|a l IH]; intros [|b l'] H; auto; try (specialize (H 0); discriminate).
  pose proof (H 0) as H0. simpl in H0. injection H0 as <-. f_equal. apply IH. intros i. apply (H (S i)).
Qed.

Lemma years_agree l : (forall i : nat, py_index l (Z.of_nat i) = py_index (zsort l) (Z.of_nat i)) <-> StronglySorted Z.le l.
Proof.
  split.
  - intros H. replace l with (zsort l); [apply zsort_sorted|]. apply nth_error_ext. intros i. specialize (H i). rewrite !py_index_nat in H.
    destruct (nth_error l i), (nth_error (zsort l) i); congruence.
  - intros S i. now rewrite zsort_id.
Qed.

(* ------------------------------------------------------------------ *)
(** ** tables of means *)

Lemma mean_spec l : l <> [] -> (mean l * inject_Z (Z.of_nat (List.length l)) == qsum l)%Q.
Proof.
  intros N. unfold mean. rewrite Qmult_comm, Qmult_div_r; [reflexivity|]. destruct l; [congruence|]. simpl. unfold Qeq. simpl. lia.
Qed.

Lemma related_spec fr scen years c year rows : related fr scen years c = Ok (year, rows) ->
  py_index years (cl_level c) = Ok year /\
  forall r, In r rows <-> In r (f_rows fr) /\ fr_year r = year /\ exists s, In s (cl_scenarios c) /\ nth_error scen s = Some (fr_scenario r).
Proof.
  unfold related. intros E. destruct (mapM _ _) as [w|] eqn:Ew; [|discriminate]. cbn [rbind] in E.
  destruct (py_index years (cl_level c)) as [y|] eqn:Ey; [|discriminate]. cbn [rbind] in E. injection E as <- <-.
  split; auto. apply mapM_Ok in Ew. intros r. rewrite filter_In, andb_true_iff, existsb_Z, Z.eqb_eq. split.
  - intros (I & Iw & Yr). sp; auto. destruct (Forall2_In_r _ _ _ _ Ew Iw) as (s & Is & Es). exists s. split; auto.
    rewrite py_index_nat in Es. destruct (nth_error scen s); congruence.
  - intros (I & Yr & s & Is & Es). sp; auto. destruct (Forall2_In_l _ _ _ _ Ew Is) as (z & Iz & Ez). rewrite py_index_nat, Es in Ez.
    injection Ez as ->. exact Iz.
Qed.

Lemma related_total fr scen years c y : (forall s, In s (cl_scenarios c) -> s < List.length scen) -> py_index years (cl_level c) = Ok y ->
  exists rows, related fr scen years c = Ok (y, rows).
Proof.
  intros H Ey. unfold related. destruct (mapM_total (fun s => py_index scen (Z.of_nat s)) (cl_scenarios c)) as [w Ew].
  - intros s Is. rewrite py_index_nat. apply H in Is. apply nth_error_Some in Is. destruct (nth_error scen s); [eauto|congruence].
  - rewrite Ew. cbn [rbind]. rewrite Ey. cbn [rbind]. eauto.
Qed.

Lemma at_bus_In b rows r : In r (at_bus b rows) <-> In r rows /\ fr_bus r = b.
Proof. unfold at_bus. now rewrite filter_In, Z.eqb_eq. Qed.

Lemma adapt_buses_spec fr scen years c tab : adapt_buses fr scen years c = Ok tab -> exists year rows,
  related fr scen years c = Ok (year, rows) /\ map tb_bus tab = unique (map fr_bus rows) /\
  forall t, In t tab -> tb_year t = year /\ exists p q, tb_vals t = [p; q] /\
    column_mean fr "p_mw" (at_bus (tb_bus t) rows) = Ok p /\ column_mean fr "q_mvar" (at_bus (tb_bus t) rows) = Ok q.
Proof.
  unfold adapt_buses. intros E. destruct (related fr scen years c) as [[year rows]|] eqn:Er; [|discriminate]. cbn [rbind fst snd] in E.
  exists year, rows. apply mapM_Ok in E. sp; auto.
  - apply (Forall2_map_l _ tb_bus _ _ E). intros b t Et. unfold bus_columns in Et. cbn [mapM] in Et.
    destruct (column_mean fr "p_mw" _); [|discriminate]. cbn [rbind] in Et. destruct (column_mean fr "q_mvar" _); [|discriminate].
    cbn [rbind] in Et. injection Et as <-. reflexivity.
  - intros t It. destruct (Forall2_In_r _ _ _ _ E It) as (b & _ & Et). unfold bus_columns in Et. cbn [mapM] in Et.
    destruct (column_mean fr "p_mw" _) as [p|] eqn:Ep; [|discriminate]. cbn [rbind] in Et. destruct (column_mean fr "q_mvar" _) as [q|] eqn:Eq; [|discriminate].
    cbn [rbind] in Et. injection Et as <-. simpl. split; auto. exists p, q. auto.
Qed.

Lemma adapt_buses_total fr scen years c y : (forall s, In s (cl_scenarios c) -> s < List.length scen) -> py_index years (cl_level c) = Ok y ->
  In "p_mw" (f_cols fr) -> In "q_mvar" (f_cols fr) -> exists tab, adapt_buses fr scen years c = Ok tab.
Proof.
  intros H Ey P Q. destruct (related_total fr scen years c y H Ey) as [rows Er]. unfold adapt_buses. rewrite Er. cbn [rbind fst snd].
  assert (POS : forall col l, In col l -> exists i, position col l = Some i).
  { clear. induction l as [|x l IH]; intros I; [destruct I|]. simpl. destruct (String.eqb_spec x col); [eauto|].
    destruct I as [->|I]; [congruence|]. destruct (IH I) as [i ->]. simpl. eauto. }
  apply mapM_total. intros b _. unfold bus_columns, column_mean. cbn [mapM].
  destruct (POS _ _ P) as [i Ei]. destruct (POS _ _ Q) as [j Ej]. rewrite Ei, Ej. cbn [rbind]. eauto.
Qed.

(* ------------------------------------------------------------------ *)
(** ** the whole control graph *)

Lemma d_set_get {V} (k k' : string) (v : V) l : l_get k' (d_set k v l) = if String.eqb k k' then Some v else l_get k' l.
Proof.
  induction l as [|[j w] l IH]; simpl; [destruct (String.eqb k k'); reflexivity|].
  destruct (String.eqb_spec j k) as [->|NE]; simpl; [destruct (String.eqb k k'); reflexivity|].
  destruct (String.eqb_spec j k') as [->|NE']; [|exact IH]. destruct (String.eqb_spec k k'); [congruence|reflexivity].
Qed.

(** Tables of a node: the frame of a group, averaged. *)
Lemma node_tables_spec scen years c : forall frames d0, NoDup (map fst frames) ->
  (forall g fr, In (g, fr) frames -> g = "buses" -> exists t, adapt_buses fr scen years c = Ok t) ->
  (forall g fr, In (g, fr) frames -> g = "flexible units" -> exists t, adapt_flexible fr scen years c = Ok t) ->
  exists d, foldM (fun d gf =>
    if String.eqb (fst gf) "buses" then
      do t <- adapt_buses (snd gf) scen years c; Ok (d_set "buses" t d)
    else if String.eqb (fst gf) "flexible units" then
      do t <- adapt_flexible (snd gf) scen years c; Ok (d_set "flexible units" t d)
    else Ok d) frames d0 = Ok d /\
  (forall fr, In ("buses", fr) frames -> exists t, adapt_buses fr scen years c = Ok t /\ l_get "buses" d = Some t) /\
  (forall fr, In ("flexible units", fr) frames -> exists t, adapt_flexible fr scen years c = Ok t /\ l_get "flexible units" d = Some t) /\
  (forall g, ~ In g (map fst frames) -> l_get g d = l_get g d0).
Proof.
  induction frames as [|[g fr] frames IH]; intros d0 ND HB HF.
  - exists d0. sp; auto; intros; contradiction.
  - inversion ND as [|? ? N1 N2]; subst. simpl in N1.
    assert (HB' : forall g0 fr0, In (g0, fr0) frames -> g0 = "buses" -> exists t, adapt_buses fr0 scen years c = Ok t)
      by (intros g0 fr0 I; apply (HB g0); now right).
    assert (HF' : forall g0 fr0, In (g0, fr0) frames -> g0 = "flexible units" -> exists t, adapt_flexible fr0 scen years c = Ok t)
      by (intros g0 fr0 I; apply (HF g0); now right).
    cbn [foldM fst snd]. destruct (String.eqb_spec g "buses") as [->|NB].
    + destruct (HB "buses" fr) as [t Et]; [now left|reflexivity|]. rewrite Et. cbn [rbind].
      destruct (IH (d_set "buses" t d0) N2 HB' HF') as (d & E & A & B & C). exists d. sp; auto.
      * intros fr' [EE|I]; [injection EE as <-|auto]. exists t. split; auto. rewrite C, d_set_get; auto.
      * intros fr' [EE|I]; [discriminate|auto].
      * intros g' NI. simpl in NI. rewrite C, d_set_get by tauto. destruct (String.eqb_spec "buses" g'); [tauto|reflexivity].
    + destruct (String.eqb_spec g "flexible units") as [->|NF].
      * destruct (HF "flexible units" fr) as [t Et]; [now left|reflexivity|]. rewrite Et. cbn [rbind].
        destruct (IH (d_set "flexible units" t d0) N2 HB' HF') as (d & E & A & B & C). exists d. sp; auto.
        -- intros fr' [EE|I]; [discriminate|auto].
        -- intros fr' [EE|I]; [injection EE as <-|auto]. exists t. split; auto. rewrite C, d_set_get; auto.
        -- intros g' NI. simpl in NI. rewrite C, d_set_get by tauto. destruct (String.eqb_spec "flexible units" g'); [tauto|reflexivity].
      * cbn [rbind]. destruct (IH d0 N2 HB' HF') as (d & E & A & B & C). exists d. sp; auto.
        -- intros fr' [EE|I]; [congruence|auto].
        -- intros fr' [EE|I]; [congruence|auto].
        -- intros g' NI. simpl in NI. apply C. tauto.
Qed.

Lemma nget_mapM {A B} (f : A -> res B) : forall l r, mapM (fun it : nat * A => do t <- f (snd it); Ok (fst it, t)) l = Ok r ->
  map fst r = map fst l /\ forall n a, nget n l = Some a -> exists t, f a = Ok t /\ nget n r = Some t.
Proof.
  induction l as [|[k a] l IH]; intros r E; simpl in E; [injection E as <-; split; auto; intros; discriminate|].
  destruct (f a) as [t|] eqn:Ef; [|discriminate]. cbn [rbind] in E. destruct (mapM _ l) as [r'|] eqn:Em; [|discriminate].
  cbn [rbind] in E. injection E as <-. destruct (IH r' eq_refl) as [A1 A2]. simpl. split; [now rewrite A1|].
  intros n b Eb. destruct (Nat.eqb k n); [injection Eb as <-; eauto|auto].
Qed.

(** A clustered profile that the planner can use: at least two stages, all rows with one value
    per scenario, one cluster at the first stage, a label per scenario and per stage. *)
Record usable (p : clustered) : Prop := {
  us_rect : rectangular (cp_profile p) (List.length (cp_columns p));
  us_some : 0 < List.length (cp_columns p);
  us_rows : List.length (cp_index p) = List.length (pr_rows (cp_profile p));
  us_two : 2 <= List.length (pr_rows (cp_profile p));
  us_first : forall row v, nth_error (pr_rows (cp_profile p)) 0 = Some row -> In v row -> (v == hd 0%Q row)%Q }.

Definition bus_frames (frames : @items frame) : Prop := NoDup (map fst frames) /\
  forall fr, In ("buses", fr) frames -> In "p_mw" (f_cols fr) /\ In "q_mvar" (f_cols fr).

Lemma usable_graph p : usable p -> exists g, create_graph (cp_profile p) = Ok (g, graph_nodes (cp_profile p)) /\
    staged g 0 (stage_of (graph_nodes (cp_profile p))) (List.length (pr_rows (cp_profile p)) - 1) /\
    (forall n, In n (g_nodes g) <-> In n (map fst (graph_nodes (cp_profile p)))) /\
    (forall a b, In (a, b) (g_edges g) <-> exists ca cb, In (a, ca) (graph_nodes (cp_profile p)) /\ In (b, cb) (graph_nodes (cp_profile p)) /\
      cl_level cb = (cl_level ca + 1)%Z /\ exists s, In s (cl_scenarios ca) /\ In s (cl_scenarios cb)).
Proof.
  intros []. destruct (pr_rows (cp_profile p)) as [|row rows] eqn:E; [simpl in *; lia|].
  destruct (create_graph_staged (cp_profile p) (List.length (cp_columns p)) row) as (g & A & B & C & D); auto.
  - now rewrite E.
  - now rewrite E.
  - apply Forall_forall. intros v Iv. apply (us_first0 row v); auto.
  - exists g. rewrite E in B. auto.
Qed.

Lemma cluster_in_range p n c : usable p -> In (n, c) (graph_nodes (cp_profile p)) ->
  (forall s, In s (cl_scenarios c) -> s < List.length (cp_columns p)) /\
  (exists i, cl_level c = Z.of_nat i /\ i < List.length (cp_index p)).
Proof.
  intros U I. destruct (graph_nodes_In _ _ _ I) as (i & row & v & Er & Iv & ->). split.
  - intros s Is. simpl in Is. apply with_value_spec in Is as (x & Ex & _). apply (rect_cell _ _ _ _ _ (us_rect _ U) Er). eauto.
  - exists i. split; auto. rewrite (us_rows _ U). apply nth_error_Some. congruence.
Qed.

Lemma tables_total p frames n c : usable p -> bus_frames frames -> In (n, c) (graph_nodes (cp_profile p)) ->
  exists d, node_tables frames (cp_columns p) (cp_index p) c = Ok d /\
   (forall fr, In ("buses", fr) frames -> exists t, adapt_buses fr (cp_columns p) (cp_index p) c = Ok t /\ l_get "buses" d = Some t) /\
   (forall fr, In ("flexible units", fr) frames -> exists t, adapt_flexible fr (cp_columns p) (cp_index p) c = Ok t /\ l_get "flexible units" d = Some t).
Proof.
  intros U [ND HB] I. destruct (cluster_in_range p n c U I) as (S & i & Li & Lt).
  assert (Y : exists y, py_index (cp_index p) (cl_level c) = Ok y).
  { rewrite Li, py_index_nat. apply nth_error_Some in Lt. destruct (nth_error (cp_index p) i); [eauto|congruence]. }
  destruct Y as [y Ey].
  destruct (node_tables_spec (cp_columns p) (cp_index p) c frames [] ND) as (d & E & A & B & _).
  - intros g fr J ->. destruct (HB fr J). eapply adapt_buses_total; eauto.
  - intros g fr J ->. unfold adapt_flexible. destruct (related_total fr _ _ _ _ S Ey) as [rows Er]. rewrite Er. cbn [rbind]. eauto.
  - exists d. auto.
Qed.

Lemma create_control_ok ord fuel p frames : enumerates ord -> usable p -> frames <> [] -> bus_frames frames ->
  List.length (pr_rows (cp_profile p)) + 1 <= fuel ->
  exists g ct o, create_graph (cp_profile p) = Ok (g, graph_nodes (cp_profile p)) /\
    create_control ord fuel [p] true frames = Ok ct /\
    staged g 0 (stage_of (graph_nodes (cp_profile p))) (List.length (pr_rows (cp_profile p)) - 1) /\
    arborescence (ct_graph ct) 0 /\ unfolds g (graph_nodes (cp_profile p)) 0 (ct_graph ct) (ct_nodes ct) o /\
    ct_years ct = zsort (cp_index p) /\ NoDup (g_nodes (ct_graph ct)) /\
    (forall n, In n (map fst (ct_nodes ct)) <-> In n (g_nodes (ct_graph ct))) /\
    map fst (ct_map ct) = map fst (ct_nodes ct) /\
    (forall a b, In (a, b) (g_edges (ct_graph ct)) -> In a (g_nodes (ct_graph ct)) /\ In b (g_nodes (ct_graph ct))) /\
    (forall n c, nget n (ct_nodes ct) = Some c -> (exists n0, In (n0, c) (graph_nodes (cp_profile p))) /\
       exists d, node_tables frames (cp_columns p) (cp_index p) c = Ok d /\ nget n (ct_map ct) = Some d).
Proof.
  intros ORD U NF BF LF. destruct (usable_graph p U) as (g & EG & SG & NN & EE). exists g.
  pose proof (us_two _ U) as L2.
  assert (DATA : forall n, In n (g_nodes g) -> exists v, nget n (graph_nodes (cp_profile p)) = Some v).
  { intros n I. apply NN in I. now apply nget_keys. }
  destruct (convert_spec ord g 0 _ _ (graph_nodes (cp_profile p)) SG DATA ORD fuel) as (T & d & o & EC & AR & UN & ND & KEYS & KEEP & ENDS); [lia|].
  assert (KEYS' : forall n, In n (map fst d) <-> In n (g_nodes T)) by (apply KEYS; intros n; symmetry; apply NN).
  assert (FROM : forall n c, nget n d = Some c -> exists n0, In (n0, c) (graph_nodes (cp_profile p))).
  { intros n c E. assert (I : In n (g_nodes T)) by (apply KEYS', nget_keys; eauto). destruct (un_data _ _ _ _ _ _ UN n I) as [_ E2].
    rewrite E in E2. symmetry in E2. apply nget_In in E2; [eauto|apply graph_nodes_keys]. }
  pose proof (convert_keys _ _ _ _ _ _ (graph_nodes_keys _) EC) as NKD.
  assert (TOT : exists m, mapM (fun it => do t <- node_tables frames (cp_columns p) (cp_index p) (snd it); Ok (fst it, t)) d = Ok m).
  { apply mapM_total. intros [n c] I. simpl.
    destruct (FROM n c) as [n0 I0]; [now apply nget_In|].
    destruct (tables_total p frames n0 c U BF I0) as (t & Et & _). rewrite Et. cbn [rbind]. eauto. }
  destruct TOT as [m Em]. exists (mkControl T d m (zsort (cp_index p))), o.
  assert (EK : create_control ord fuel [p] true frames = Ok (mkControl T d m (zsort (cp_index p)))).
  { unfold create_control. cbn [mapM]. rewrite EG. cbn [rbind fst snd]. rewrite EC. cbn [rbind].
    destruct frames; [congruence|]. unfold create_map. cbn [fst snd]. rewrite Em. reflexivity. }
  destruct (nget_mapM _ _ _ Em) as [A1 A2]. sp; auto. intros n c En. split; [eauto|]. destruct (A2 n c En) as (t & Et & Ent). eauto.
Qed.
