(** Properties C30-C35 and C61: scenario graphs, their conversion to trees and the data attached
    to their nodes. *)
From Coq Require Import List String Bool Arith ZArith QArith Lia Permutation Sorted.
From Verif Require Import Base Container ContainerSpec Graph GraphSpec GraphProofs GraphTree GraphData GraphDataProofs.
From Verif Require Import Planner PlannerSpec PlannerInv PlannerMain PlannerFacts GraphPlan.
Import ListNotations.
Open Scope string_scope.
Open Scope nat_scope.
Open Scope list_scope.

Local Ltac sp := repeat match goal with |- _ /\ _ => split end.

(** Three stages and three scenarios; the scenario graph is 0 -> {1, 2}, 1 -> {3, 4}, 2 -> 4. *)
Definition table : profile := mkProfile "load" "p_mw" [[1; 1; 1]; [2; 2; 3]; [4; 5; 5]]%Q.
Definition table_nodes : list (nat * cluster) :=
  [(0, mkCluster [0; 1; 2] 1%Q 0 "load" "p_mw");
   (1, mkCluster [0; 1] 2%Q 1 "load" "p_mw"); (2, mkCluster [2] 3%Q 1 "load" "p_mw");
   (3, mkCluster [0] 4%Q 2 "load" "p_mw"); (4, mkCluster [1; 2] 5%Q 2 "load" "p_mw")].

(* ------------------------------------------------------------------ *)
(** ** C30 *)

(** Nodes are numbered 0, 1, ... stage by stage.  A node of stage [i] stands for one of the values
    of row [i] and lists, in order, exactly the scenarios with that value; every scenario of every
    row is in exactly one node of the stage. *)
Theorem C30_scenarios_partitioned : forall p : profile,
  let nodes := graph_nodes p in
  map fst nodes = seq 0 (List.length nodes) /\
  StronglySorted (fun a b => (cl_level (snd a) <= cl_level (snd b))%Z) nodes /\
  (forall n c, In (n, c) nodes -> exists i row v, cl_level c = Z.of_nat i /\ nth_error (pr_rows p) i = Some row /\
     In v row /\ cl_centroid c = v /\ cl_type c = pr_type p /\ cl_var c = pr_var p /\
     StronglySorted lt (cl_scenarios c) /\
     forall s, In s (cl_scenarios c) <-> exists x, cell row s = Some x /\ (x == v)%Q) /\
  (forall i row s x, nth_error (pr_rows p) i = Some row -> cell row s = Some x ->
     exists n, (exists c, In (n, c) nodes /\ cl_level c = Z.of_nat i /\ In s (cl_scenarios c)) /\
       forall n', (exists c, In (n', c) nodes /\ cl_level c = Z.of_nat i /\ In s (cl_scenarios c)) -> n' = n).
Proof.
  intros p nodes. sp.
  - unfold nodes. rewrite graph_nodes_eq. unfold pblocks at 1. rewrite blocks_fst. f_equal.
    rewrite <- (map_length fst (List.concat (pblocks p))). unfold pblocks. rewrite blocks_fst. now rewrite seq_length.
  - unfold nodes. rewrite graph_nodes_eq. unfold pblocks. generalize (nodes_in_profile p). intros rows.
    generalize 0 at 1. generalize 0. intros c lev. revert lev c. induction rows as [|r rs IH]; intros lev c; simpl; [constructor|].
    assert (HD : forall it, In it (combine (seq c (List.length r)) (map (final_node p (Z.of_nat lev)) r)) -> cl_level (snd it) = Z.of_nat lev).
    { intros [n x] I. apply in_combine_r in I. apply in_map_iff in I as (y & <- & _). reflexivity. }
    assert (TL : forall rs lev c it, In it (List.concat (blocks p lev c rs)) -> (Z.of_nat lev <= cl_level (snd it))%Z).
    { clear. induction rs as [|r rs IH]; intros lev c it I; [destruct I|]. simpl in I. apply in_app_iff in I as [I|I].
      - destruct it as [n x]. apply in_combine_r in I. apply in_map_iff in I as (y & <- & _). simpl. lia.
      - apply IH in I. lia. }
    specialize (IH (S lev) (c + List.length r)). revert HD.
    generalize (combine (seq c (List.length r)) (map (final_node p (Z.of_nat lev)) r)). induction l as [|it l IHl]; intros HD; simpl; auto.
    constructor; [apply IHl; intros x Ix; apply HD; now right|]. apply Forall_forall. intros x Ix. rewrite (HD it) by (now left).
    apply in_app_iff in Ix as [Ix|Ix]; [rewrite (HD x); [lia|now right]|]. apply TL in Ix. lia.
  - intros n c I. destruct (graph_nodes_In p n c I) as (i & row & v & Er & Iv & ->). exists i, row, v. simpl. sp; auto.
    + now apply distinct_incl.
    + apply with_value_sorted.
    + intros s. apply with_value_spec.
  - intros i row s x Er Ex. destruct (node_of p i row s x Er Ex) as (n & c & I & L & S). exists n. split; [eauto|].
    intros n' (c' & I' & L' & S'). apply (node_unique p n' c' n c s); auto. lia.
Qed.
Print Assumptions C30_scenarios_partitioned.

(** Two scenarios share a node of a stage exactly when their clustered values agree. *)
Theorem C30_share_iff_equal : forall p i row s s' x x', nth_error (pr_rows p) i = Some row -> cell row s = Some x -> cell row s' = Some x' ->
  ((exists n c, In (n, c) (graph_nodes p) /\ cl_level c = Z.of_nat i /\ In s (cl_scenarios c) /\ In s' (cl_scenarios c)) <-> (x == x')%Q).
Proof.
  intros p i row s s' x x' Er Ex Ex'. split.
  - intros (n & c & I & L & S & S'). destruct (graph_nodes_In p n c I) as (j & row' & v & Er' & Iv & ->). simpl in *.
    assert (j = i) as -> by lia. assert (row' = row) as -> by congruence.
    apply with_value_spec in S as (y & Ey & Hy). apply with_value_spec in S' as (y' & Ey' & Hy').
    assert (y = x) as -> by congruence. assert (y' = x') as -> by congruence. now rewrite Hy, Hy'.
  - intros H. destruct (node_of p i row s x Er Ex) as (n & c & I & L & S). exists n, c. sp; auto.
    destruct (graph_nodes_In p n c I) as (j & row' & v & Er' & Iv & ->). simpl in *.
    assert (j = i) as -> by lia. assert (row' = row) as -> by congruence.
    apply with_value_spec in S as (y & Ey & Hy). assert (y = x) as -> by congruence. apply with_value_spec. exists x'. split; auto. now rewrite <- H.
Qed.
Print Assumptions C30_share_iff_equal.

Example C30_witness : graph_nodes table = table_nodes.
Proof. reflexivity. Qed.

(* ------------------------------------------------------------------ *)
(** ** C31 *)

(** Two nodes are linked iff they belong to consecutive stages and share a scenario; every link
    is listed once. *)
Theorem C31_edges_join_shared_scenarios : forall p w, Forall (fun row => List.length row = w) (pr_rows p) ->
  exists E, graph_edges (graph_nodes p) = Ok E /\ NoDup E /\
  (forall a b, In (a, b) E <-> exists ca cb, In (a, ca) (graph_nodes p) /\ In (b, cb) (graph_nodes p) /\
    cl_level cb = (cl_level ca + 1)%Z /\ exists s, In s (cl_scenarios ca) /\ In s (cl_scenarios cb)).
Proof. intros p w R. destruct (profile_edges p w R) as (E & A & B & C & _). exists E. auto. Qed.
Print Assumptions C31_edges_join_shared_scenarios.

(** Every scenario traces one path: one node per stage, each linked to the next. *)
Theorem C31_scenario_path : forall p w s E, Forall (fun row => List.length row = w) (pr_rows p) ->
  graph_edges (graph_nodes p) = Ok E -> s < w ->
  exists ns, List.length ns = List.length (pr_rows p) /\
    (forall i a b, nth_error ns i = Some a -> nth_error ns (S i) = Some b -> In (a, b) E) /\
    (forall i n, nth_error ns i = Some n <-> exists c, In (n, c) (graph_nodes p) /\ cl_level c = Z.of_nat i /\ In s (cl_scenarios c)).
Proof.
  intros p w s E R EE L. destruct (scenario_path p w s E R EE L) as (ns & A & B & C). exists ns. sp; auto.
  clear - B. induction ns as [|x ns IH]; intros i a b Ea Eb; [destruct i; discriminate|]. destruct ns as [|y ns]; [destruct i as [|[|i]]; discriminate|].
  destruct B as [B1 B2]. destruct i as [|i]; simpl in Ea, Eb; [injection Ea as <-; injection Eb as <-; exact B1|]. apply (IH B2 i); auto.
Qed.
Print Assumptions C31_scenario_path.

Example C31_witness : Forall (fun row => List.length row = 3) (pr_rows table) /\
  graph_edges (graph_nodes table) = Ok [(0, 1); (0, 2); (1, 3); (1, 4); (2, 4)] /\ 1 < 3.
Proof. sp; [repeat constructor|reflexivity|lia]. Qed.

(* ------------------------------------------------------------------ *)
(** ** C32 *)

(** For every staged graph and every order in which Python enumerates its sets, the conversion
    succeeds, its result is an arborescence with the same root, and it unfolds the graph: every
    tree node carries the data of the graph node it stands for, and the walks from the root
    correspond one to one. *)
Theorem C32_conversion_unfolds : forall (V : Type) ord g root st D (data : list (nat * V)) fuel,
  enumerates ord -> staged g root st D -> (forall n, In n (g_nodes g) <-> In n (map fst data)) -> D + 2 <= fuel ->
  exists t data' o, convert ord g fuel data = Ok (t, data') /\
    arborescence t root /\ unfolds g data root t data' o /\
    (forall n, In n (g_nodes t) <-> In n (map fst data')).
Proof.
  intros V ord g root st D data fuel ORD SG K LF.
  destruct (convert_spec ord g root st D data SG) with (fuel := fuel) as (T & d & o & E & A & B & C & K' & _); auto.
  - intros n I. apply nget_keys. now apply K.
  - exists T, d, o. sp; auto. intros n. symmetry. apply K'. intros m. symmetry. apply K.
Qed.
Print Assumptions C32_conversion_unfolds.

(** The scenario graph of a profile with one cluster at the first stage is staged, so the
    conversion applies to it; in the tree every scenario still has exactly one path. *)
Theorem C32_scenarios_keep_their_path : forall p w ord fuel row,
  Forall (fun r => List.length r = w) (pr_rows p) -> 0 < w -> 2 <= List.length (pr_rows p) ->
  nth_error (pr_rows p) 0 = Some row -> (forall v, In v row -> (v == hd 0%Q row)%Q) ->
  enumerates ord -> List.length (pr_rows p) + 1 <= fuel ->
  exists g t data, create_graph p = Ok (g, graph_nodes p) /\ convert ord g fuel (graph_nodes p) = Ok (t, data) /\
    arborescence t 0 /\
    forall s, s < w -> exists ms, (rooted t 0 ms /\ List.length ms = List.length (pr_rows p) /\
        forall i n, nth_error ms i = Some n -> exists c, nget n data = Some c /\ cl_level c = Z.of_nat i /\ In s (cl_scenarios c)) /\
      forall ms', rooted t 0 ms' -> List.length ms' = List.length (pr_rows p) ->
        (forall n, In n ms' -> exists c, nget n data = Some c /\ In s (cl_scenarios c)) -> ms' = ms.
Proof.
  intros p w ord fuel row R Lw L2 Er F ORD LF.
  assert (F' : Forall (fun v => (v == hd 0%Q row)%Q) row) by now apply Forall_forall.
  destruct (create_graph_staged p w row) as (g & EG & SG & NN & EE); auto.
  destruct (convert_spec ord g 0 _ _ (graph_nodes p) SG) with (fuel := fuel) as (t & data & o & E & A & UN & C & K' & _ & EN); auto; [|lia|].
  { intros n I. apply nget_keys. now apply NN. }
  exists g, t, data. sp; auto. intros s Ls.
  destruct (profile_edges p w R) as (E0 & EE0 & _ & EI & _).
  destruct (scenario_path p w s E0 R EE0 Ls) as (ns & Ln & W & NTH).
  assert (GE : forall a b, In (a, b) E0 <-> In (a, b) (g_edges g)) by (intros a b; rewrite EI, EE; tauto).
  assert (RG : rooted g 0 ns).
  { split.
    - destruct ns as [|n ns]; [simpl in Ln; lia|]. simpl. f_equal.
      destruct (proj1 (NTH 0 n) eq_refl) as (c & I & L & _).
      assert (In n (g_nodes g)) as Ig by (apply NN; now apply (in_map fst) in I).
      apply (sg_root _ _ _ _ SG); auto. unfold stage_of. apply nget_In in I; [|apply graph_nodes_keys]. rewrite I, L. reflexivity.
    - clear - W GE. induction ns as [|a ns IH]; [exact I|]. destruct ns as [|b ns]; [exact I|]. destruct W as [W1 W2]. split; auto. now apply GE. }
  destruct (un_up _ _ _ _ _ _ UN ns RG) as (ms & RM & EM). exists ms.
  assert (LM : List.length ms = List.length (pr_rows p)) by (rewrite <- Ln, <- EM; now rewrite map_length).
  assert (IN : forall ms, rooted t 0 ms -> forall n, In n ms -> In n (g_nodes t)).
  { clear - A EN. intros ms [H W] n I. destruct ms as [|m ms]; [destruct I|]. injection H as ->. destruct I as [<-|I]; [apply A|].
    revert W I. generalize 0 as m. induction ms as [|x ms IH]; intros m W I; [destruct I|]. destruct W as [W1 W2].
    destruct I as [<-|I]; [now apply EN in W1|]. apply (IH x); auto. }
  sp; auto.
  - intros i n En. destruct (un_data _ _ _ _ _ _ UN n) as [_ D1]; [apply (IN ms RM); eapply nth_error_In; exact En|].
    assert (En' : nth_error ns i = Some (o n)) by (rewrite <- EM; now apply map_nth_error).
    apply NTH in En' as (c & I & L & S). exists c. rewrite D1. sp; auto. apply nget_In; auto. apply graph_nodes_keys.
  - intros ms' RM' LM' H'. apply (un_one _ _ _ _ _ _ UN); auto. rewrite EM. apply nth_error_ext. intros i.
    destruct (nth_error ms' i) as [n|] eqn:En.
    + rewrite (map_nth_error o _ _ En). symmetry. apply NTH. apply nth_error_In in En as In_. destruct (H' n In_) as (c & Ec & S).
      destruct (un_data _ _ _ _ _ _ UN n (IN ms' RM' n In_)) as [_ D1]. rewrite Ec in D1. symmetry in D1.
      exists c. apply nget_In in D1 as I; [|apply graph_nodes_keys]. sp; auto.
      pose proof (un_down _ _ _ _ _ _ UN ms' RM') as RG'.
      destruct (staged_walk _ _ _ _ _ SG RG' i (o n)) as [_ ST]; [now apply map_nth_error|]. unfold stage_of in ST. rewrite D1 in ST.
      destruct (graph_nodes_scenario p (o n) c I) as (j & ? & ? & ? & Lj & _). lia.
    + apply nth_error_None in En. assert (N1 : nth_error (map o ms') i = None) by (apply nth_error_None; now rewrite map_length).
      assert (N2 : nth_error ns i = None) by (apply nth_error_None; lia). congruence.
Qed.
Print Assumptions C32_scenarios_keep_their_path.

Definition as_listed : nat -> list nat -> list nat := fun _ l => l.
Definition reversed : nat -> list nat -> list nat := fun _ l => rev l.

Lemma as_listed_ok : enumerates as_listed. Proof. intros i l. apply Permutation_refl. Qed.
Lemma reversed_ok : enumerates reversed. Proof. intros i l. symmetry. apply Permutation_rev. Qed.

(** Node 4 has two predecessors; its copy 5 hangs below one of them, depending on the order. *)
Example C32_witness :
  let g := mkG [0; 1; 2; 3; 4] [(0, 1); (0, 2); (1, 3); (1, 4); (2, 4)] in
  create_graph table = Ok (g, graph_nodes table) /\ staged g 0 (stage_of (graph_nodes table)) 2 /\
  (forall n, In n (g_nodes g) <-> In n (map fst (graph_nodes table))) /\
  match convert as_listed g 4 (graph_nodes table), convert reversed g 4 (graph_nodes table) with
  | Ok (t, d), Ok (t', d') => g_edges t = [(1, 3); (1, 4); (2, 5); (0, 1); (0, 2)] /\ g_edges t' = [(2, 4); (1, 5); (1, 3); (0, 2); (0, 1)] /\
     nget 5 d = nget 4 (graph_nodes table) /\ nget 5 d' = nget 4 (graph_nodes table)
  | _, _ => False
  end.
Proof.
  assert (R : rectangular table 3) by repeat constructor.
  destruct (create_graph_staged table 3 [1; 1; 1]%Q R) as (g & EG & SG & NN & _); [lia|simpl; lia|reflexivity|repeat constructor|].
  assert (E : g = mkG [0; 1; 2; 3; 4] [(0, 1); (0, 2); (1, 3); (1, 4); (2, 4)]) by (vm_compute in EG; injection EG as <-; reflexivity).
  subst g. split; [exact EG|]. split; [exact SG|]. split; [exact NN|]. vm_compute.
  sp; reflexivity.
Qed.

(** Outside these graphs: a profile with two clusters at the first stage has two roots, and the
    part of the graph that only the second root reaches disappears from the tree. *)
Theorem C32_second_root_lost_refuted : exists p g t data n,
  create_graph p = Ok (g, graph_nodes p) /\ convert as_listed g 10 (graph_nodes p) = Ok (t, data) /\
  In n (g_nodes g) /\ ~ In n (g_nodes t).
Proof.
  exists (mkProfile "load" "p_mw" [[1; 2]; [3; 4]]%Q).
  exists (mkG [0; 2; 1; 3] [(0, 2); (1, 3)]), (mkG [0; 2] [(0, 2)]).
  eexists. exists 1. sp; [reflexivity|vm_compute; reflexivity|simpl; auto|simpl; intuition lia].
Qed.
Print Assumptions C32_second_root_lost_refuted.

(** A profile with a single stage gives a graph without nodes, on which the conversion raises. *)
Theorem C32_single_stage_raises : forall p row ord fuel, pr_rows p = [row] ->
  exists g nodes, create_graph p = Ok (g, nodes) /\ convert ord g fuel nodes = Err NetworkXPointlessConcept.
Proof.
  intros p row ord fuel Er. assert (R : rectangular p (List.length row)) by (unfold rectangular; rewrite Er; repeat constructor).
  destruct (profile_edges p _ R) as (E & EE & _ & EI & _).
  assert (E = []) as ->.
  { destruct E as [|[a b] E]; auto. destruct (proj1 (EI a b)) as (ca & cb & Ia & Ib & L & _); [now left|]. exfalso.
    destruct (graph_nodes_In p a ca Ia) as (i & r & v & Hi & _ & ->). destruct (graph_nodes_In p b cb Ib) as (j & r' & v' & Hj & _ & ->).
    rewrite Er in *. destruct i as [|[|i]], j as [|[|j]]; simpl in *; try discriminate; lia. }
  exists empty_graph, (graph_nodes p). split; [|reflexivity]. unfold create_graph. now rewrite EE.
Qed.
Print Assumptions C32_single_stage_raises.

Example C32_single_stage_witness : pr_rows (mkProfile "load" "p_mw" [[1; 2]]%Q) = [[1; 2]%Q].
Proof. reflexivity. Qed.

(* ------------------------------------------------------------------ *)
(** ** C33 *)

(** For staged graphs - in particular scenario graphs with one root - a graph that passes the tree
    test is an arborescence (missing for a full proof of C33: all directed graphs; that is false,
    see below). *)
Theorem C33_staged_tree_is_arborescence_partial : forall g root st D, staged g root st D -> is_tree g = Ok true -> arborescence g root.
Proof.
  intros g root st D SG E. unfold is_tree in E. destruct (g_nodes g) eqn:EN; [discriminate|]. rewrite <- EN in E. injection E as E.
  apply andb_true_iff in E as [E _]. apply Nat.eqb_eq in E. now apply (tree_unfolds g root st D (@nil (nat * unit)) SG).
Qed.
Print Assumptions C33_staged_tree_is_arborescence_partial.

Example C33_witness : exists g, create_graph (mkProfile "load" "p_mw" [[1; 1; 1]; [2; 2; 3]]%Q) = Ok (g, graph_nodes (mkProfile "load" "p_mw" [[1; 1; 1]; [2; 2; 3]]%Q)) /\
  staged g 0 (stage_of (graph_nodes (mkProfile "load" "p_mw" [[1; 1; 1]; [2; 2; 3]]%Q))) 1 /\ is_tree g = Ok true.
Proof.
  destruct (create_graph_staged (mkProfile "load" "p_mw" [[1; 1; 1]; [2; 2; 3]]%Q) 3 [1; 1; 1]%Q) as (g & EG & SG & _).
  - repeat constructor. - lia. - simpl; lia. - reflexivity. - repeat constructor.
  - exists g. sp; auto. vm_compute in EG. injection EG as <-. reflexivity.
Qed.

(** networkx.is_tree ignores directions: 0 -> 2 <- 1 passes the test, and the conversion hands it
    back although node 2 has two predecessors.  The graph arises from a profile. *)
Theorem C33_tree_test_is_undirected_refuted : exists p g,
  create_graph p = Ok (g, graph_nodes p) /\ convert as_listed g 10 (graph_nodes p) = Ok (g, graph_nodes p) /\
  exists n a b, pred g n = [a; b] /\ a <> b.
Proof.
  exists (mkProfile "load" "p_mw" [[1; 2]; [3; 3]]%Q), (mkG [0; 2; 1] [(0, 2); (1, 2)]).
  sp; [reflexivity|reflexivity|]. exists 2, 0, 1. split; [reflexivity|lia].
Qed.
Print Assumptions C33_tree_test_is_undirected_refuted.

(* ------------------------------------------------------------------ *)
(** ** C34 *)

(** The rows of a table that concern a node and a bus: those of the node's scenarios, in the year of
    the node's stage. *)
Definition concerns (scen : list Z) (c : cluster) (year bus : Z) (r : frow) : Prop :=
  fr_year r = year /\ fr_bus r = bus /\ exists s, In s (cl_scenarios c) /\ nth_error scen s = Some (fr_scenario r).

(** [rows] lists, in table order, the rows that satisfy [Q]. *)
Definition selects (Q : frow -> Prop) (rows all : list frow) : Prop :=
  exists f, rows = filter f all /\ forall r, In r all -> (f r = true <-> Q r).

Definition value_of (fr : frame) (col : string) (r : frow) (x : Q) : Prop :=
  exists i, nth_error (f_cols fr) i = Some col /\ (forall j, j < i -> nth_error (f_cols fr) j <> Some col) /\ x = nth i (fr_vals r) 0%Q.

Lemma position_spec c : forall l i, position c l = Some i -> nth_error l i = Some c /\ forall j, j < i -> nth_error l j <> Some c.
Proof.
  induction l as [|x l IH]; intros i E; simpl in E; [discriminate|]. destruct (String.eqb_spec x c) as [->|NE].
  - injection E as <-. split; auto. intros; lia.
  - destruct (position c l) as [k|]; [|discriminate]. injection E as <-. destruct (IH k eq_refl) as [A B]. split; auto.
    intros [|j] L; simpl; [congruence|]. apply B. lia.
Qed.

Lemma column_mean_spec fr col rows m : column_mean fr col rows = Ok m -> rows <> [] ->
  exists xs, Forall2 (value_of fr col) rows xs /\ is_mean m xs.
Proof.
  unfold column_mean. destruct (position col (f_cols fr)) as [i|] eqn:E; [|discriminate]. intros H N. injection H as <-.
  destruct (position_spec _ _ _ E) as [A B]. exists (map (fun r => nth i (fr_vals r) 0%Q) rows). split.
  - clear N. induction rows as [|r rows IH]; simpl; constructor; auto. exists i. auto.
  - assert (NN : map (fun r => nth i (fr_vals r) 0%Q) rows <> []) by (destruct rows; [congruence|discriminate]). split; auto. now apply mean_spec.
Qed.

(** The table attached to a node: every bus with rows for the node is listed once, with the year
    of the stage and the means of the P and Q values of those rows. *)
Theorem C34_node_loads_are_means : forall fr scen years c tab, adapt_buses fr scen years c = Ok tab ->
  exists year, py_index years (cl_level c) = Ok year /\ NoDup (map tb_bus tab) /\
  (forall b, In b (map tb_bus tab) <-> exists r, In r (f_rows fr) /\ concerns scen c year b r) /\
  (forall t, In t tab -> tb_year t = year /\ exists rows ps qs p q,
     selects (concerns scen c year (tb_bus t)) rows (f_rows fr) /\
     Forall2 (value_of fr "p_mw") rows ps /\ Forall2 (value_of fr "q_mvar") rows qs /\
     tb_vals t = [p; q] /\ is_mean p ps /\ is_mean q qs).
Proof.
  intros fr scen years c tab E. destruct (adapt_buses_spec _ _ _ _ _ E) as (year & rows & Er & Eb & H).
  destruct (related_spec _ _ _ _ _ _ Er) as [Ey RS]. exists year. sp; auto.
  - rewrite Eb. apply unique_NoDup.
  - intros b. rewrite Eb, unique_In, in_map_iff. split.
    + intros (r & <- & I). apply RS in I as (I & Y & S). exists r. unfold concerns. auto.
    + intros (r & I & Y & B & S). exists r. split; auto. apply RS. auto.
  - intros t It. destruct (H t It) as (Yt & p & q & Ev & Ep & Eq). split; auto.
    assert (NE : at_bus (tb_bus t) rows <> []).
    { apply (in_map tb_bus) in It. rewrite Eb, unique_In, in_map_iff in It. destruct It as (r & Br & Ir).
      assert (J : In r (at_bus (tb_bus t) rows)) by (apply at_bus_In; auto). intros N. rewrite N in J. destruct J. }
    destruct (column_mean_spec _ _ _ _ Ep NE) as (ps & P1 & P2). destruct (column_mean_spec _ _ _ _ Eq NE) as (qs & Q1 & Q2).
    exists (at_bus (tb_bus t) rows), ps, qs, p, q. sp; auto.
    unfold related in Er. destruct (mapM _ _) as [w|] eqn:Ew; [|discriminate]. cbn [rbind] in Er. rewrite Ey in Er. cbn [rbind] in Er. injection Er as <-.
    exists (fun r => existsb (Z.eqb (fr_scenario r)) w && Z.eqb (fr_year r) year && Z.eqb (fr_bus r) (tb_bus t)). split.
    + unfold at_bus. clear. induction (f_rows fr) as [|r l IH]; simpl; auto.
      destruct (existsb (Z.eqb (fr_scenario r)) w && Z.eqb (fr_year r) year) eqn:E1; simpl; auto. destruct (Z.eqb (fr_bus r) (tb_bus t)); simpl; now rewrite IH.
    + intros r Ir. rewrite !andb_true_iff, existsb_Z, !Z.eqb_eq. unfold concerns. apply mapM_Ok in Ew. split.
      * intros [[Iw Y] B]. sp; auto. destruct (Forall2_In_r _ _ _ _ Ew Iw) as (s & Is & Es). exists s. split; auto.
        rewrite py_index_nat in Es. destruct (nth_error scen s); congruence.
      * intros (Y & B & s & Is & Es). sp; auto. destruct (Forall2_In_l _ _ _ _ Ew Is) as (z & Iz & Ez). rewrite py_index_nat, Es in Ez.
        injection Ez as ->. exact Iz.
Qed.
Print Assumptions C34_node_loads_are_means.

(** The creation of the control tree attaches such a table to every node of the tree, copies
    included. *)
Theorem C34_every_node_has_its_loads : forall ord fuel p frames fr,
  enumerates ord -> usable p -> NoDup (map fst frames) -> In ("buses", fr) frames ->
  In "p_mw" (f_cols fr) -> In "q_mvar" (f_cols fr) -> List.length (pr_rows (cp_profile p)) + 1 <= fuel ->
  exists ct, create_control ord fuel [p] true frames = Ok ct /\
  forall n, In n (g_nodes (ct_graph ct)) -> exists c tables tab,
    nget n (ct_nodes ct) = Some c /\ nget n (ct_map ct) = Some tables /\ l_get "buses" tables = Some tab /\
    adapt_buses fr (cp_columns p) (cp_index p) c = Ok tab.
Proof.
  intros ord fuel p frames fr ORD U ND I P Q LF.
  assert (BF : bus_frames frames).
  { split; auto. intros fr' I'. assert (fr' = fr) as ->; auto. clear - ND I I'. induction frames as [|[g f] frames IH]; [destruct I|].
    inversion ND as [|? ? N1 N2]; subst. destruct I as [E|I], I' as [E'|I']; auto.
    - congruence.
    - injection E as -> ->. exfalso. apply N1. now apply (in_map fst) in I'.
    - injection E' as -> ->. exfalso. apply N1. now apply (in_map fst) in I. }
  destruct (create_control_ok ord fuel p frames ORD U) as (g & ct & o & _ & E & _ & _ & _ & _ & _ & K & _ & _ & T); auto; [intros ->; destruct I|].
  exists ct. split; auto. intros n In_. apply K, nget_keys in In_ as [c Ec]. destruct (T n c Ec) as ([n0 I0] & d & Ed & Em).
  destruct (tables_total p frames n0 c U BF I0) as (d' & Ed' & HB & _). assert (d' = d) as -> by congruence.
  destruct (HB fr I) as (tab & Et & Eg). exists c, d, tab. auto.
Qed.
Print Assumptions C34_every_node_has_its_loads.

Definition loads : frame := mkFrame ["p_mw"; "q_mvar"]
  [mkFRow 1 2030 7 [10; 1]%Q; mkFRow 2 2030 7 [20; 3]%Q; mkFRow 3 2030 7 [90; 9]%Q;
   mkFRow 1 2040 7 [12; 2]%Q; mkFRow 2 2030 8 [5; 0]%Q].
Definition labelled : clustered := mkClustered table [1; 2; 3]%Z [2020; 2030; 2040]%Z.

Lemma labelled_usable : usable labelled.
Proof.
  split; simpl; try lia; [repeat constructor|]. intros row v E I. injection E as <-. simpl in *. intuition (subst; reflexivity).
Qed.

(** Node 1 (scenarios 1 and 2, year 2030) gets the means 15 and 2 at bus 7. *)
Example C34_witness : usable labelled /\ enumerates reversed /\
  match adapt_buses loads [1; 2; 3]%Z [2020; 2030; 2040]%Z (mkCluster [0; 1] 2%Q 1 "load" "p_mw") with
  | Ok [mkT 2030 7 [p; q]; mkT 2030 8 [p'; q']] => (p == 15 /\ q == 2 /\ p' == 5 /\ q' == 0)%Q
  | _ => False
  end.
Proof. sp; [apply labelled_usable|apply reversed_ok|vm_compute; auto]. Qed.

(* ------------------------------------------------------------------ *)
(** ** C35 *)

(** The loads of a node of stage [i] are those of the year [index[i]] of the profile; the planner
    uses the [i]-th of the sorted years.  The two agree at every stage exactly when the index is
    in ascending order (missing for a full proof of C35: other orders; false, see below). *)
Theorem C35_years_agree_iff_ascending_partial : forall ord fuel p frames,
  enumerates ord -> usable p -> bus_frames frames -> frames <> [] -> List.length (pr_rows (cp_profile p)) + 1 <= fuel ->
  exists ct, create_control ord fuel [p] true frames = Ok ct /\
  ((forall i : nat, py_index (cp_index p) (Z.of_nat i) = py_index (ct_years ct) (Z.of_nat i)) <-> StronglySorted Z.le (cp_index p)).
Proof.
  intros ord fuel p frames ORD U BF NF LF. destruct (create_control_ok ord fuel p frames ORD U NF BF LF) as (g & ct & o & _ & E & _ & _ & _ & Y & _).
  exists ct. split; auto. rewrite Y. apply years_agree.
Qed.
Print Assumptions C35_years_agree_iff_ascending_partial.

Example C35_witness : usable labelled /\ bus_frames [("buses", loads)] /\ StronglySorted Z.le (cp_index labelled).
Proof.
  sp; [apply labelled_usable| |repeat constructor; lia]. split; [repeat constructor; auto|].
  intros fr [E|[]]. injection E as <-. simpl. auto.
Qed.

(** With the index 2030, 2020 the loads of 2020 are attached to the second stage, which the planner
    takes for 2030. *)
Theorem C35_years_disagree_refuted : exists p frames ct n c tables tab t,
  usable p /\ bus_frames frames /\ create_control as_listed 10 [p] true frames = Ok ct /\
  nget n (ct_nodes ct) = Some c /\ nget n (ct_map ct) = Some tables /\ l_get "buses" tables = Some tab /\ In t tab /\
  exists y, py_index (ct_years ct) (cl_level c) = Ok y /\ tb_year t <> y.
Proof.
  exists (mkClustered (mkProfile "load" "p_mw" [[1; 1]; [2; 3]]%Q) [1; 2]%Z [2030; 2020]%Z).
  exists [("buses", mkFrame ["p_mw"; "q_mvar"] [mkFRow 1 2020 7 [10; 1]%Q])].
  eexists. exists 1, (mkCluster [0] 2%Q 1 "load" "p_mw"). eexists. eexists. eexists. sp.
  - split; simpl; try lia; [repeat constructor|]. intros row v E I. injection E as <-. simpl in *. intuition (subst; reflexivity).
  - split; [repeat constructor; auto|]. intros fr [E|[]]. injection E as <-. simpl. auto.
  - vm_compute. reflexivity.
  - reflexivity.
  - reflexivity.
  - reflexivity.
  - now left.
  - exists 2030%Z. split; [reflexivity|]. simpl. lia.
Qed.
Print Assumptions C35_years_disagree_refuted.

(* ------------------------------------------------------------------ *)
(** ** C61 *)

(** From profile to plan: for every usable profile, every table of loads, every pool of
    interventions and every behaviour of the OPF, the control tree is created and the search on it
    terminates without raising; every stored plan runs through all stages, one node per stage,
    from node 0, and consecutive nodes share a scenario. *)
Theorem C61_planning_on_the_created_tree : forall ord fuel p frames rate pool opf,
  enumerates ord -> usable p -> bus_frames frames -> frames <> [] -> List.length (pr_rows (cp_profile p)) + 1 <= fuel ->
  ~ (1 - rate / 100 == 0)%Q -> NoDup (map fst pool) ->
  exists ct b s, create_control ord fuel [p] true frames = Ok ct /\
    solve (problem_of ct rate pool opf) (List.length (pr_rows (cp_profile p))) (start 0) = Ok (b, s) /\
    forall k r, stored_row s k r -> exists ns, r_path r = path_of ns /\ List.length ns = List.length (pr_rows (cp_profile p)) /\
      hd_error ns = Some 0 /\
      (forall i n, nth_error ns i = Some n -> exists c, nget n (ct_nodes ct) = Some c /\ cl_level c = Z.of_nat i) /\
      (forall i n m c e, nth_error ns i = Some n -> nth_error ns (S i) = Some m -> nget n (ct_nodes ct) = Some c -> nget m (ct_nodes ct) = Some e ->
         exists x, In x (cl_scenarios c) /\ In x (cl_scenarios e)).
Proof.
  intros ord fuel p frames rate pool opf ORD U BF NF LF NR NP.
  destruct (create_control_ok ord fuel p frames ORD U NF BF LF) as (g & ct & o & EG & E & SG & AR & UN & Y & NDT & K & _ & EN & T).
  destruct (usable_graph p U) as (g' & EG' & _ & NN & GE). rewrite EG in EG'. injection EG' as <-.
  pose proof (us_two _ U) as L2.
  set (P := problem_of ct rate pool opf). set (D := List.length (pr_rows (cp_profile p)) - 1) in *.
  assert (W : well_formed P (List.length (pr_rows (cp_profile p))) 0).
  { unfold well_formed. sp; auto.
    - replace (List.length (pr_rows (cp_profile p))) with (D + 1) by (unfold D; lia). eapply deep_tree_ok; eauto.
    - simpl. rewrite Y. rewrite (Permutation_length (zsort_perm (cp_index p))). rewrite (us_rows _ U). lia. }
  destruct (run_ok P _ 0 W) as (b & s & ES & IV & _). exists ct, b, s. sp; auto.
  intros k r J. destruct (good_row_paths P 0 (log s) r) as (ns & Ep & [PF1 PF2] & LF'); [eapply stored_good; eauto|].
  assert (RT : rooted (ct_graph ct) 0 ns) by (split; auto; now apply (linked_iff ct rate pool opf EN)).
  destruct LF' as (lf & Elf & Lf). exists ns. sp; auto.
  - replace (List.length (pr_rows (cp_profile p))) with (D + 1) by (unfold D; lia).
    eapply leaf_walk with (n := lf); eauto. now apply (leaf_iff ct rate pool opf).
  - intros i n En. pose proof (un_down _ _ _ _ _ _ UN ns RT) as RG.
    destruct (staged_walk _ _ _ _ _ SG RG i (o n)) as [Ig ST]; [now apply map_nth_error|].
    assert (IT : In n (g_nodes (ct_graph ct))).
    { apply nth_error_In in En. clear - En RT AR EN. destruct RT as [H W]. destruct ns as [|m ms]; [destruct En|]. injection H as ->. destruct En as [<-|I]; [apply AR|].
      revert W I. generalize 0 as m. induction ms as [|x ms IH]; intros m W I; [destruct I|]. destruct W as [W1 W2].
      destruct I as [<-|I]; [now apply EN in W1|]. apply (IH x); auto. }
    apply K, nget_keys in IT as [c Ec]. exists c. split; auto.
    assert (IT : In n (g_nodes (ct_graph ct))) by (apply K, nget_keys; eauto).
    destruct (un_data _ _ _ _ _ _ UN n IT) as [_ D1]. rewrite Ec in D1. symmetry in D1. unfold stage_of in ST. rewrite D1 in ST.
    apply nget_In in D1; [|apply graph_nodes_keys]. destruct (graph_nodes_scenario _ _ _ D1) as (j & ? & ? & ? & Lj & _). lia.
  - intros i n m c e En Em Ec Ee. pose proof (un_down _ _ _ _ _ _ UN ns RT) as [_ RW].
    assert (ED : In (o n, o m) (g_edges g)).
    { clear - RW En Em. revert i En Em. induction ns as [|x ns IH]; intros i En Em; [destruct i; discriminate|].
      destruct ns as [|y ns]; [destruct i as [|[|i]]; discriminate|]. destruct RW as [R1 R2].
      destruct i as [|i]; simpl in En, Em; [injection En as <-; injection Em as <-; exact R1|]. apply (IH R2 i); auto. }
    apply GE in ED as (ca & cb & Ia & Ib & _ & SH).
    assert (F : forall n c, nget n (ct_nodes ct) = Some c -> In (o n, c) (graph_nodes (cp_profile p))).
    { intros n0 c0 E0. assert (IT : In n0 (g_nodes (ct_graph ct))) by (apply K, nget_keys; eauto).
      destruct (un_data _ _ _ _ _ _ UN n0 IT) as [_ D1]. rewrite E0 in D1. symmetry in D1. apply nget_In in D1; auto. apply graph_nodes_keys. }
    assert (ca = c) as <-. { apply F in Ec. apply nget_In in Ia, Ec; try apply graph_nodes_keys. congruence. }
    assert (cb = e) as <-. { apply F in Ee. apply nget_In in Ib, Ee; try apply graph_nodes_keys. congruence. }
    exact SH.
Qed.
Print Assumptions C61_planning_on_the_created_tree.

Example C61_witness : usable labelled /\ bus_frames [("buses", loads)] /\ ~ (1 - 3 / 100 == 0)%Q /\
  NoDup (map fst (create_pool [mkGroup "line" "a" [1; 2]%Q [One 7; One 8] [0; 4]%Z [One 0; One 0]])).
Proof.
  sp; [apply labelled_usable| |intros H; vm_compute in H; discriminate|].
  2: { vm_compute. repeat (apply NoDup_cons; [intros H; simpl in H; intuition discriminate|]). apply NoDup_nil. }
  split; [repeat constructor; auto|]. intros fr [E|[]]. injection E as <-. simpl. auto.
Qed.

(* ------------------------------------------------------------------ *)
(** ** C96 *)

(** With any number of clustered profiles other than one - none, or two and more - the
    conversion to a tree raises, and without conversion the control graph has no node. *)
Theorem C96_refuted : exists profiles, List.length profiles = 2 /\ Forall usable profiles /\
  forall ord fuel frames, create_control ord fuel profiles true frames = Err NetworkXPointlessConcept.
Proof.
  exists [labelled; labelled]. sp.
  - reflexivity.
  - pose proof labelled_usable. repeat constructor; auto; apply labelled_usable.
  - reflexivity.
Qed.
Print Assumptions C96_refuted.

Theorem C96_other_numbers_partial : forall ord fuel profiles frames, List.length profiles <> 1 ->
  Forall (fun p => exists w, rectangular (cp_profile p) w) profiles ->
  create_control ord fuel profiles true frames = Err NetworkXPointlessConcept /\
  (profiles <> [] \/ frames = [] -> exists ct, create_control ord fuel profiles false frames = Ok ct /\ g_nodes (ct_graph ct) = [] /\ ct_nodes ct = [] /\ ct_map ct = []) /\
  (profiles = [] -> frames <> [] -> create_control ord fuel profiles false frames = Err IndexError).
Proof.
  intros ord fuel profiles frames N R.
  assert (G : exists gs, mapM (fun p => create_graph (cp_profile p)) profiles = Ok gs /\ List.length gs = List.length profiles).
  { clear N. induction R as [|p l (w & Rp) R IH]; [exists []; auto|]. destruct IH as (gs & E & L). destruct (profile_edges _ _ Rp) as (es & Ee & _).
    unfold create_graph in *. cbn [mapM]. rewrite Ee. cbn [rbind]. rewrite E. cbn [rbind]. eexists. split; [reflexivity|]. cbn [List.length]. now rewrite L. }
  destruct G as (gs & E & L). unfold create_control. rewrite E. cbn [rbind].
  assert (B : match gs with [g] => g | _ => (empty_graph, []) end = (empty_graph, @nil (nat * cluster))) by (destruct gs as [|g [|g' gs]]; cbn in L; auto; lia).
  rewrite B. cbn [fst snd]. sp.
  - reflexivity.
  - cbn [rbind]. intros H. destruct frames as [|f fs]; [eexists; split; [reflexivity|auto]|]. destruct profiles as [|p ps]; [destruct H as [H|H]; [now destruct H|discriminate]|].
    cbn [create_map mapM snd rbind]. eexists. split; [reflexivity|auto].
  - intros -> NF. destruct frames as [|f fs]; [now destruct NF|]. reflexivity.
Qed.
Print Assumptions C96_other_numbers_partial.

Example C96_witness : List.length [labelled; labelled] <> 1 /\ Forall (fun p => exists w, rectangular (cp_profile p) w) [labelled; labelled].
Proof. split; [discriminate|]. repeat constructor; exists 3; repeat constructor. Qed.

(* ------------------------------------------------------------------ *)
(** ** C97 *)

(** The flexible units of a node: every bus with rows for the node is listed once, with the year
    of the stage; a limit or cost of the table is the mean over those rows, and 0 when the
    table has no such column. *)
Theorem C97_flexible_units : forall fr scen years c tab, adapt_flexible fr scen years c = Ok tab ->
  exists year, py_index years (cl_level c) = Ok year /\ NoDup (map tb_bus tab) /\
  (forall b, In b (map tb_bus tab) <-> exists r, In r (f_rows fr) /\ concerns scen c year b r) /\
  (forall t, In t tab -> tb_year t = year /\ exists rows, selects (concerns scen c year (tb_bus t)) rows (f_rows fr) /\ rows <> [] /\
     Forall2 (fun col x => (In col (f_cols fr) -> exists xs, Forall2 (value_of fr col) rows xs /\ is_mean x xs) /\
                           (~ In col (f_cols fr) -> x = 0%Q))
       ["max_p_mw"; "min_p_mw"; "max_q_mvar"; "min_q_mvar"; "cp2_eur_per_mw2"; "cp1_eur_per_mw"; "cp0_eur";
        "cq2_eur_per_mvar2"; "cq1_eur_per_mvar"; "cq0_eur"] (tb_vals t)).
Proof.
  intros fr scen years c tab E. unfold adapt_flexible in E. destruct (related fr scen years c) as [[year rows]|] eqn:Er; [|discriminate]. cbn [rbind fst snd] in E. injection E as <-.
  destruct (related_spec _ _ _ _ _ _ Er) as [Ey RS]. exists year.
  match goal with |- context [map tb_bus ?l] => assert (Eb : map tb_bus l = unique (map fr_bus rows)) by (rewrite map_map; cbn [tb_bus]; apply map_id) end.
  rewrite Eb. sp; auto.
  - apply unique_NoDup.
  - intros b. rewrite unique_In, in_map_iff. split.
    + intros (r & <- & I). apply RS in I as (I & Y & S). exists r. unfold concerns. auto.
    + intros (r & I & Y & B & S). exists r. split; auto. apply RS. auto.
  - intros t It. apply in_map_iff in It as (b & <- & Ib). cbn [tb_year tb_bus tb_vals]. split; auto.
    assert (NE : at_bus b rows <> []).
    { rewrite unique_In, in_map_iff in Ib. destruct Ib as (r & Br & Ir). assert (J : In r (at_bus b rows)) by (apply at_bus_In; auto). intros N. rewrite N in J. destruct J. }
    exists (at_bus b rows). sp; auto.
    + unfold related in Er. destruct (mapM _ _) as [w|] eqn:Ew; [|discriminate]. cbn [rbind] in Er. rewrite Ey in Er. cbn [rbind] in Er. injection Er as <-.
      exists (fun r => existsb (Z.eqb (fr_scenario r)) w && Z.eqb (fr_year r) year && Z.eqb (fr_bus r) b). split.
      * unfold at_bus. clear. induction (f_rows fr) as [|r l IH]; simpl; auto.
        destruct (existsb (Z.eqb (fr_scenario r)) w && Z.eqb (fr_year r) year) eqn:E1; simpl; auto. destruct (Z.eqb (fr_bus r) b); simpl; now rewrite IH.
      * intros r Ir. rewrite !andb_true_iff, existsb_Z, !Z.eqb_eq. unfold concerns. apply mapM_Ok in Ew. split.
        -- intros [[Iw Y] B]. sp; auto. destruct (Forall2_In_r _ _ _ _ Ew Iw) as (s & Is & Es). exists s. split; auto.
           rewrite py_index_nat in Es. destruct (nth_error scen s); congruence.
        -- intros (Y & B & s & Is & Es). sp; auto. destruct (Forall2_In_l _ _ _ _ Ew Is) as (z & Iz & Ez). rewrite py_index_nat, Es in Ez.
           injection Ez as ->. exact Iz.
    + assert (CM : forall col, (fun col x => (In col (f_cols fr) -> exists xs, Forall2 (value_of fr col) (at_bus b rows) xs /\ is_mean x xs) /\ (~ In col (f_cols fr) -> x = 0%Q)) col
        (match column_mean fr col (at_bus b rows) with Ok q => q | Err _ => 0%Q end)); [intros col; cbv beta; split|repeat (apply Forall2_cons; [apply CM|]); constructor].
      * intros I. destruct (column_mean fr col (at_bus b rows)) as [m|] eqn:Em; [now apply column_mean_spec in Em|]. exfalso.
        unfold column_mean in Em. destruct (position col (f_cols fr)) eqn:Ep; [discriminate|]. clear - I Ep. induction (f_cols fr) as [|x l IHl]; [destruct I|].
        cbn [position] in Ep. destruct (String.eqb_spec x col) as [->|Nx]; [discriminate|]. destruct I as [I|I]; [contradiction|]. apply IHl; auto. destruct (position col l); [discriminate|auto].
      * intros NI. destruct (column_mean fr col (at_bus b rows)) as [m|] eqn:Em; auto. exfalso. unfold column_mean in Em.
        destruct (position col (f_cols fr)) eqn:Ep; [|discriminate]. apply position_spec in Ep as [Ep _]. apply nth_error_In in Ep. contradiction.
Qed.
Print Assumptions C97_flexible_units.

(** Node 1 (scenarios 1 and 2, year 2030): the mean of the upper limits at bus 7, no other column. *)
Example C97_witness :
  match adapt_flexible (mkFrame ["max_p_mw"; "cp0_eur"] [mkFRow 1 2030 7 [10; 1]%Q; mkFRow 2 2030 7 [20; 3]%Q; mkFRow 3 2030 7 [90; 9]%Q])
          [1; 2; 3]%Z [2020; 2030; 2040]%Z (mkCluster [0; 1] 2%Q 1 "load" "p_mw") with
  | Ok [mkT 2030 7 l] => map Qred l = [15; 0; 0; 0; 0; 0; 2; 0; 0; 0]%Q
  | _ => False
  end.
Proof. vm_compute. reflexivity. Qed.
