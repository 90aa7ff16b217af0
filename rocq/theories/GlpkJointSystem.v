(** The construction of the energy tree and the optimal power flow together. *)
From Coq Require Import List String Bool Arith ZArith QArith Lia Lqa Permutation.
From Verif Require Import Base Cases Network GraphData GraphDataProofs CasesProofs HydroTables EnergyTree Joint Glpk GlpkSpec GlpkProofs GlpkEnergy GlpkEnergyProofs GlpkRows GlpkParts GlpkNetwork GlpkNetworkSpec GlpkNetworkParts GlpkNetworkPlaces GlpkNetworkRows GlpkNetworkSystem GlpkFinal GlpkJoint GlpkJointParts.
Import ListNotations.
Open Scope nat_scope.
Open Scope list_scope.
Local Ltac sp := repeat match goal with |- _ /\ _ => split end.

Notation trees c := (tm_trees (tree_of (ec_energy c))).
Notation nodes_of c := (tm_nodes (tree_of (ec_energy c))).
(** The node of the tree for a day. *)
Definition conn (c : enm) (j : nat) : nat := nth j (ec_conn c) 0.

(** Data the problem can be built from. *)
Record joined (c : enm) (fwd bwd : nat -> nat * nat) (w : nat -> Q) (inp out : nat -> nat -> Q) : Prop := {
  jn_tree : sound (tree_of (ec_energy c)) fwd bwd w inp out;
  jn_net : usable (ec_net c);
  jn_flag : nm_flag (ec_net c) = true;
  jn_times : 0 < nm_times (ec_net c);
  jn_units : trees c <= List.length (nm_units (ec_net c) Hydro) /\ 0 < List.length (nm_units (ec_net c) Hydro);
  jn_conn : nm_days (ec_net c) <= List.length (ec_conn c) /\ forall j, j < nm_days (ec_net c) -> conn c j < nodes_of c }.

Lemma NoDup_tail {A} (a b : list A) : NoDup (a ++ b) -> NoDup b.
Proof. induction a as [|x a IH]; cbn; intros N; [exact N|]. inversion N; auto. Qed.
Lemma nodup_inj {A B} (f : A -> B) l : NoDup (map f l) -> forall a b, In a l -> In b l -> f a = f b -> a = b.
Proof.
  induction l as [|x l IH]; cbn; intros N a b; [tauto|]. inversion N as [|y r X Y]; subst. intros [->|I] [->|K] E; auto; exfalso; apply X; [rewrite E|rewrite <- E]; now apply in_map.
Qed.
(** Rows with a name that is there already. *)
Lemma add_rows_twice l : forall S rest, (forall b, In b l -> 0 < snd b) -> NoDup (map fst (so_rows S)) -> ~ NoDup (map fst (so_rows S ++ l)) -> foldM step (add_rows l ++ rest) S = Err KeyError.
Proof.
  induction l as [|(n & k) l IH]; intros S rest P N D; [rewrite app_nil_r in D; contradiction|]. destruct S as [rows cols rb cb obj ent mat]. cbn [so_rows] in *. cbn [add_rows map List.app foldM step fst snd]. rewrite known_in. destruct (in_dec name_dec n (map fst rows)) as [I|I]; [reflexivity|].
  pose proof (P (n, k) (or_introl eq_refl)) as K. cbn [snd] in K. rewrite (proj2 (Nat.eqb_neq k 0)) by lia. rewrite bind_ok. apply IH.
  - intros b B. apply P. now right.
  - cbn [so_rows]. rewrite map_app. apply NoDup_app'; [exact N|apply NoDup_one|]. intros x X [<-|[]]. contradiction.
  - cbn [so_rows]. rewrite <- app_assoc. exact D.
Qed.

Section System.
Variables (c : enm) (fwd bwd : nat -> nat * nat) (w : nat -> Q) (inp out : nat -> nat -> Q).
Hypothesis J : joined c fwd bwd w inp out.
Notation t := (tree_of (ec_energy c)).
Notation m := (ec_net c).
Notation N := (nodes_of c).
Notation V := (trees c).
Notation SO := (jn_tree c fwd bwd w inp out J).
Notation U := (jn_net c fwd bwd w inp out J).

Definition released : list (place * bnd) := map (fun p => ((OT (fst p), conn c (snd p)), Lower 0)) (trees_days c).
Definition link_spec (i j : nat) : rowspec := ((link_row i j, 0), link_terms c i j (conn c j), Fixed 0).
Definition all_link_rows : list (name * nat) := map (fun p => (link_row (fst p) (snd p), 1)) (trees_days c).
Definition all_link_specs : list rowspec := map (fun p => link_spec (fst p) (snd p)) (trees_days c).
Definition link_part : part := mkPart [] [] all_link_rows all_link_specs.

Lemma in_trees_days i j : In (i, j) (trees_days c) <-> i < V /\ j < nm_days m.
Proof. unfold trees_days. rewrite in_prod_iff, !in_seq. lia. Qed.
Lemma conn_at j : j < nm_days m -> at_ (ec_conn c) j = Ok (conn c j).
Proof. intros L. apply at_some. unfold conn. apply nth_error_nth'. pose proof (proj1 (jn_conn _ _ _ _ _ _ J)). lia. Qed.
Lemma release_eq : release c = Ok released.
Proof. unfold release, released. apply mapM_pure. intros (i & j) I. apply in_trees_days in I as (_ & L). cbn [fst snd]. now rewrite conn_at, bind_ok. Qed.
Lemma links_eq : links_cmds c = Ok (part_cmds link_part).
Proof.
  unfold links_cmds, link_specs. rewrite (mapM_pure _ (fun p => link_spec (fst p) (snd p))), bind_ok; [reflexivity|]. intros (i & j) I. apply in_trees_days in I as (_ & L). cbn [fst snd]. now rewrite conn_at, bind_ok.
Qed.

(** ** Everything before the problem is loaded *)

Definition before_bounds : list cmd := var_l t inp out ++ flat_map part_cmds (vars_parts m) ++ bal_l t fwd ++ agg_l t fwd bwd w ++ flat_map part_cmds (net_parts m).
Definition after_bounds : list cmd := part_cmds link_part ++ part_cmds (piece_part m) ++ part_cmds (ramp_part m).
Definition joint_l : list cmd := before_bounds ++ map col_cmd released ++ after_bounds.
Definition joint_cols : list (name * nat) := tree_cols t ++ vcols m.
Definition joint_rows : list (name * nat) := (tree_rows t TB ++ tree_rows t TA ++ net_rows m) ++ all_link_rows ++ flat_map (piece_rows m) (periods m) ++ all_ramp_rows m.
Definition joint_specs : list rowspec := (bal_specs t fwd ++ agg_specs t fwd bwd w ++ net_specs m) ++ all_link_specs ++ flat_map (piece_specs m) (periods m) ++ all_ramp_specs m.

Lemma before_described : described before_bounds joint_cols (tree_bnds t inp out ++ vbnds m) (tree_rows t TB ++ tree_rows t TA ++ net_rows m) (bal_specs t fwd ++ agg_specs t fwd bwd w ++ net_specs m) [].
Proof.
  pose proof (described_app _ _ _ _ _ _ _ _ _ _ _ _ (var_desc t inp out) (described_app _ _ _ _ _ _ _ _ _ _ _ _ (vars_desc m) (described_app _ _ _ _ _ _ _ _ _ _ _ _ (bal_desc t fwd bwd w inp out SO) (described_app _ _ _ _ _ _ _ _ _ _ _ _ (agg_desc t fwd bwd w inp out SO) (net_desc m))))) as D.
  rewrite !app_nil_r in D. cbn [List.app] in D. exact D.
Qed.
Lemma after_described : described after_bounds [] [] (all_link_rows ++ flat_map (piece_rows m) (periods m) ++ all_ramp_rows m) (all_link_specs ++ flat_map (piece_specs m) (periods m) ++ all_ramp_specs m) [].
Proof.
  pose proof (described_app _ _ _ _ _ _ _ _ _ _ _ _ (described_part link_part) (described_app _ _ _ _ _ _ _ _ _ _ _ _ (described_part (piece_part m)) (described_part (ramp_part m)))) as D. exact D.
Qed.
Lemma joint_described : described joint_l joint_cols ((tree_bnds t inp out ++ vbnds m) ++ released) joint_rows joint_specs [].
Proof.
  pose proof (described_app _ _ _ _ _ _ _ _ _ _ _ _ before_described (described_app _ _ _ _ _ _ _ _ _ _ _ _ (described_bnds released) after_described)) as D.
  rewrite !app_nil_r in D. cbn [List.app] in D. exact D.
Qed.

(** ** Names *)

Lemma joint_cols_nodup : NoDup (map fst joint_cols).
Proof.
  unfold joint_cols. apply (two_parts _ _ _ (fun n : name => List.length (snd n) = 1)); [apply tree_cols_nodup|apply vcols_nodup| |].
  - intros (n & k) I. apply in_tree_cols in I as (_ & i & _ & [->|[->|[->| ->]]]); reflexivity.
  - intros (n & k) I. unfold vcols in I. apply in_app_or in I as [I|I]; apply in_flat_map in I as (q & _ & I); apply in_map with (f := fst) in I; [apply common_snd in I|apply opf_snd in I]; cbn [fst] in I |- *; rewrite I; discriminate.
Qed.
Lemma joint_cols_pos n k : In (n, k) joint_cols -> 0 < k.
Proof.
  intros I. apply in_app_or in I as [I|I]; [|now apply (vcols_pos m n k U)]. apply in_tree_cols in I as (-> & _). pose proof (sd_nodes _ _ _ _ _ _ SO). lia.
Qed.
Lemma inside_tree p : inside (tree_cols t) p -> inside joint_cols p.
Proof. apply inside_app_l. Qed.
Lemma inside_net p : inside (vcols m) p -> inside joint_cols p.
Proof. apply inside_app_r. Qed.

(** No two links have the same name. *)
Definition apart : Prop := forall i j i' j', i < V -> j < nm_days m -> i' < V -> j' < nm_days m -> link_row i j = link_row i' j' -> i = i' /\ j = j'.

Lemma NoDup_trees_days : NoDup (trees_days c).
Proof. apply NoDup_prod; apply seq_NoDup. Qed.
Hypothesis NM : apart.
Lemma link_rows_nodup : NoDup (map fst all_link_rows).
Proof.
  unfold all_link_rows. rewrite map_map. cbn [fst]. apply NoDup_map_in; [apply NoDup_trees_days|]. intros (i & j) (i' & j') I I' E. apply in_trees_days in I, I'. cbn [fst snd] in E. destruct (NM i j i' j' (proj1 I) (proj2 I) (proj1 I') (proj2 I') E) as (-> & ->). reflexivity.
Qed.
Lemma link_specs_nodup : NoDup (map rs_place all_link_specs).
Proof.
  unfold all_link_specs. rewrite map_map. apply NoDup_map_in; [apply NoDup_trees_days|]. intros (i & j) (i' & j') I I' E. apply in_trees_days in I, I'. unfold rs_place, link_spec in E. cbn [fst snd] in E. apply (f_equal fst) in E. cbn [fst] in E. destruct (NM i j i' j' (proj1 I) (proj2 I) (proj1 I') (proj2 I') E) as (-> & ->). reflexivity.
Qed.

(** The families of rows by their names. *)
Definition net_row (n : name) : Prop := (exists k, fst n = fst (piece_name k 0 0 0)) \/ fst n = "activepowerbalancenode"%string \/ fst n = "activepowerflowconstraint"%string \/ fst n = "activepowerlosses1"%string \/ fst n = "activepowerlosses2"%string.
Definition tree_row (n : name) : Prop := fst n = "TB"%string \/ fst n = "TA"%string.
Definition a_link (n : name) : Prop := exists i j, n = link_row i j.
Definition a_ramp (n : name) : Prop := exists k i j, n = ramp_row k i j.
Lemma vrows_net n z : In (n, z) (vrows m) -> net_row n.
Proof.
  intros I. apply in_vrows in I as [(k & i & j & o & u & _ & _ & -> & _)|[(i & j & k & _ & -> & _)|[(i & j & k & _ & -> & _)|[(l & i & j & k & o & q & _ & _ & _ & _ & -> & _)|(l & i & j & k & o & q & _ & _ & _ & _ & -> & _)]]]]; unfold net_row; cbn [fst]; auto 6. left. exists k. destruct k; reflexivity.
Qed.
Lemma net_tree n : net_row n -> ~ tree_row n.
Proof. intros [(k & E)|[E|[E|[E|E]]]] [X|X]; rewrite X in E; try discriminate E; destruct k; discriminate E. Qed.
Lemma net_link n : net_row n -> ~ a_link n.
Proof. intros [(k & E)|[E|[E|[E|E]]]] (i & j & X); rewrite X in E; try discriminate E; destruct k; discriminate E. Qed.
Lemma net_ramp n : net_row n -> ~ a_ramp n.
Proof. intros [(k & E)|[E|[E|[E|E]]]] (g & i & j & X); rewrite X in E; destruct g; try discriminate E; destruct k; discriminate E. Qed.
Lemma tree_link n : tree_row n -> ~ a_link n.
Proof. intros [E|E] (i & j & X); rewrite X in E; discriminate E. Qed.
Lemma tree_ramp n : tree_row n -> ~ a_ramp n.
Proof. intros [E|E] (g & i & j & X); rewrite X in E; destruct g; discriminate E. Qed.
Lemma link_ramp n : a_link n -> ~ a_ramp n.
Proof. intros (i & j & ->) (g & i' & j' & X). destruct g; discriminate X. Qed.

Lemma shuffle {A} (a b n l p r : list A) : Permutation ((a ++ b ++ n) ++ l ++ p ++ r) ((p ++ n) ++ (a ++ b) ++ l ++ r).
Proof.
  transitivity (p ++ ((a ++ b ++ n) ++ l ++ r)).
  - rewrite (app_assoc (a ++ b ++ n) l (p ++ r)), (app_assoc (a ++ b ++ n) l r). etransitivity; [apply Permutation_app_swap_app|]. reflexivity.
  - rewrite <- (app_assoc p n). apply Permutation_app_head. rewrite (app_assoc a b n), <- (app_assoc (a ++ b) n). apply Permutation_app_swap_app.
Qed.
Lemma four {A B} (f : A -> B) (v t l r : list A) (P1 P2 P3 P4 : B -> Prop) :
  NoDup (map f v) -> NoDup (map f t) -> NoDup (map f l) -> NoDup (map f r) ->
  (forall a, In a v -> P1 (f a)) -> (forall a, In a t -> P2 (f a)) -> (forall a, In a l -> P3 (f a)) -> (forall a, In a r -> P4 (f a)) ->
  (forall b, P1 b -> ~ P2 b) -> (forall b, P1 b -> ~ P3 b) -> (forall b, P1 b -> ~ P4 b) -> (forall b, P2 b -> ~ P3 b) -> (forall b, P2 b -> ~ P4 b) -> (forall b, P3 b -> ~ P4 b) ->
  NoDup (map f (v ++ t ++ l ++ r)).
Proof.
  intros N1 N2 N3 N4 H1 H2 H3 H4 D12 D13 D14 D23 D24 D34. apply (two_parts _ _ _ P1); auto.
  - apply (two_parts _ _ _ P2); auto.
    + apply (two_parts _ _ _ P3); auto. intros a I X. exact (D34 _ X (H4 a I)).
    + intros a I X. apply in_app_or in I as [I|I]; [exact (D23 _ X (H3 a I))|exact (D24 _ X (H4 a I))].
  - intros a I X. apply in_app_or in I as [I|I]; [exact (D12 _ X (H2 a I))|]. apply in_app_or in I as [I|I]; [exact (D13 _ X (H3 a I))|exact (D14 _ X (H4 a I))].
Qed.
Lemma rows_nodup_of L : NoDup (map fst L) -> (forall b, In b L -> a_link (fst b)) -> NoDup (map fst ((tree_rows t TB ++ tree_rows t TA ++ net_rows m) ++ L ++ flat_map (piece_rows m) (periods m) ++ all_ramp_rows m)).
Proof.
  intros HL AL. eapply Permutation_NoDup; [apply Permutation_map, Permutation_sym, shuffle|]. rewrite <- vrows_split. apply (four fst _ _ _ _ net_row tree_row a_link a_ramp).
  - apply vrows_nodup.
  - apply (two_parts _ _ _ (fun n => fst n = "TB"%string)); [apply tree_rows_nodup; intros a b E; now injection E|apply tree_rows_nodup; intros a b E; now injection E| |]; intros (n & k) I; apply in_tree_rows in I as (_ & i & _ & ->); [reflexivity|discriminate].
  - exact HL.
  - apply ramp_rows_nodup.
  - intros (n & z) I. exact (vrows_net n z I).
  - intros (n & z) I. apply in_app_or in I as [I|I]; apply in_tree_rows in I as (_ & i & _ & ->); [now left|now right].
  - exact AL.
  - intros (n & z) I. apply in_ramp_rows in I as (k & i & j & _ & _ & _ & -> & _). exists k, i, j. reflexivity.
  - apply net_tree.
  - apply net_link.
  - apply net_ramp.
  - apply tree_link.
  - apply tree_ramp.
  - apply link_ramp.
Qed.
Lemma joint_rows_nodup : NoDup (map fst joint_rows).
Proof.
  apply rows_nodup_of; [apply link_rows_nodup|]. intros (n & z) I. unfold all_link_rows in I. apply in_map_iff in I as ((i & j) & E & _). injection E as <- _. exists i, j. reflexivity.
Qed.
Lemma joint_specs_nodup : NoDup (map rs_place joint_specs).
Proof.
  unfold joint_specs. eapply Permutation_NoDup; [apply Permutation_map, Permutation_sym, shuffle|]. rewrite <- vspecs_split. apply (four rs_place _ _ _ _ (fun p => net_row (fst p)) (fun p => tree_row (fst p)) (fun p => a_link (fst p)) (fun p => a_ramp (fst p))).
  - apply vspecs_nodup.
  - apply (two_parts _ _ _ (fun p : place => fst (fst p) = "TB"%string)); [apply bal_specs_nodup|apply agg_specs_nodup| |]; intros r I; apply in_over in I as (i & n & _ & _ & ->); [reflexivity|discriminate].
  - apply link_specs_nodup.
  - apply ramp_specs_nodup.
  - intros r I. apply in_vspecs in I. destruct (row_inside m r U I) as (z & X & _). exact (vrows_net _ z X).
  - intros r I. apply in_app_or in I as [I|I]; apply in_over in I as (i & n & _ & _ & ->); [now left|now right].
  - intros r I. unfold all_link_specs in I. apply in_map_iff in I as ((i & j) & <- & _). exists i, j. reflexivity.
  - intros r I. apply in_ramp_specs in I as (k & i & j & n & u & _ & _ & _ & _ & ->). exists k, i, j. reflexivity.
  - intros p. apply net_tree.
  - intros p. apply net_link.
  - intros p. apply net_ramp.
  - intros p. apply tree_link.
  - intros p. apply tree_ramp.
  - intros p. apply link_ramp.
Qed.

(** ** Places *)

Lemma link_own : own joint_cols link_part.
Proof.
  intros s I. cbn [pt_sp pt_rows link_part] in *. unfold all_link_specs in I. apply in_map_iff in I as ((i & j) & <- & I). pose proof I as I0. apply in_trees_days in I as (Hi & Hj). cbn [fst snd]. split.
  - exists 1. split; [|cbn; lia]. unfold all_link_rows, rs_place, link_spec. cbn [fst snd]. apply in_map_iff. exists (i, j). auto.
  - unfold rs_terms, link_spec, link_terms. cbn [fst snd]. intros q [<-|I].
    + apply inside_tree. apply (inside_col t i); auto. apply (proj2 (jn_conn _ _ _ _ _ _ J) j Hj).
    + apply in_map_iff in I as (k & <- & I). apply in_seq in I. cbn [fst]. apply inside_net. apply gen_inside; [split; [exact Hj|lia]|]. pose proof (proj1 (jn_units _ _ _ _ _ _ J)). lia.
Qed.
Lemma joint_rows_pos n k : In (n, k) joint_rows -> 0 < k.
Proof.
  unfold joint_rows. pose proof (sd_nodes _ _ _ _ _ _ SO) as N2. rewrite !in_app_iff. intros [[I|[I|I]]|[I|[I|I]]].
  - apply in_tree_rows in I as (-> & _). lia.
  - apply in_tree_rows in I as (-> & _). lia.
  - apply (vrows_pos m n k U). rewrite vrows_split. apply in_or_app. now right.
  - unfold all_link_rows in I. apply in_map_iff in I as (p & E & _). injection E as _ <-. lia.
  - apply (vrows_pos m n k U). rewrite vrows_split. apply in_or_app. now left.
  - apply in_ramp_rows in I as (kd & i & j & _ & _ & _ & _ & _ & Z). exact Z.
Qed.
Lemma own_of r : In r joint_specs -> inside joint_rows (rs_place r) /\ forall q, In q (rs_terms r) -> inside joint_cols (fst q).
Proof.
  intros I. unfold joint_specs in I. rewrite !in_app_iff in I. destruct I as [[I|[I|I]]|[I|[I|I]]].
  - destruct (bal_own t fwd bwd w inp out SO r I) as (A & B). split; [|intros q K; apply inside_tree; now apply B]. unfold joint_rows. apply inside_app_l, inside_app_l, A.
  - destruct (agg_own t fwd bwd w inp out SO r I) as (A & B). split; [|intros q K; apply inside_tree; now apply B]. unfold joint_rows. apply inside_app_l, inside_app_r, inside_app_l, A.
  - unfold net_specs in I. apply in_flat_map in I as (p & P & I). destruct (net_own m p U (or_intror P)) as (_ & _ & O). destruct (O r I) as (A & B). split; [|intros q K; apply inside_net; now apply B]. unfold joint_rows. apply inside_app_l, inside_app_r, inside_app_r. destruct A as (z & A & L). exists z. split; [|exact L]. unfold net_rows. apply in_flat_map. exists p. auto.
  - destruct (link_own r I) as (A & B). split; [|exact B]. unfold joint_rows. apply inside_app_r, inside_app_l, A.
  - destruct (net_own m (piece_part m) U (or_introl eq_refl)) as (_ & _ & O). destruct (O r I) as (A & B). split; [|intros q K; apply inside_net; now apply B]. unfold joint_rows. apply inside_app_r, inside_app_r, inside_app_l, A.
  - destruct (ramp_own m r I) as (A & B). split; [|intros q K; apply inside_net; now apply B]. unfold joint_rows. do 3 apply inside_app_r. exact A.
Qed.
Lemma nodup_terms r : In r joint_specs -> NoDup (map fst (rs_terms r)).
Proof.
  intros I. unfold joint_specs in I. rewrite !in_app_iff in I. destruct I as [[I|[I|I]]|[I|[I|I]]].
  - exact (bal_terms_nodup t fwd bwd w inp out SO r I).
  - exact (agg_terms_nodup t fwd bwd w inp out SO r I).
  - apply (terms_nodup m r U), in_vspecs. rewrite vspecs_split. apply in_or_app. now right.
  - unfold all_link_specs in I. apply in_map_iff in I as ((i & j) & <- & _). unfold rs_terms, link_spec, link_terms. cbn [fst snd map]. constructor.
    + intros I. rewrite map_map in I. apply in_map_iff in I as (k & E & _). cbn [fst] in E. discriminate E.
    + rewrite map_map. cbn [fst]. apply NoDup_map_in; [apply seq_NoDup|]. intros a b _ _ E. now injection E.
  - apply (terms_nodup m r U), in_vspecs. rewrite vspecs_split. apply in_or_app. now left.
  - apply in_ramp_specs in I as (k & i & j & n & u & _ & _ & Z & _ & ->). unfold rs_terms, ramp_spec. cbn [fst snd map]. constructor; [|apply NoDup_one]. intros [E|[]]. apply (f_equal (fun p : place => snd (fst p))) in E. cbn in E. injection E as E. lia.
Qed.
Lemma NoDup_app_mid {A} (a b d : list A) : NoDup (a ++ b ++ d) -> NoDup (a ++ b).
Proof. rewrite app_assoc. apply NoDup_app_l. Qed.
Lemma part_of {A B} (f : A -> B) (a b d : list A) : NoDup (map f (a ++ b ++ d)) -> NoDup (map f (a ++ b)).
Proof. rewrite app_assoc, map_app. apply NoDup_app_l. Qed.

Lemma base_rows_nodup : NoDup (map fst ((tree_rows t TB ++ tree_rows t TA ++ net_rows m) ++ [] ++ flat_map (piece_rows m) (periods m) ++ all_ramp_rows m)).
Proof. apply (rows_nodup_of []); [constructor|]. intros b []. Qed.
Lemma base_rows_pos n k : In (n, k) (tree_rows t TB ++ tree_rows t TA ++ net_rows m) -> 0 < k.
Proof. intros I. apply (joint_rows_pos n k). unfold joint_rows. apply in_or_app. now left. Qed.
Lemma before_fine : fine [] [] (before_bounds ++ map col_cmd released).
Proof.
  pose proof base_rows_nodup as NR. pose proof joint_cols_nodup as NC. pose proof before_described as DB. rewrite fine_app. rewrite (ds_cols _ _ _ _ _ _ DB), (ds_rows _ _ _ _ _ _ DB). cbn [List.app]. split.
  - unfold before_bounds. rewrite !fine_app. rewrite (ds_cols _ _ _ _ _ _ (var_desc t inp out)), (ds_rows _ _ _ _ _ _ (var_desc t inp out)), (ds_cols _ _ _ _ _ _ (vars_desc m)), (ds_rows _ _ _ _ _ _ (vars_desc m)), (ds_cols _ _ _ _ _ _ (bal_desc t fwd bwd w inp out SO)), (ds_rows _ _ _ _ _ _ (bal_desc t fwd bwd w inp out SO)), (ds_cols _ _ _ _ _ _ (agg_desc t fwd bwd w inp out SO)), (ds_rows _ _ _ _ _ _ (agg_desc t fwd bwd w inp out SO)). cbn [List.app]. rewrite !app_nil_r.
    fold joint_cols. rewrite <- app_assoc in NR. sp.
    + apply (var_fine t fwd bwd w inp out SO). cbn [List.app]. apply tree_cols_nodup.
    + apply fine_parts.
      * constructor.
      * rewrite vars_cols. exact NC.
      * intros n k [I|I]; [destruct I|]. rewrite vars_cols in I. exact (vcols_pos m n k U I).
      * apply vars_sound.
    + apply (bal_fine t fwd bwd w inp out SO); [|apply inside_tree]. cbn [List.app]. apply tree_rows_nodup. intros a b E. now injection E.
    + apply (agg_fine t fwd bwd w inp out SO); [|apply inside_tree]. rewrite <- app_assoc in NR. exact (part_of _ _ _ _ NR).
    + apply fine_parts.
      * fold (net_rows m). pose proof base_rows_nodup as NR'. rewrite map_app in NR'. apply NoDup_app_l in NR'. rewrite <- app_assoc. exact NR'.
      * replace (flat_map pt_cols (net_parts m)) with (@nil (name * nat)); [now rewrite app_nil_r|]. symmetry. apply flat_map_nil. intros p I. apply (net_own m p U). now right.
      * intros n k [I|I]; [|exfalso; apply in_flat_map in I as (p & P & I); destruct (net_own m p U (or_intror P)) as (E & _); rewrite E in I; destruct I]. apply (vrows_pos m n k U). rewrite vrows_split. apply in_or_app. now right.
      * apply own_parts. intros p I. destruct (net_own m p U (or_intror I)) as (A & B & O). sp; auto. apply (own_weak (vcols m)); [apply inside_net|exact O].
  - apply fine_bnds. intros p b I. unfold released in I. apply in_map_iff in I as ((i & j) & E & I). injection E as <- _. apply in_trees_days in I as (Hi & Hj). cbn [fst snd]. apply inside_tree, (inside_col t i); auto. apply (proj2 (jn_conn _ _ _ _ _ _ J) j Hj).
Qed.
Lemma joint_fine : fine [] [] joint_l.
Proof.
  pose proof joint_rows_nodup as NR. pose proof joint_cols_nodup as NC. pose proof before_described as DB. pose proof (described_bnds released) as DR.
  unfold joint_l. rewrite app_assoc, fine_app. rewrite cols_app, rows_app, (ds_cols _ _ _ _ _ _ DB), (ds_rows _ _ _ _ _ _ DB), (ds_cols _ _ _ _ _ _ DR), (ds_rows _ _ _ _ _ _ DR). cbn [List.app]. rewrite !app_nil_r. split; [apply before_fine|].
  - unfold after_bounds. rewrite !fine_app. rewrite (ds_cols _ _ _ _ _ _ (described_part link_part)), (ds_rows _ _ _ _ _ _ (described_part link_part)), (ds_cols _ _ _ _ _ _ (described_part (piece_part m))), (ds_rows _ _ _ _ _ _ (described_part (piece_part m))). cbn [pt_cols link_part piece_part pt_rows]. rewrite !app_nil_r. unfold joint_rows in NR. sp.
    + apply fine_own; auto; [exact (part_of _ _ _ _ NR)| |apply link_own]. intros n k I. apply (joint_rows_pos n k). unfold joint_rows. apply in_or_app. right. apply in_or_app. now left.
    + apply fine_own; auto.
      * cbn [pt_rows piece_part]. rewrite app_assoc in NR. exact (part_of _ _ _ _ NR).
      * intros n k I. apply (joint_rows_pos n k). unfold joint_rows. do 2 (apply in_or_app; right). apply in_or_app. now left.
      * destruct (net_own m (piece_part m) U (or_introl eq_refl)) as (_ & _ & O). exact (own_weak _ _ _ inside_net O).
    + apply fine_own; auto.
      * cbn [pt_rows ramp_part]. rewrite <- (app_assoc (_ ++ all_link_rows)), <- app_assoc. exact NR.
      * intros n k I. apply (joint_rows_pos n k). unfold joint_rows. do 3 (apply in_or_app; right). exact I.
      * exact (own_weak _ _ _ inside_net (ramp_own m)).
Qed.

(** ** Bounds *)

Definition is_released (p : place) : bool := existsb (fun q => if place_dec p (fst q) then true else false) released.
Lemma is_released_spec p : is_released p = true <-> exists i j, i < V /\ j < nm_days m /\ p = (OT i, conn c j).
Proof.
  unfold is_released. rewrite existsb_exists. split.
  - intros (q & I & E). destruct (place_dec p (fst q)) as [->|]; [|discriminate E]. unfold released in I. apply in_map_iff in I as ((i & j) & <- & I). apply in_trees_days in I. exists i, j. sp; try apply I. reflexivity.
  - intros (i & j & Hi & Hj & ->). exists ((OT i, conn c j), Lower 0). split; [|cbn [fst]; destruct (place_dec _ _); congruence]. unfold released. apply in_map_iff. exists (i, j). split; [reflexivity|]. now apply in_trees_days.
Qed.
Definition kept : list (place * bnd) := filter (fun q => negb (is_released (fst q))) (tree_bnds t inp out).
Definition joint_bnds : list (place * bnd) := kept ++ vbnds m ++ released.
Lemma in_released p b : In (p, b) released <-> is_released p = true /\ b = Lower 0.
Proof.
  rewrite is_released_spec. unfold released. rewrite in_map_iff. split.
  - intros ((i & j) & E & I). injection E as <- <-. apply in_trees_days in I. split; [|reflexivity]. exists i, j. sp; try apply I. reflexivity.
  - intros ((i & j & Hi & Hj & ->) & ->). exists (i, j). split; [reflexivity|]. now apply in_trees_days.
Qed.
Lemma tree_name p b : In (p, b) (tree_bnds t inp out) \/ In (p, b) released -> List.length (snd (fst p)) = 1.
Proof.
  intros [I|I]; [apply in_tree_bnds in I as (i & _ & [(-> & _)|[(-> & _)|[(j & _ & -> & _)|(j & _ & -> & _)]]]); reflexivity|]. apply in_released in I as (I & _). apply is_released_spec in I as (i & j & _ & _ & ->). reflexivity.
Qed.
Lemma net_name p b : In (p, b) (vbnds m) -> List.length (snd (fst p)) <> 1.
Proof.
  intros I. unfold vbnds in I. apply in_app_or in I as [I|I]; apply in_flat_map in I as (q & _ & I); [apply name_of_place in I|apply name_of_place3 in I]; rewrite I; discriminate.
Qed.
Lemma joint_bound n o : col_bound joint_l (n, o) = if is_released (n, o) then Lower 0 else col_bound before_bounds (n, o).
Proof.
  unfold joint_l. rewrite app_assoc. rewrite col_bound_app_none by (intros b I; apply (ds_cb _ _ _ _ _ _ after_described) in I; destruct I). destruct (is_released (n, o)) eqn:E.
  - apply col_bound_app_some.
    + apply (ds_cb _ _ _ _ _ _ (described_bnds released)). now apply in_released.
    + intros b I. apply (ds_cb _ _ _ _ _ _ (described_bnds released)) in I. now apply in_released in I.
  - apply col_bound_app_none. intros b I. apply (ds_cb _ _ _ _ _ _ (described_bnds released)) in I. apply in_released in I as (I & _). congruence.
Qed.
Lemma joint_last p b : In (p, b) joint_bnds -> col_bound joint_l p = b.
Proof.
  destruct p as (n & o). intros I. rewrite joint_bound. unfold joint_bnds in I. rewrite !in_app_iff in I. destruct I as [I|[I|I]].
  - unfold kept in I. apply filter_In in I as (I & E). cbn [fst] in E. apply negb_true_iff in E. rewrite E. apply col_bound_in.
    + apply (ds_cb _ _ _ _ _ _ before_described). apply in_or_app. now left.
    + intros b' K. apply (ds_cb _ _ _ _ _ _ before_described) in K. apply in_app_or in K as [K|K]; [exact (tree_bnds_uniq _ _ _ _ _ _ K I)|]. exfalso. exact (net_name _ _ K (tree_name _ _ (or_introl I))).
  - destruct (is_released (n, o)) eqn:E; [exfalso; apply (net_name _ _ I); apply (tree_name _ (Lower 0)); right; now apply in_released|]. apply col_bound_in.
    + apply (ds_cb _ _ _ _ _ _ before_described). apply in_or_app. now right.
    + intros b' K. apply (ds_cb _ _ _ _ _ _ before_described) in K. apply in_app_or in K as [K|K]; [exfalso; exact (net_name _ _ I (tree_name _ _ (or_introl K)))|]. exact (NoDup_fst _ _ _ _ (vbnds_nodup m) K I).
  - apply in_released in I as (E & ->). now rewrite E.
Qed.
Lemma joint_none p : ~ In p (map fst joint_bnds) -> col_bound joint_l p = Lower 0.
Proof.
  destruct p as (n & o). intros H. rewrite joint_bound. destruct (is_released (n, o)) eqn:E; [reflexivity|]. apply col_bound_none. intros b I. apply (ds_cb _ _ _ _ _ _ before_described) in I. apply H. apply in_map_iff. exists ((n, o), b). split; [reflexivity|]. unfold joint_bnds, kept. rewrite !in_app_iff. apply in_app_or in I as [I|I]; [left|auto]. apply filter_In. split; [exact I|]. cbn [fst]. now rewrite E.
Qed.
Lemma joint_bnds_inside p b : In (p, b) joint_bnds -> inside joint_cols p.
Proof.
  intros I. unfold joint_bnds in I. rewrite !in_app_iff in I. pose proof (sd_nodes _ _ _ _ _ _ SO) as N2. destruct I as [I|[I|I]].
  - apply filter_In in I as (I & _). apply inside_tree. apply (tree_bnds_inside _ _ _ p b) in I; auto. lia.
  - apply inside_net, column_inside, (bounded_column m p b). now apply in_vbnds.
  - apply in_released in I as (I & _). apply is_released_spec in I as (i & j & Hi & Hj & ->). apply inside_tree, (inside_col t i); auto. apply (proj2 (jn_conn _ _ _ _ _ _ J) j Hj).
Qed.

(** ** The construction *)

Definition joint_objs (wts : list Q) : list (place * Q) := flat_map (common_costs m (fun i => nth i wts 0%Q) (ec_penalty c)) (periods m).
Lemma definition_eq wts : scenario_weights (nm_days m) (ec_energy c) = Ok wts -> definition_enm c = Ok (joint_l ++ Load :: map obj_cmd (joint_objs wts)).
Proof.
  intros W. unfold definition_enm. rewrite (variables_l _ _ _ _ _ _ SO), bind_ok, (balance_l _ _ _ _ _ _ SO), bind_ok, (aggregation_l _ _ _ _ _ _ SO), bind_ok. unfold balance_cmds. rewrite (jn_flag _ _ _ _ _ _ J), (node_parts m U), !bind_ok.
  unfold hydro_cmds. replace (0 <? List.length (nm_units m Hydro)) with true by (symmetry; apply Nat.ltb_lt; apply (proj2 (jn_units _ _ _ _ _ _ J))). rewrite release_eq, bind_ok, links_eq, !bind_ok, (ramps_eq m (jn_times _ _ _ _ _ _ J)), bind_ok. unfold objective_enm. rewrite W, !bind_ok. f_equal. f_equal.
  unfold joint_l, before_bounds, after_bounds. rewrite <- !app_assoc. f_equal. f_equal.
  { unfold variables_opf, variables_common, vars_parts. cbn [flat_map]. rewrite !part_cols, app_nil_r. now rewrite <- !app_assoc. }
  do 2 f_equal. replace (flat_map part_cmds (net_parts m)) with ((add_rows (node_rows m) ++ flat_map row_cmds (flat_map (node_specs m) (instances m))) ++ line_flows m ++ losses_cmds m); [now rewrite <- !app_assoc|].
  unfold net_parts, line_flows. cbn [flat_map]. now rewrite !part_rows, app_nil_r, loss_parts, <- !app_assoc.
Qed.
Theorem joint_twice i j i' j' rest : i < V -> j < nm_days m -> i' < V -> j' < nm_days m -> (i, j) <> (i', j') -> link_row i j = link_row i' j' -> run (joint_l ++ rest) = Err KeyError.
Proof.
  intros Hi Hj Hi' Hj' NE E. pose proof before_fine as F. destruct (run_before _ F) as (S & R & B & _). unfold run in *. unfold joint_l. rewrite app_assoc, <- app_assoc, foldM_app, R, bind_ok. unfold after_bounds, part_cmds. cbn [link_part pt_cols pt_cb pt_rows]. cbn [add_cols map List.app]. rewrite <- !app_assoc. apply add_rows_twice.
  - intros b I. unfold all_link_rows in I. apply in_map_iff in I as (p & <- & _). cbn. lia.
  - rewrite (bl_rows _ _ B). pose proof base_rows_nodup as N. rewrite map_app in N. apply NoDup_app_l in N. rewrite rows_app, (ds_rows _ _ _ _ _ _ before_described), (ds_rows _ _ _ _ _ _ (described_bnds released)), app_nil_r. exact N.
  - rewrite map_app. intros N. apply NoDup_tail in N. unfold all_link_rows in N. rewrite map_map in N. cbn [fst] in N.
    assert (X : In (i, j) (trees_days c)) by (now apply in_trees_days). assert (Y : In (i', j') (trees_days c)) by (now apply in_trees_days). apply NE. exact (nodup_inj _ _ N (i, j) (i', j') X Y E).
Qed.
Theorem joint_run wts : scenario_weights (nm_days m) (ec_energy c) = Ok wts ->
  exists l S, definition_enm c = Ok l /\ run l = Ok S /\
    (solvable S = true <-> (forall p b, In (p, b) joint_bnds -> proper b = true) /\ (forall r, In r joint_specs -> proper (rs_bnd r) = true)) /\
    exists vw : (nat -> Q) -> place -> Q,
      (forall x, feasible S x <-> conds joint_cols joint_bnds joint_specs (vw x)) /\
      (forall x n o, In n (map fst joint_cols) -> primal S x n o = Ok (vw x (n, o))) /\
      (forall s, exists x, forall p, inside joint_cols p -> vw x p = s p) /\
      (forall x, (objective S x == term_sum (vw x) (joint_objs wts))%Q).
Proof.
  intros W. exists (joint_l ++ Load :: map obj_cmd (joint_objs wts)). destruct (final_run joint_l joint_cols _ joint_bnds joint_rows joint_specs (joint_objs wts) joint_described joint_fine joint_cols_nodup joint_specs_nodup) as (S & R & P).
  - apply objs_nodup. apply (jn_flag _ _ _ _ _ _ J).
  - intros p q I. apply inside_net. exact (objs_inside m _ _ p q (jn_flag _ _ _ _ _ _ J) I).
  - apply nodup_terms.
  - apply joint_last.
  - intros p _ H. now apply joint_none.
  - apply joint_bnds_inside.
  - intros r I. now apply own_of.
  - exists S. split; [now apply definition_eq|]. split; [exact R|exact P].
Qed.
End System.
