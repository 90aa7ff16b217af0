(** Properties of the models built with GLPK: the wrapper and the energy tree. *)
From Coq Require Import List String Bool Arith ZArith QArith Lia Lqa.
From Verif Require Import Base Cases Network GraphData GraphDataProofs HydroTables EnergyTree EnergyTreeSpec EnergyTreeProofs EnergyTreeLinks EnergyTreeSoC EnergyTreeData Properties_EnergyTree Glpk GlpkSpec GlpkProofs GlpkEnergy GlpkEnergyProofs GlpkTree.
Import ListNotations.
Open Scope nat_scope.
Open Scope list_scope.
Local Ltac sp := repeat match goal with |- _ /\ _ => split end.

(* ------------------------------------------------------------------------------------------------------------------ *)
(** ** C229 *)

(** C229: for all lists of commands that name new blocks of rows and columns, none of them empty, and use places of blocks that were added,
    each at most once in the matrix, the wrapper takes all commands; the answers of the problem are exactly the assignments, by name of block and
    position in it, that are within the last bound given for every column and every row; its objective is the sum of the last coefficients;
    and it is solved unless some double bound is empty or of one point. *)
Theorem C229_commands : forall l1 l2, fine [] [] (l1 ++ l2) -> forallb final l2 = true -> NoDup (map fst (entries_of l1)) ->
  exists S (v : (nat -> Q) -> place -> Q), run (l1 ++ Load :: l2) = Ok S /\
    (forall x, feasible S x <-> states (l1 ++ l2) (v x)) /\ (forall x, (objective S x == total_cost (l1 ++ l2) (v x))%Q) /\
    (forall x n o, inside (cols_of (l1 ++ l2)) (n, o) -> primal S x n o = Ok (v x (n, o))) /\
    (forall s, exists x, forall p, inside (cols_of (l1 ++ l2)) p -> v x p = s p) /\
    (simplex S = Ok tt <-> (forall p, inside (rows_of (l1 ++ l2)) p -> proper (row_bound (l1 ++ l2) p) = true) /\ (forall p, inside (cols_of (l1 ++ l2)) p -> proper (col_bound (l1 ++ l2) p) = true)).
Proof.
  intros l1 l2 F FI ND. destruct (run_ok l1 l2 F FI ND) as (S & E & B & M). exists S, (view (l1 ++ l2)). split; [exact E|]. split; [intros x; apply feasible_states; auto|]. split; [intros x; apply objective_cost; auto|].
  split; [intros x n o I; apply (primal_view _ _ _ _ _ B); exact (inside_in _ _ I)|]. split.
  - intros s. exists (fun i => s (locate (cols_of (l1 ++ l2)) i)). intros p I. apply view_locate; auto. apply (bl_nc _ _ B).
  - rewrite <- (solvable_proper _ _ B). unfold simplex. destruct (solvable S); split; intros H; auto; discriminate H.
Qed.
Print Assumptions C229_commands.

Definition ex_a : name := ("A"%string, []).
Definition ex_b : name := ("B"%string, [1]).
Definition ex_before : list cmd :=
  [AddCols ex_a 1; AddCols ex_b 2; ColBnd ex_b 1 (Bounded 0 5); AddRows ex_b 1; Entry ex_b 0 ex_a 0 1; Entry ex_b 0 ex_b 1 (- (1)); RowBnd ex_b 0 (Fixed 2)].
Definition ex_after : list cmd := [Obj ex_b 1 3].
Example C229_witness : fine [] [] (ex_before ++ ex_after) /\ forallb final ex_after = true /\ NoDup (map fst (entries_of ex_before)) /\
  states (ex_before ++ ex_after) (fun p => if place_dec p (ex_a, 0) then 4%Q else if place_dec p (ex_b, 1) then 2%Q else 0%Q).
Proof.
  assert (X : inside [(ex_a, 1); (ex_b, 2)] (ex_b, 1)) by (exists 2; cbn; auto). assert (Y : inside [(ex_a, 1); (ex_b, 2)] (ex_a, 0)) by (exists 1; cbn; auto). assert (Z : inside [(ex_b, 1)] (ex_b, 0)) by (exists 1; cbn; auto).
  assert (NE : ex_a <> ex_b) by (intros E; discriminate E). split; [|split; [reflexivity|split]].
  - cbn. sp; auto; try lia. intros [E|[]]. auto.
  - cbn. repeat constructor; cbn; [|tauto]. intros [E|[]]. injection E as E. discriminate E.
  - split.
    + intros p (k & [E|[E|[]]] & L); destruct p as [n o]; cbn [fst snd] in *; injection E as <- <-; cbn; destruct o as [|[|o]]; try lia; vm_compute; try exact I; try (split; discriminate); intros E; discriminate E.
    + intros p (k & [E|[]] & L). destruct p as [n o]. cbn [fst snd] in *. injection E as <- <-. destruct o; [|lia]. vm_compute. reflexivity.
Qed.

(** C229 (any list of commands is taken) is false: a name that is given again, an empty block and a coefficient that is given again each stop it. *)
Theorem C229_refuted : forall l, fine [] [] l ->
  (forall n k, In n (map fst (rows_of l)) -> run (l ++ [AddRows n k]) = Err KeyError) /\
  (forall n k, In n (map fst (cols_of l)) -> run (l ++ [AddCols n k]) = Err KeyError) /\
  (forall n, ~ In n (map fst (rows_of l)) -> run (l ++ [AddRows n 0]) = Err RuntimeError) /\
  (forall n, ~ In n (map fst (cols_of l)) -> run (l ++ [AddCols n 0]) = Err RuntimeError) /\
  (forall r c q, In (r, c, q) (entries_of l) -> forall q', run (l ++ [Entry (fst r) (snd r) (fst c) (snd c) q'; Load]) = Err RuntimeError).
Proof.
  intros l F. destruct (run_before l F) as (S & E & B & EN & M). unfold run in *. destruct S as [rows cols rb cb obj ent mat]. pose proof (bl_rows _ _ B) as R1. pose proof (bl_cols _ _ B) as R2. cbn [so_rows so_cols so_ent] in *. subst rows cols.
  assert (G : forall c, foldM step (l ++ [c]) empty = (do s <- step (mkSolver (rows_of l) (cols_of l) rb cb obj ent mat) c; Ok s)) by (intros c; rewrite foldM_app, E; reflexivity).
  sp.
  - intros n k I. rewrite G. cbn [step]. rewrite known_in. destruct (in_dec name_dec n (map fst (rows_of l))); [reflexivity|contradiction].
  - intros n k I. rewrite G. cbn [step]. rewrite known_in. destruct (in_dec name_dec n (map fst (cols_of l))); [reflexivity|contradiction].
  - intros n I. rewrite G. cbn [step]. rewrite known_in. destruct (in_dec name_dec n (map fst (rows_of l))); [contradiction|reflexivity].
  - intros n I. rewrite G. cbn [step]. rewrite known_in. destruct (in_dec name_dec n (map fst (cols_of l))); [contradiction|reflexivity].
  - intros r c q I q'. rewrite foldM_app, E, bind_ok. cbn [foldM step]. destruct (entries_inside _ _ _ F _ I) as (X & Y). cbn [fst snd List.app] in X, Y. rewrite (start_in _ _ (inside_in _ _ X)), bind_ok, (start_in _ _ (inside_in _ _ Y)), !bind_ok.
    assert (NR : no_repeat (map fst (ent ++ [(base (rows_of l) (fst r) + snd r, base (cols_of l) (fst c) + snd c, q')])) = false).
    { rewrite map_app. cbn [map fst]. assert (J : In (base (rows_of l) (fst r) + snd r, base (cols_of l) (fst c) + snd c) (map fst ent)) by (rewrite EN, map_map; apply in_map_iff; exists (r, c, q); split; [reflexivity|auto]).
      induction (map fst ent) as [|a k IH]; [destruct J|]. cbn [List.app no_repeat]. destruct J as [->|J]; [|now rewrite (IH J), andb_false_r]. rewrite existsb_app. cbn [existsb fst snd]. rewrite !Nat.eqb_refl. cbn. rewrite orb_true_r. reflexivity. }
    cbn [step]. unfold loads. rewrite NR, andb_false_r. reflexivity.
Qed.
Print Assumptions C229_refuted.

(* ------------------------------------------------------------------------------------------------------------------ *)
(** ** C230 *)

(** The states of a vector as the getters report them. *)
Definition reported (P T : list (list Q)) (v : nat) : soc := fun n k => nth n (nth v (if k =? 0 then P else T) []) 0%Q.

Lemma values_ok m S x f g : (forall i j, i < tm_trees m -> j < tm_nodes m -> primal S x (f i) j = Ok (g i j)) ->
  exists l, values_em m S x f = Ok l /\ forall i j, i < tm_trees m -> j < tm_nodes m -> nth j (nth i l []) 0%Q = g i j.
Proof.
  intros H. exists (map (fun i => map (g i) (seq 0 (tm_nodes m))) (seq 0 (tm_trees m))). split.
  - unfold values_em. apply mapM_pure. intros i I. apply in_seq in I. apply mapM_pure. intros j J. apply in_seq in J. apply H; lia.
  - intros i j I J. rewrite (nth_indep _ [] (map (g 0) (seq 0 (tm_nodes m)))) by (rewrite map_length, seq_length; lia). rewrite (map_nth (fun i => map (g i) (seq 0 (tm_nodes m)))), seq_nth by lia. cbn [Nat.add]. rewrite (nth_indep _ 0%Q (g i 0)) by (rewrite map_length, seq_length; lia). rewrite map_nth, seq_nth by lia. reflexivity.
Qed.

(** The problem built from tables of the size of the tree. *)
Lemma answers d data e t : let V := rows (lv_inputs d) in let lens := map lv_names (d :: data) in Forall (level_ok V) (d :: data) -> Forall (fun l => lv_unc l = false) (d :: data) -> 0 < V ->
  is_tree lens (map lv_unc (d :: data)) t -> en_links e = links_spec lens t (List.length (marked lens t) - 1) -> sz_vectors (en_sizes e) = V -> List.length (en_weight e) = nodes lens ->
  (forall j i, j < nodes lens -> i < V -> entry_of (en_in e) j i = Ok (input_of e i j) /\ entry_of (en_out e) j i = Ok (output_of e i j)) ->
  (forall i, i < V -> input_of e i 0 = 0%Q /\ output_of e i 0 = 0%Q) ->
  exists S, optimisation_em (tree_of e) = Ok S /\
    (forall x, Glpk.feasible S x -> exists P T I O,
       values_em (tree_of e) S x PS = Ok P /\ values_em (tree_of e) S x TS = Ok T /\ values_em (tree_of e) S x IT = Ok I /\ values_em (tree_of e) S x OT = Ok O /\
       forall v, v < V -> EnergyTree.feasible (weight_of e) (input_of e v) (output_of e v) (en_links e) (reported P T v) /\
         forall n, n < lk_bal (en_links e) + 1 -> (nth n (nth v I []) 0 == input_of e v n)%Q /\ (nth n (nth v O []) 0 == output_of e v n)%Q) /\
    (forall f : nat -> soc, (forall v, v < V -> EnergyTree.feasible (weight_of e) (input_of e v) (output_of e v) (en_links e) (f v)) ->
       exists x P T, Glpk.feasible S x /\ values_em (tree_of e) S x PS = Ok P /\ values_em (tree_of e) S x TS = Ok T /\
         forall v n k, v < V -> n < lk_bal (en_links e) + 1 -> k < 2 -> reported P T v n k = f v n k).
Proof.
  intros V lens F NU V0 T EL EV LW HIO Z0. subst lens.
  pose proof (tree_sound d data F e t EL T EV LW HIO NU) as SO. assert (TV : tm_trees (tree_of e) = V) by exact EV. destruct (built_em _ _ _ _ _ _ SO ltac:(lia)) as (S & ES & FE & PR & SU). exists S. split; [exact ES|]. rewrite TV in *.
  set (N := tm_nodes (tree_of e)) in *. change (lk_bal (en_links e) + 1) with N.
  set (vw := view (all_l (tree_of e) (fwd_of e) (bwd_of e) (weight_of e) (fun j i => input_of e i j) (fun j i => output_of e i j) obj_l)) in *.
  assert (EXT : forall v f g, (forall n k, n < N -> k < 2 -> f n k = g n k) -> EnergyTree.feasible (weight_of e) (input_of e v) (output_of e v) (en_links e) f -> EnergyTree.feasible (weight_of e) (input_of e v) (output_of e v) (en_links e) g).
  { intros v f g H (A & B & C & D & P). destruct (no_marks d data t T NU) as (M1 & M2). pose proof (nodes_two d data F) as N2.
    assert (NN : N = nodes (map lv_names (d :: data))) by (unfold N; cbn [tree_of tm_nodes]; rewrite EL; cbn [lk_bal links_spec]; lia).
    assert (R : forall n, n < N -> fst (nth n (lk_ll1 (en_links e)) (0, 0)) < N /\ snd (nth n (lk_ll1 (en_links e)) (0, 0)) < 2).
    { intros n Hn. destruct n as [|n]; [rewrite EL; cbn; lia|]. destruct (sd_fwd _ _ _ _ _ _ SO (Datatypes.S n)) as (_ & X & Y); [fold N; lia|]. unfold fwd_of in *. split; lia. }
    assert (R2 : forall i, i < lk_agg (en_links e) + 1 -> fst (nth i (lk_ll2 (en_links e)) (0, (0, 0))) < N /\ fst (snd (nth i (lk_ll2 (en_links e)) (0, (0, 0)))) < N /\ snd (snd (nth i (lk_ll2 (en_links e)) (0, (0, 0)))) < 2).
    { intros i Hi. assert (i < N) by (rewrite EL in Hi; cbn [lk_agg links_spec] in Hi; rewrite M2, seq_length in Hi; lia). destruct i as [|i]; [rewrite EL; cbn; lia|]. destruct (sd_bwd _ _ _ _ _ _ SO (Datatypes.S i)) as (X & Y); [fold N; lia|]. cbn [tree_of tm_llea] in X. rewrite (nth_error_nth _ _ (0, (0, 0)) X). cbn [fst snd]. fold N in Y. destruct Y as [Y|Y]; [rewrite Y; cbn [fst snd]; lia|lia]. }
    unfold EnergyTree.feasible, zero_rule, balance_rule, aggregate_rule in *. sp.
    - intros k K. rewrite <- H by (auto; lia). now apply A.
    - intros n Hn. change (lk_bal (en_links e) + 1) with N in Hn. rewrite <- !H; try apply R; auto.
    - intros i Hi. destruct (R2 i Hi) as (Q1 & Q2 & Q3). rewrite <- !H; try apply R; auto.
    - intros X. exfalso. apply X. rewrite EL. cbn [lk_unc links_spec]. now rewrite M1.
    - intros n k Hn K. change (lk_bal (en_links e) + 1) with N in Hn. rewrite <- H by auto. now apply P. }
  split.
  - intros x Hx. apply FE in Hx || (rewrite FE in Hx).
    assert (G : forall f, (f = PS \/ f = TS \/ f = IT \/ f = OT) -> exists l, values_em (tree_of e) S x f = Ok l /\ forall i j, i < V -> j < N -> nth j (nth i l []) 0%Q = vw x (f i, j)).
    { intros f Hf. destruct (values_ok (tree_of e) S x f (fun i j => vw x (f i, j))) as (l & A & B); [intros i j I J; apply PR; auto; lia|]. exists l. split; auto. intros i j I J. apply B; auto. lia. }
    destruct (G PS ltac:(auto)) as (P & EP & GP). destruct (G TS ltac:(auto)) as (Tt & ET & GT). destruct (G IT ltac:(auto)) as (I & EI & GI). destruct (G OT ltac:(auto)) as (O & EO & GO). exists P, Tt, I, O. split; [exact EP|]. split; [exact ET|]. split; [exact EI|]. split; [exact EO|].
    intros v Hv. pose proof (Hx v Hv) as H. pose proof H as (_ & _ & B & _). split.
    + apply (EXT v (fun n k => vw x (side v k, n))).
      * intros n k Hn K. unfold reported, side. destruct (k =? 0); [symmetry; now apply GP|symmetry; now apply GT].
      * destruct (Z0 v Hv) as (Z1 & Z2). apply (states_feasible d data F e t (vw x) v EL T NU Z1 Z2 SO); auto. intros j Hj. destruct (B j Hj) as (B1 & B2 & _). auto.
    + intros n Hn. rewrite GI, GO by auto. destruct (B n Hn) as (B1 & B2 & _). auto.
  - intros f Hf. set (s := fun p : place => match snd (fst p) with
        | [v] => if string_dec (fst (fst p)) "PartialStorage" then f v (snd p) 0%nat else if string_dec (fst (fst p)) "TotalStorage" then f v (snd p) 1%nat else if string_dec (fst (fst p)) "InputsTree" then input_of e v (snd p) else output_of e v (snd p)
        | _ => 0%Q end).
    destruct (SU s) as (x & Hx). exists x.
    assert (G : forall g, (g = PS \/ g = TS \/ g = IT \/ g = OT) -> exists l, values_em (tree_of e) S x g = Ok l /\ forall i j, i < V -> j < N -> nth j (nth i l []) 0%Q = s (g i, j)).
    { intros g Hg. destruct (values_ok (tree_of e) S x g (fun i j => vw x (g i, j))) as (l & A & B); [intros i j I J; apply PR; auto; lia|]. exists l. split; auto. intros i j I J. rewrite B by (auto; lia). now apply Hx. }
    destruct (G PS ltac:(auto)) as (P & EP & GP). destruct (G TS ltac:(auto)) as (Tt & ET & GT). exists P, Tt. split; [|split; [exact EP|split; [exact ET|]]].
    + rewrite FE. intros v Hv. destruct (Z0 v Hv) as (Z1 & Z2). apply (states_feasible d data F e t (vw x) v EL T NU Z1 Z2 SO).
      * intros j Hj. fold N in Hj. rewrite !Hx by auto. cbn. split; reflexivity.
      * apply (EXT v (f v)); [|now apply Hf]. intros n k Hn K. unfold side. destruct k as [|[|k]]; [|  |lia]; cbn [Nat.eqb]; rewrite Hx by auto; reflexivity.
    + intros v n k Hv Hn K. unfold reported. destruct k as [|[|k]]; [| |lia]; cbn [Nat.eqb]; [rewrite GP by auto|rewrite GT by auto]; reflexivity.
Qed.

(** C230: for data of any depth without uncertainty and any number of vectors, the problem for GLPK is built and can be solved, and
    it has the same answers as the constraints of the model with pyomo: what the getters report for an answer meets the constraints of every vector, and any
    states that meet them are reported for some answer. *)
Theorem C230_tree : forall d data, let V := rows (lv_inputs d) in Forall (level_ok V) (d :: data) -> Forall (fun l => lv_unc l = false) (d :: data) -> 0 < V ->
  exists e S, initialise (d :: data) = Ok e /\ optimisation_em (tree_of e) = Ok S /\
    (forall x, Glpk.feasible S x -> exists P T I O,
       values_em (tree_of e) S x PS = Ok P /\ values_em (tree_of e) S x TS = Ok T /\ values_em (tree_of e) S x IT = Ok I /\ values_em (tree_of e) S x OT = Ok O /\
       forall v, v < V -> EnergyTree.feasible (weight_of e) (input_of e v) (output_of e v) (en_links e) (reported P T v) /\
         forall n, n < lk_bal (en_links e) + 1 -> (nth n (nth v I []) 0 == input_of e v n)%Q /\ (nth n (nth v O []) 0 == output_of e v n)%Q) /\
    (forall f : nat -> soc, (forall v, v < V -> EnergyTree.feasible (weight_of e) (input_of e v) (output_of e v) (en_links e) (f v)) ->
       exists x P T, Glpk.feasible S x /\ values_em (tree_of e) S x PS = Ok P /\ values_em (tree_of e) S x TS = Ok T /\
         forall v n k, v < V -> n < lk_bal (en_links e) + 1 -> k < 2 -> reported P T v n k = f v n k).
Proof.
  intros d data V F NU V0. assert (U : lv_unc d = false) by (inversion NU; auto). destruct (tree_data d data F U) as (e & t & E & T & EL & EV & LW & HIO & Z0). destruct (answers d data e t F NU V0 T EL EV LW HIO Z0) as (S & H). exists e, S. split; [exact E|exact H].
Qed.
Print Assumptions C230_tree.

Definition ex_glpk : list level := [ex_level 2 false; ex_level 1 false].
Example C230_witness : Forall (level_ok 1) ex_glpk /\ Forall (fun l => lv_unc l = false) ex_glpk /\ rows (lv_inputs (ex_level 2 false)) = 1 /\
  match initialise ex_glpk with
  | Ok e => match definition_em (tree_of e) with
            | Ok l => rows_of l = [(TB 0, 4); (TA 0, 4)] /\ List.length (entries_of l) = 24
            | Err _ => False end
  | Err _ => False end.
Proof.
  split; [apply Forall_forall; intros l [<-|[<-|[]]]; unfold level_ok; cbn; sp; auto; intros r [<-|[]]; cbn; lia|]. split; [repeat constructor|]. split; [reflexivity|]. vm_compute. auto.
Qed.

(* ------------------------------------------------------------------------------------------------------------------ *)
(** ** C231 *)

(** C231: for data without uncertainty every answer of the problem for GLPK ends with the sum of all inputs less outputs, each multiplied by the
    weights of its node and of the nodes before it. *)
Theorem C231_end : forall d data, let V := rows (lv_inputs d) in let lens := map lv_names (d :: data) in Forall (level_ok V) (d :: data) -> Forall (fun l => lv_unc l = false) (d :: data) -> 0 < V ->
  exists e S, initialise (d :: data) = Ok e /\ optimisation_em (tree_of e) = Ok S /\ forall x, Glpk.feasible S x -> exists T, values_em (tree_of e) S x TS = Ok T /\
    forall v, v < V -> (nth (lv_names d) (nth v T []) 0 ==
      sumf (fun i => sumf (fun j => path_weight lens (weight_of e) (1 + i) j * (input_of e v (node lens (1 + i) j) - output_of e v (node lens (1 + i) j))) (width lens (1 + i))) (List.length (d :: data)))%Q.
Proof.
  intros d data V lens F NU V0. destruct (C230_tree d data F NU V0) as (e & S & E & ES & H & _). exists e, S. split; [exact E|]. split; [exact ES|]. intros x Hx. destruct (H x Hx) as (P & T & I & O & EP & ET & EI & EO & G). exists T. split; [exact ET|]. intros v Hv. destruct (G v Hv) as (FE & _).
  assert (U0 : uncertain_nodes (d :: data) = 0).
  { unfold uncertain_nodes. assert (A : forall (f : nat -> nat) l, (forall k, In k l -> f k = 0) -> Properties_EnergyTree.total (map f l) = 0).
    { intros f. induction l as [|k l IH]; intros L; [reflexivity|]. cbn [map]. unfold Properties_EnergyTree.total in *. cbn [fold_right]. rewrite IH, L; [reflexivity|now left|]. intros; apply L; now right. }
    apply A. intros k I0. apply in_seq in I0. assert (X : lv_unc (nth k (d :: data) (mkLevel 0 [] (Vec []) (Vec []) false)) = false) by (rewrite Forall_forall in NU; apply NU; apply nth_In; lia). now rewrite X. }
  destruct (C58_levels_partial d data F ltac:(inversion NU; auto) ltac:(rewrite U0; lia)) as (e' & E' & L). assert (e' = e) by congruence. subst e'. destruct (L _ _ _ _ FE) as (X & _). exact X.
Qed.
Print Assumptions C231_end.

(** In the example every one of four nodes has an input of 1. *)
Example C231_witness : Forall (level_ok 1) ex_glpk /\ match initialise ex_glpk with
  | Ok e => (sumf (fun i => sumf (fun j => path_weight [2; 1]%nat (weight_of e) (1 + i)%nat j * (input_of e 0 (node [2; 1]%nat (1 + i)%nat j) - output_of e 0 (node [2; 1]%nat (1 + i)%nat j))) (width [2; 1]%nat (1 + i)%nat)) 2%nat == 4)%Q
  | Err _ => False end.
Proof. split; [exact (proj1 C230_witness)|]. vm_compute. reflexivity. Qed.

(* ------------------------------------------------------------------------------------------------------------------ *)
(** ** C232 *)

Lemma mapM_index {A B} (f : A -> res B) l : (forall a, In a l -> (exists b, f a = Ok b) \/ f a = Err IndexError) -> (exists a, In a l /\ f a = Err IndexError) -> mapM f l = Err IndexError.
Proof.
  induction l as [|a r IH]; intros H (b & I & E); [destruct I|]. cbn [mapM]. destruct (H a ltac:(now left)) as [(y & Y)|Y].
  - rewrite Y, bind_ok. rewrite IH; [reflexivity|intros; apply H; now right|]. destruct I as [->|I]; [congruence|]. eauto.
  - rewrite Y. reflexivity.
Qed.
Lemma at_index {A} (l : list A) i : (exists a, at_ l i = Ok a) \/ at_ l i = Err IndexError.
Proof. unfold at_. destruct (nth_error l i); eauto. Qed.

(** C232 (the tree with uncertainty can be solved with GLPK) is false: with uncertainty at any level after the first the list of the nodes to be aggregated is shorter than the
    number of nodes, which the code runs through. *)
Theorem C232_refuted : forall d data, let V := rows (lv_inputs d) in Forall (level_ok V) (d :: data) -> lv_unc d = false -> (exists l, In l data /\ lv_unc l = true) -> 0 < V ->
  exists e, initialise (d :: data) = Ok e /\ optimisation_em (tree_of e) = Err IndexError.
Proof.
  intros d data V F U (l & IL & UL) V0. destruct (tree_data d data F U) as (e & t & E & T & EL & EV & LW & HIO & Z0). exists e. split; [exact E|].
  set (lens := map lv_names (d :: data)) in *. pose proof (nodes_two d data F) as N2. fold lens in N2. assert (pos : Forall (fun n => 0 < n) lens) by (now apply (data_pos (d :: data) V)). assert (D0 : 0 < depth lens) by (unfold depth, lens; cbn; lia).
  assert (UN : List.length (map lv_unc (d :: data)) = depth lens) by (unfold depth, lens; now rewrite !map_length).
  assert (NN : tm_nodes (tree_of e) = nodes lens) by (cbn [tree_of tm_nodes]; rewrite EL; cbn [lk_bal links_spec]; lia). assert (TV : tm_trees (tree_of e) = V) by exact EV.
  assert (MK : 0 < List.length (marked lens t)).
  { apply In_nth_error in IL as (k & IL). apply (marked_some lens pos _ UN D0 t T (k + 1)); [lia| |].
    - unfold depth, lens. rewrite map_length. cbn [List.length]. assert (k < List.length data) by (apply nth_error_Some; congruence). lia.
    - unfold uncertain. replace (k + 1) with (S k) by lia. cbn [map nth]. rewrite (nth_error_nth (map lv_unc data) k false (x := true)); [reflexivity|]. rewrite nth_error_map, IL. cbn. now rewrite UL. }
  assert (LL : List.length (tm_llea (tree_of e)) < nodes lens). { cbn [tree_of tm_llea]. rewrite EL. cbn [lk_ll2 links_spec List.length]. rewrite map_length. pose proof (split_nodes lens t) as SN. lia. }
  assert (VA : exists va, variables_em (tree_of e) = Ok va).
  { unfold variables_em. rewrite (mapM_pure _ (bounds_p (tree_of e) (fun j i => input_of e i j) (fun j i => output_of e i j))); [rewrite bind_ok; eauto|]. intros i I. apply in_seq in I. unfold tree_bounds. rewrite (mapM_pure _ (fun j => [ColBnd (IT i) j (Fixed (input_of e i j)); ColBnd (OT i) j (Fixed (output_of e i j))])).
    - rewrite bind_ok. unfold bounds_p. now rewrite flat_map_concat_map.
    - intros j J. apply in_seq in J. rewrite NN in J. unfold node_bounds. cbn [tree_of tm_in tm_out]. destruct (HIO j i ltac:(lia) ltac:(unfold V in TV; lia)) as (A & B). rewrite A, bind_ok, B. reflexivity. }
  assert (BA : exists ba, energy_balance (tree_of e) = Ok ba).
  { unfold energy_balance. rewrite (all_nodes_l _ _ (fun i n => bal_p (fwd_of e) i n)); [rewrite bind_ok; eauto|]. intros i n _ H. rewrite NN in H. unfold balance_row, bal_p, fwd_of. cbn [tree_of tm_lleb]. rewrite (at_some _ n (nth n (lk_ll1 (en_links e)) (0, 0))); [reflexivity|]. apply nth_error_nth'. rewrite EL. cbn [lk_ll1 links_spec]. unfold ll1_spec. cbn [List.length]. rewrite map_length, seq_length. lia. }
  destruct VA as (va & EVA). destruct BA as (ba & EBA). unfold optimisation_em, definition_em. rewrite EVA, bind_ok, EBA, bind_ok. unfold aggregation, all_nodes.
  assert (RO : forall i n, (exists b, aggregation_row (tree_of e) i n = Ok b) \/ aggregation_row (tree_of e) i n = Err IndexError).
  { intros i n. unfold aggregation_row. destruct (at_index (tm_llea (tree_of e)) n) as [(a & ->)| ->]; [rewrite bind_ok|auto]. destruct (at_index (tm_weight (tree_of e)) (fst a)) as [(q & ->)| ->]; [rewrite bind_ok|auto]. destruct (Qeq_bool (1 - q) 0); [rewrite bind_ok; eauto|]. destruct (at_index (tm_lleb (tree_of e)) (fst a)) as [(b & ->)| ->]; [rewrite !bind_ok; eauto|auto]. }
  assert (FA : forall i, mapM (aggregation_row (tree_of e) i) (seq 1 (tm_nodes (tree_of e) - 1)) = Err IndexError).
  { intros i. apply mapM_index; [intros n _; apply RO|]. exists (nodes lens - 1). split; [apply in_seq; lia|]. unfold aggregation_row. destruct (at_index (tm_llea (tree_of e)) (nodes lens - 1)) as [(a & X)| ->]; [|reflexivity]. exfalso. unfold at_ in X. destruct (nth_error (tm_llea (tree_of e)) (nodes lens - 1)) eqn:Y; [|discriminate X]. assert (nodes lens - 1 < List.length (tm_llea (tree_of e))) by (apply nth_error_Some; congruence). lia. }
  destruct (seq 0 (tm_trees (tree_of e))) as [|i r] eqn:SE; [rewrite TV in SE; destruct V; [lia|discriminate SE]|]. cbn [mapM]. rewrite FA. reflexivity.
Qed.
Print Assumptions C232_refuted.

Definition ex_doubt : list level := [ex_level 1 false; ex_level 2 true].
Example C232_witness : Forall (level_ok 1) ex_doubt /\ exists l, In l [ex_level 2 true] /\ lv_unc l = true.
Proof. split; [apply Forall_forall; intros l [<-|[<-|[]]]; unfold level_ok; cbn; sp; auto; intros r [<-|[]]; cbn; lia|]. exists (ex_level 2 true). cbn. auto. Qed.

(* ------------------------------------------------------------------------------------------------------------------ *)
(** ** C233 *)

(** C233: the inputs, outputs and weights of a tree without uncertainty can be replaced: for any tables with a row for each node and an entry for each vector, zero
    before the first node, and any weights of the nodes, the setters take them, the problem is built and solved, and its answers are those of the constraints of the model with pyomo with the new data. *)
Theorem C233_setters : forall d data (I O : list (list Q)) (w : list Q), let V := rows (lv_inputs d) in let N := nodes (map lv_names (d :: data)) in
  Forall (level_ok V) (d :: data) -> Forall (fun l => lv_unc l = false) (d :: data) -> 0 < V ->
  List.length I = N -> List.length O = N -> List.length w = N -> Forall (fun r => List.length r = V) I -> Forall (fun r => List.length r = V) O -> hd [] I = repeat 0%Q V -> hd [] O = repeat 0%Q V ->
  exists e m1 m2 m3 S, initialise (d :: data) = Ok e /\ set_intake (tree_of e) (Some I) = Ok m1 /\ set_output m1 (Some O) = Ok m2 /\ set_weights m2 (Some w) = Ok m3 /\ optimisation_em m3 = Ok S /\
    let rules v := EnergyTree.feasible (fun n => nth n w 0%Q) (fun n => nth v (nth n I []) 0%Q) (fun n => nth v (nth n O []) 0%Q) (en_links e) in
    (forall x, Glpk.feasible S x -> exists P T, values_em m3 S x PS = Ok P /\ values_em m3 S x TS = Ok T /\ forall v, v < V -> rules v (reported P T v)) /\
    (forall f : nat -> soc, (forall v, v < V -> rules v (f v)) -> exists x P T, Glpk.feasible S x /\ values_em m3 S x PS = Ok P /\ values_em m3 S x TS = Ok T /\
       forall v n k, v < V -> n < N -> k < 2 -> reported P T v n k = f v n k).
Proof.
  intros d data I O w V N F NU V0 LI LO LW RI RO HI HO. assert (U : lv_unc d = false) by (inversion NU; auto). destruct (tree_data d data F U) as (e & t & E & T & EL & EV & _ & _ & _).
  set (e' := mkEnergy (en_sizes e) (en_tree e) (en_links e) I O w). exists e. do 3 eexists.
  assert (EN : forall l j i, List.length l = N -> Forall (fun r => List.length r = V) l -> j < N -> i < V -> entry_of l j i = Ok (nth i (nth j l []) 0%Q)).
  { intros l j i L R J Hi. unfold entry_of. rewrite (at_some _ j (nth j l [])) by (apply nth_error_nth'; lia). rewrite bind_ok. apply at_some. apply nth_error_nth'. rewrite Forall_forall in R. rewrite (R (nth j l [])); [lia|apply nth_In; lia]. }
  assert (Z0 : forall l i, hd [] l = repeat 0%Q V -> nth i (nth 0 l []) 0%Q = 0%Q).
  { intros l i H. assert (X : nth 0 l [] = repeat 0%Q V) by (rewrite <- H; now destruct l). rewrite X. clear. revert i. induction V as [|k IH]; intros [|i]; cbn; auto. }
  destruct (answers d data e' t F NU V0 T EL EV LW) as (S & ES & A & B).
  - intros j i J Hi. unfold input_of, output_of. cbn [e' en_in en_out]. split; apply EN; auto.
  - intros i Hi. unfold input_of, output_of. cbn [e' en_in en_out]. split; now apply Z0.
  - exists S. split; [exact E|]. split; [reflexivity|]. split; [reflexivity|]. split; [reflexivity|]. split; [exact ES|]. split.
    + intros x Hx. destruct (A x Hx) as (P & TT & X & Y & EP & ET & _ & _ & G). exists P, TT. split; [exact EP|]. split; [exact ET|]. intros v Hv. exact (proj1 (G v Hv)).
    + intros f Hf. destruct (B f Hf) as (x & P & TT & Hx & EP & ET & G). exists x, P, TT. split; [exact Hx|]. split; [exact EP|]. split; [exact ET|]. intros v n k Hv Hn K. apply G; auto. cbn [e' en_links]. rewrite EL. cbn [lk_bal links_spec]. pose proof (nodes_two d data F). unfold N in Hn. lia.
Qed.
Print Assumptions C233_setters.

Example C233_witness : Forall (level_ok 1) ex_glpk /\ List.length [[0]; [5]; [0]; [1]; [2]]%Q = nodes (map lv_names ex_glpk) /\ hd [] [[0]; [5]; [0]; [1]; [2]]%Q = repeat 0%Q 1.
Proof. split; [exact (proj1 C230_witness)|]. split; reflexivity. Qed.

(** C233 (every datum of the tree can be replaced) is false: the setters of the links take no list, the second without a list clears the links of the balance and leaves its own, and with as many nodes as there are links or more no problem is built. *)
Theorem C233_refuted : forall m, (forall l, set_lleb m (Some l) = Err AssertionError) /\ (forall l, set_llea m (Some l) = Err AssertionError) /\ set_llea m None = Ok (None, tm_llea m) /\
  (forall n, List.length (tm_lleb m) <= n -> 0 < n -> 0 < tm_trees m -> (forall j i, j <= n -> i < tm_trees m -> (exists q, entry_of (tm_in m) j i = Ok q) /\ exists q, entry_of (tm_out m) j i = Ok q) ->
     exists m', set_nodes m (Some n) = Ok m' /\ optimisation_em m' = Err IndexError).
Proof.
  intros m. split; [reflexivity|]. split; [reflexivity|]. split; [reflexivity|]. intros n L N0 T0 D. eexists. split; [reflexivity|]. set (m' := mkTM _ _ _ _ _ _ _). unfold optimisation_em, definition_em.
  assert (VA : exists va, variables_em m' = Ok va).
  { unfold variables_em. destruct (mapM_total (tree_bounds m') (seq 0 (tm_trees m'))) as (l & ->); [|rewrite bind_ok; eauto]. intros i I. apply in_seq in I. unfold tree_bounds.
    destruct (mapM_total (node_bounds m' i) (seq 0 (tm_nodes m'))) as (l & ->); [|rewrite bind_ok; eauto]. intros j J. apply in_seq in J. destruct (D j i) as ((p & P) & (q & Q)); [cbn in J; lia|cbn in I; lia|]. unfold node_bounds. cbn [m' tm_in tm_out]. rewrite P, bind_ok, Q, bind_ok. eauto. }
  destruct VA as (va & ->). rewrite bind_ok. unfold energy_balance, all_nodes. cbn [m' tm_trees tm_nodes]. fold m'.
  assert (FA : forall i, mapM (balance_row m' i) (seq 1 (n + 1 - 1)) = Err IndexError).
  { intros i. apply mapM_index.
    - intros k _. unfold balance_row. destruct (at_index (tm_lleb m') k) as [(a & ->)| ->]; [left|now right]. rewrite bind_ok. eauto.
    - exists n. split; [apply in_seq; lia|]. unfold balance_row. unfold at_. cbn [m' tm_lleb]. destruct (nth_error (tm_lleb m) n) eqn:X; [|reflexivity]. assert (n < List.length (tm_lleb m)) by (apply nth_error_Some; congruence). lia. }
  destruct (tm_trees m) as [|k] eqn:K; [lia|]. cbn [seq mapM]. rewrite FA. reflexivity.
Qed.
Print Assumptions C233_refuted.

Definition ex_short : tree_model := mkTM 2 1 [(0, 0); (0, 0)] [(0, (0, 0)); (1, (1, 0))] (repeat [1%Q] 4) (repeat [0%Q] 4) [1; 1]%Q.
Example C233_refuted_witness : List.length (tm_lleb ex_short) <= 2 /\ 0 < tm_trees ex_short /\ (forall j i, j <= 2 -> i < tm_trees ex_short -> (exists q, entry_of (tm_in ex_short) j i = Ok q) /\ exists q, entry_of (tm_out ex_short) j i = Ok q).
Proof. split; [cbn; lia|]. split; [cbn; lia|]. intros j i J I. cbn in I. destruct i; [|lia]. destruct j as [|[|[|j]]]; [| | |lia]; cbn; eauto. Qed.
