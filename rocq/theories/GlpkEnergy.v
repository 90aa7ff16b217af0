(** Model of the energy tree built with GLPK, class Energymodel of pyensys/engines/pyene_Models.py (PM), on the data of
    pyensys/engines/pyeneE.py.

    Simplifications.
    - Errors of reading the arrays of data are reported before errors of GLPK.
    - The second entry of a row of the linked lists is 0 or 1; the code appends no column for other values.
    - The solver "CLP", for which the problem is handed to code in another language (PM:1085-1129), is not modelled.
    - Not modelled: the graph of the tree (PM:692-767, 1184-1286), which no method builds, and the constraints with uncertainty
      (PM:1001-1070), which no method calls. *)
From Coq Require Import List String Bool Arith ZArith QArith.
From Verif Require Import Base Cases Network GraphData EnergyTree Glpk.
Import ListNotations.
Open Scope nat_scope.
Open Scope list_scope.

(** PM:661-689. *)
Record tree_model := mkTM { tm_nodes : nat; tm_trees : nat; tm_lleb : list (nat * nat); tm_llea : list (nat * (nat * nat)); tm_in : list (list Q); tm_out : list (list Q); tm_weight : list Q }.
Definition tree_of (e : energy) : tree_model :=
  mkTM (lk_bal (en_links e) + 1) (sz_vectors (en_sizes e)) (lk_ll1 (en_links e)) (lk_ll2 (en_links e)) (en_in e) (en_out e) (en_weight e).

Definition PS (i : nat) : name := ("PartialStorage"%string, [i]).
Definition TS (i : nat) : name := ("TotalStorage"%string, [i]).
Definition IT (i : nat) : name := ("InputsTree"%string, [i]).
Definition OT (i : nat) : name := ("OutputsTree"%string, [i]).
Definition TB (i : nat) : name := ("TB"%string, [i]).
Definition TA (i : nat) : name := ("TA"%string, [i]).
(** The column for a node and a side of the linked lists. *)
Definition side (i s : nat) : name := if s =? 0 then PS i else TS i.

Definition entry_of (m : list (list Q)) (j i : nat) : res Q := do r <- at_ m j; at_ r i.

(** PM:845-866: the columns. *)
Definition tree_cols (m : tree_model) : list (name * nat) :=
  flat_map (fun f => map (fun i => (f i, tm_nodes m)) (seq 0 (tm_trees m))) [PS; TS; IT; OT].
Definition add_cols (l : list (name * nat)) : list cmd := map (fun b => AddCols (fst b) (snd b)) l.
Definition add_rows (l : list (name * nat)) : list cmd := map (fun b => AddRows (fst b) (snd b)) l.

(** PM:868-882. *)
Definition node_bounds (m : tree_model) (i j : nat) : res (list cmd) :=
  do a <- entry_of (tm_in m) j i; do b <- entry_of (tm_out m) j i;
  Ok [ColBnd (IT i) j (Fixed a); ColBnd (OT i) j (Fixed b)].
Definition tree_bounds (m : tree_model) (i : nat) : res (list cmd) :=
  do l <- mapM (node_bounds m i) (seq 0 (tm_nodes m));
  Ok ([ColBnd (PS i) 0 (Fixed 0); ColBnd (TS i) 0 (Fixed 0)] ++ List.concat l).
(** PM:841-882. *)
Definition variables_em (m : tree_model) : res (list cmd) :=
  do l <- mapM (tree_bounds m) (seq 0 (tm_trees m));
  Ok (add_cols (tree_cols m) ++ List.concat l).

(** The rows of a list of constraints: one for every node but the first. *)
Definition tree_rows (m : tree_model) (f : nat -> name) : list (name * nat) := map (fun i => (f i, tm_nodes m - 1)) (seq 0 (tm_trees m)).
(** The loops over vectors and nodes. *)
Definition all_nodes {A} (m : tree_model) (f : nat -> nat -> res (list A)) : res (list A) :=
  do l <- mapM (fun i => do r <- mapM (f i) (seq 1 (tm_nodes m - 1)); Ok (List.concat r)) (seq 0 (tm_trees m));
  Ok (List.concat l).
Definition row_limits (m : tree_model) (f : nat -> name) : list cmd :=
  flat_map (fun i => map (fun n => RowBnd (f i) (n - 1) (Fixed 0)) (seq 1 (tm_nodes m - 1))) (seq 0 (tm_trees m)).

(** PM:906-933. *)
Definition balance_row (m : tree_model) (i n : nat) : res (list cmd) :=
  do l <- at_ (tm_lleb m) n;
  Ok [Entry (TB i) (n - 1) (PS i) n 1; Entry (TB i) (n - 1) (side i (snd l)) (fst l) (- (1)); Entry (TB i) (n - 1) (IT i) n (- (1)); Entry (TB i) (n - 1) (OT i) n 1].
(** PM:886-939. *)
Definition energy_balance (m : tree_model) : res (list cmd) :=
  do l <- all_nodes m (balance_row m);
  Ok (add_rows (tree_rows m TB) ++ l ++ row_limits m TB).

(** PM:961-992. *)
Definition aggregation_row (m : tree_model) (i n : nat) : res (list cmd) :=
  do a <- at_ (tm_llea m) n;
  do w <- at_ (tm_weight m) (fst a);
  do r <- (if Qeq_bool (1 - w) 0 then Ok [] else do l <- at_ (tm_lleb m) (fst a); Ok [Entry (TA i) (n - 1) (side i (snd l)) (fst l) (- (1 - w))]);
  Ok ([Entry (TA i) (n - 1) (TS i) n 1; Entry (TA i) (n - 1) (side i (snd (snd a))) (fst (snd a)) (- w)] ++ r).
(** PM:941-999. *)
Definition aggregation (m : tree_model) : res (list cmd) :=
  do l <- all_nodes m (aggregation_row m);
  Ok (add_rows (tree_rows m TA) ++ l ++ row_limits m TA).

(** PM:1073-1079. *)
Definition objective_em (m : tree_model) : res (list cmd) := do _ <- at_ (seq 0 (tm_trees m)) 0; Ok [Obj (PS 0) 1 1].

(** PM:791-813. *)
Definition definition_em (m : tree_model) : res (list cmd) :=
  do v <- variables_em m; do b <- energy_balance m; do a <- aggregation m; do o <- objective_em m;
  Ok ((v ++ b ++ a) ++ Load :: o).
(** PM:772-789 with the solver "GLPK". *)
Definition optimisation_em (m : tree_model) : res solver := do l <- definition_em m; do s <- run l; do _ <- simplex s; Ok s.

(** PM:1290-1344: values of a block of columns, by vector and node. *)
Definition values_em (m : tree_model) (S : solver) (x : nat -> Q) (f : nat -> name) : res (list (list Q)) :=
  mapM (fun i => mapM (primal S x (f i)) (seq 0 (tm_nodes m))) (seq 0 (tm_trees m)).

(** PM:1133-1178.  The two setters of the linked lists refuse what the others ask for; the second changes the list of the first.
    [None] is no value. *)
Definition set_nodes (m : tree_model) (v : option nat) : res tree_model :=
  match v with None => Err AssertionError | Some n => Ok (mkTM (n + 1) (tm_trees m) (tm_lleb m) (tm_llea m) (tm_in m) (tm_out m) (tm_weight m)) end.
Definition set_trees (m : tree_model) (v : option nat) : res tree_model :=
  match v with None => Err AssertionError | Some n => Ok (mkTM (tm_nodes m) n (tm_lleb m) (tm_llea m) (tm_in m) (tm_out m) (tm_weight m)) end.
Definition set_intake (m : tree_model) (v : option (list (list Q))) : res tree_model :=
  match v with None => Err AssertionError | Some a => Ok (mkTM (tm_nodes m) (tm_trees m) (tm_lleb m) (tm_llea m) a (tm_out m) (tm_weight m)) end.
Definition set_output (m : tree_model) (v : option (list (list Q))) : res tree_model :=
  match v with None => Err AssertionError | Some a => Ok (mkTM (tm_nodes m) (tm_trees m) (tm_lleb m) (tm_llea m) (tm_in m) a (tm_weight m)) end.
Definition set_weights (m : tree_model) (v : option (list Q)) : res tree_model :=
  match v with None => Err AssertionError | Some a => Ok (mkTM (tm_nodes m) (tm_trees m) (tm_lleb m) (tm_llea m) (tm_in m) (tm_out m) a) end.
Definition set_lleb (m : tree_model) (v : option (list (nat * nat))) : res (option (list (nat * nat))) := match v with Some _ => Err AssertionError | None => Ok None end.
Definition set_llea (m : tree_model) (v : option (list (nat * (nat * nat)))) : res (option (list (nat * nat)) * list (nat * (nat * nat))) :=
  match v with Some _ => Err AssertionError | None => Ok (None, tm_llea m) end.
