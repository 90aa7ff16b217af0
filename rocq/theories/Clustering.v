(** Model of pyensys/data_processing/clustering.py (CL), and of its use in
    pyensys/Optimisers/ControlGraphsCreator.py (CG:202-218).

    The Birch algorithm (CL:22-49, scikit-learn) is not modelled: its answer, one label per
    scenario and time step, is an argument.  Labels are natural numbers. *)
From Coq Require Import List String Bool Arith ZArith QArith.
From Verif Require Import Base Graph GraphData.
Import ListNotations.
Open Scope nat_scope.
Open Scope list_scope.

(** CL:51-55, _enumerate_array: pairs of label and position. *)
Definition enumerate_labels (labels : list nat) : list (nat * nat) := combine labels (seq 0 (List.length labels)).

(** CL:57-58, sorted(array, key=lambda x: x[0]): a stable sort. *)
Fixpoint insert_label (x : nat * nat) (l : list (nat * nat)) : list (nat * nat) :=
  match l with
  | [] => [x]
  | y :: r => if fst x <=? fst y then x :: l else y :: insert_label x r
  end.
Definition sort_labels (l : list (nat * nat)) : list (nat * nat) := fold_right insert_label [] l.

(** [l[i].append(v)] for a non-negative [i]. *)
Fixpoint append_at (l : list (list Q)) (i : nat) (v : Q) : res (list (list Q)) :=
  match l, i with
  | [], _ => Err IndexError
  | g :: r, 0 => Ok ((g ++ [v]) :: r)
  | g :: r, S j => do r' <- append_at r j v; Ok (g :: r')
  end.

(** CL:60-68, _add_scenario_to_clusters_list.  The current cluster is [None] for the initial -1,
    which no label equals. *)
Definition add_scenario (st : list (list Q) * option nat) (label : nat) (v : Q) : res (list (list Q) * option nat) :=
  match snd st with
  | Some c => if label =? c then do g <- append_at (fst st) c v; Ok (g, Some c)
              else Ok (fst st ++ [[v]], Some label)
  | None => Ok (fst st ++ [[v]], Some label)
  end.

(** CL:70-81, _get_values_by_cluster. *)
Definition values_by_cluster (sorted : list (nat * nat)) (row : list Q) : res (list (list Q)) :=
  do st <- foldM (fun st el => do v <- py_index row (Z.of_nat (snd el)); add_scenario st (fst el) v) sorted ([], None);
  Ok (fst st).

(** CL:89-94, _assign_centroids.  [centroids[pos]] exists for every enumerated position, so only
    the averages can be out of range; the element of position [i] is the [i]-th. *)
Definition assign_centroids (enumerated : list (nat * nat)) (averages : list Q) : res (list Q) :=
  mapM (fun el => py_index averages (Z.of_nat (fst el))) enumerated.

(** CL:96-102, _calculate_single_time_step_centroids, with the averages of CL:83-87 (statistics.mean
    of a non-empty list). *)
Definition step_centroids (labels : list nat) (row : list Q) : res (list Q) :=
  do groups <- values_by_cluster (sort_labels (enumerate_labels labels)) row;
  assign_centroids (enumerate_labels labels) (map mean groups).

(** CL:117-123, calculate_clusters_centroids: zip of labels and rows. *)
Definition centroids (labels : list (list nat)) (rows : list (list Q)) : res (list (list Q)) :=
  mapM (fun lr => step_centroids (fst lr) (snd lr)) (combine labels rows).

(** CG:202-218, create_profile_clusters for one profile: same column and row labels.
    [birch] gives the labels of each row. *)
Definition cluster_profile (birch : list Q -> list nat) (c : clustered) : res clustered :=
  let p := cp_profile c in
  do rows <- centroids (map birch (pr_rows p)) (pr_rows p);
  Ok (mkClustered (mkProfile (pr_type p) (pr_var p) rows) (cp_columns c) (cp_index c)).
