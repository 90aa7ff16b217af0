(** Networks met by the theorems on the reduction. *)
From Coq Require Import List ZArith QArith Bool Lia Arith Permutation.
From Verif Require Import Base Parameters Analyser Reduction AnalyserSpec ReductionSpec ParametersProofs AnalyserExamples.
Import ListNotations.
Open Scope list_scope.
Open Scope nat_scope.

(** Buses 1 and 2 above; 3 and 4 below, joined to both; 5 below, joined to 2 only. *)
Definition grid_raw : net := mkNet
  [a_bus 1 220 10 (mkRefs [1] [7] [1] [] []); a_bus 2 220 20 (mkRefs [1] [8; 9] [] [] []);
   a_bus 3 66 3 (mkRefs [2] [7] [3] [] []); a_bus 4 66 4 (mkRefs [2] [8] [] [] [4]); a_bus 5 66 5 (mkRefs [] [9] [] [5] [])]
  [a_line 1 1 2 true; a_line 2 3 4 true] [a_line 7 1 3 true; a_line 8 4 2 true; a_line 9 2 5 true]
  [a_gen 1 1; a_gen 2 3] [a_gen 3 5] [a_gen 4 4].
Definition grid : net := update_all grid_raw.
Lemma grid_wf : wf grid_raw.
Proof. check_wf. Qed.
(** The same with bus 3 first. *)
Definition mixed_raw : net := mkNet
  [a_bus 3 66 3 (mkRefs [2] [7] [3] [] []); a_bus 1 220 10 (mkRefs [1] [7] [1] [] []); a_bus 2 220 20 (mkRefs [1] [8; 9] [2] [] []);
   a_bus 4 66 4 (mkRefs [2] [8] [] [] [4]); a_bus 5 66 5 (mkRefs [] [9] [] [5] [])]
  [a_line 2 3 4 true; a_line 1 1 2 true] [a_line 7 1 3 true; a_line 8 4 2 true; a_line 9 2 5 true]
  [a_gen 1 1; a_gen 2 3; a_gen 5 2] [a_gen 3 5] [a_gen 4 4].
Definition mixed : net := update_all mixed_raw.
Lemma mixed_wf : wf mixed_raw.
Proof. check_wf. Qed.
(** The line between 1 and 2 and a transformer out of service; losses of the transformers. *)
Definition t_line (no a b : nat) (on : bool) : series := mkSeries no 0 [a; b] [] on (1#10) (1#10) (1#10) 100 (Some 1%Q).
Definition off_raw : net := mkNet
  [a_bus 1 220 10 (mkRefs [1] [7] [] [] []); a_bus 2 220 20 (mkRefs [1] [8] [] [] []); a_bus 3 66 3 (mkRefs [] [7; 8] [] [] [])]
  [a_line 1 1 2 false] [t_line 7 1 3 true; t_line 8 3 2 false] [] [] [].
Definition off : net := update_all off_raw.
Lemma off_wf : wf off_raw.
Proof. check_wf. Qed.
(** A bus below with no neighbour. *)
Definition lone_raw : net := mkNet
  [a_bus 1 220 10 (mkRefs [1] [] [] [] []); a_bus 2 220 20 (mkRefs [1] [] [] [] []); a_bus 3 66 3 (mkRefs [] [] [] [] [])]
  [a_line 1 1 2 true] [] [] [] [].
Definition lone : net := update_all lone_raw.
Lemma lone_wf : wf lone_raw.
Proof. check_wf. Qed.
(** No line above. *)
Definition bare_raw : net := mkNet
  [a_bus 1 220 10 (mkRefs [] [7] [] [] []); a_bus 3 66 3 (mkRefs [2] [7] [] [] []); a_bus 4 66 4 (mkRefs [2] [] [] [] [])]
  [a_line 2 3 4 true] [a_line 7 1 3 true] [] [] [].
Definition bare : net := update_all bare_raw.
Lemma bare_wf : wf bare_raw.
Proof. check_wf. Qed.
Definition get {A} (d : A) (r : res A) : A := match r with Ok a => a | Err _ => d end.
Definition shrink (N : net) : reduced := get (mkReduced N [] [] []) (reduce 1 220 None None N).
