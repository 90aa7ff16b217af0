(** Networks met by the theorems on positions and islands. *)
From Coq Require Import List ZArith QArith Bool Lia Arith Permutation.
From Verif Require Import Base Parameters Analyser AnalyserSpec ParametersProofs.
Import ListNotations.
Open Scope list_scope.
Open Scope nat_scope.

Definition a_bus (no : nat) (kv p : Q) (r : refs) : bus := mkBus no 0 kv p p 0 1 r no_refs.
Definition a_line (no a b : nat) (on : bool) : series := mkSeries no 0 [a; b] [] on (1#10) (1#10) (1#10) 100 None.
Definition a_gen (name b : nat) : gen := mkGen name 0 b 0.
(** Two parts, 10-20-30 and 40-50, joined by a line out of service; 60 is alone. *)
Definition six_raw : net := mkNet
  [a_bus 10 220 1 (mkRefs [1] [] [10; 10] [] []); a_bus 20 220 2 (mkRefs [1] [7] [] [] []); a_bus 30 66 3 (mkRefs [3] [7] [] [] []);
   a_bus 40 66 4 (mkRefs [2; 3] [] [] [40] []); a_bus 50 66 5 (mkRefs [2] [] [] [] [50]); a_bus 60 66 6 (mkRefs [] [] [60] [] [])]
  [a_line 1 20 10 true; a_line 2 40 50 true; a_line 3 30 40 false] [a_line 7 20 30 true]
  [a_gen 1 10; a_gen 2 60; a_gen 3 10] [a_gen 4 40] [a_gen 5 50].
Definition six : net := update_all six_raw.
Lemma wf_check N : NoDup (numbers N) -> (forall k, NoDup (map s_no (els k N))) ->
  (forall k, Forall (fun s => exists a b, s_ends s = [a; b] /\ a <> b /\ In a (numbers N) /\ In b (numbers N)) (els k N)) ->
  (forall k, Forall (fun s => Forall (fun b => In (s_no s) (sref k (b_nos b)) <-> In (b_no b) (s_ends s)) (n_bus N)) (els k N)) ->
  (forall k, Forall (fun b => Forall (eq (b_no b)) (gref k (b_nos b)) /\
    (length (filter (fun g => g_bus g =? b_no b) (gens k N)) <= length (gref k (b_nos b)))%nat) (n_bus N)) -> wf N.
Proof.
  intros H1 H2 H3 H4 H5. constructor; [exact H1|exact H2| | |].
  - intros k s Hs. specialize (H3 k). rewrite Forall_forall in H3. now apply H3.
  - intros k s b Hs Hb. specialize (H4 k). rewrite Forall_forall in H4. specialize (H4 s Hs). rewrite Forall_forall in H4. now apply H4.
  - intros k b Hb. specialize (H5 k). rewrite Forall_forall in H5. now apply H5.
Qed.
Ltac check_wf :=
  apply wf_check; [vm_compute; repeat (constructor; [cbn; intuition discriminate|]); constructor
  |intros []; vm_compute; repeat (constructor; [cbn; intuition discriminate|]); constructor
  |intros []; repeat (apply Forall_cons; [do 2 eexists; split; [reflexivity|]; split; [discriminate|]; split; vm_compute; tauto|]); apply Forall_nil
  |intros []; repeat (apply Forall_cons; [repeat (apply Forall_cons; [vm_compute; split; intuition discriminate|]); apply Forall_nil|]); apply Forall_nil
  |intros []; repeat (apply Forall_cons; [split; [repeat constructor|vm_compute; lia]|]); apply Forall_nil].
Lemma six_wf : wf six_raw.
Proof. check_wf. Qed.
(** The same numbers with nothing in service. *)
Definition pair_raw : net := mkNet [a_bus 1 220 1 (mkRefs [1] [] [] [] []); a_bus 2 220 2 (mkRefs [1] [] [] [] [])] [a_line 1 1 2 false] [] [] [] [].
Lemma pair_wf : wf pair_raw.
Proof. check_wf. Qed.
(** A line between a bus and itself. *)
Definition loop_raw : net := mkNet [a_bus 1 220 1 (mkRefs [1] [] [] [] []); a_bus 2 220 2 (mkRefs [] [] [] [] [])] [a_line 1 1 1 true] [] [] [] [].
