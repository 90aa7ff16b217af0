(** Small models with an answer. *)
From Coq Require Import List Bool Arith ZArith QArith Lia Lqa.
From Verif Require Import Base GraphData Cases Network InputOutput Hydro HydroSpec.
Import ListNotations.
Open Scope nat_scope.
Open Scope list_scope.

(** d ** (5/3), x ** 0.5 and d ** (2/3) at the values used below. *)
Definition p53 (d : Q) : Q := if Qeq_bool d 8 then 32 else 1.
Definition p23 (d : Q) : Q := if Qeq_bool d 8 then 4 else 1.
Definition rt (_ : Q) : Q := 1.

Definition satb (s : var -> Q) (c : constr) : bool := match c with CLe a b => Qle_bool (eval s a) (eval s b) | CEq a b => Qeq_bool (eval s a) (eval s b) end.
Definition check (Y : hydro) (s : var -> Q) : bool := match constraints Y with Ok cs => forallb (satb s) cs | Err _ => false end.
Lemma check_answer Y s : (forall v, 0 <= s v)%Q -> check Y s = true -> answer Y s.
Proof.
  intros N H. split; [auto|]. unfold check in H. destruct (constraints Y) as [cs|]; [|discriminate]. exists cs. split; auto. rewrite forallb_forall in H. apply Forall_forall. intros c I. specialize (H c I). destruct c; cbn in *; [now apply Qle_bool_iff|now apply Qeq_bool_iff].
Qed.

Definition no_model : hydro := mkHydro 0 0 0 0 false 0 0 [] [] [] [] (mkAdj [] [] []) [] [] (mkStorage 0 [] [] []) [] [] [] [] [] RampZeros [] [] [] [] [].
Definition model_of (E : settings) : hydro := match initialise p53 rt p23 E with Ok y => y | Err _ => no_model end.

(** Width, depth from 1 to 8 and a length of 100. *)
Definition bed (a b : nat) (share width : Q) : river := mkRiver a b share 100 1 width 8 1 1.

(** One river, 1 to 32 wide in flow. *)
Definition one_river (feas : bool) (time scen : nat) (ramps : list Q) (n_in : list nat) (us : list unit_) (st : list Q) (incn incs : list nat) (series1 : list Q) : settings :=
  mkSettings [bed 1 2 1 1] [] ramps n_in [2] [] [] us st [(0, 0)] [(0, 0)] scen time feas 10 1 1 [] incn incs series1 [].

(** Three rivers, the first in two parts; a fork at node 2 with a reservoir; pumps from 2 to 1 and from 4. *)
Definition fork : settings :=
  mkSettings [bed 1 2 1 1; bed 2 3 1 1; bed 2 4 3 1] [2; 1; 1] [] [1] [3; 4] [2; 4] [1; 0] [mkUnit 2 1 10; mkUnit 3 1 10] [5; 0]%Q [(0, 0); (1, 0)] [(0, 1); (1, 1)] 2 3 true 10 1 1 [(0, 1, 8%Q)] [] [] [] [].

(** The flow of a river does not change: the content for it. *)
Definition full (Y : hydro) (r : nat) (q : Q) : Q := match nth_error (y_qlin Y) r with Some (k, c) => ((q - c) / k)%Q | None => 0%Q end.
(** Flows 8, 8, 2 and 6, the same at all times in both scenarios; the reservoir holds 5. *)
Definition fork_flow (r : nat) : Q := nth (r mod 4) [8; 8; 2; 6]%Q 0%Q.
Definition fork_answer (v : var) : Q :=
  match v with
  | HIn _ _ => 8
  | HOut i _ => nth (i mod 3) [2; 6; 0]%Q 0
  | HUp r _ | HDown r _ => fork_flow r
  | HSoC r _ => Qabs.Qabs (full (model_of fork) (r mod 4) (fork_flow r))
  | HStor _ _ => 5
  | HFeas _ _ => 0
  | HPenalty => 0
  end%Q.
Lemma fork_checked : initialise p53 rt p23 fork = Ok (model_of fork) /\ answer (model_of fork) fork_answer.
Proof.
  split; [vm_compute; reflexivity|]. apply check_answer; [|vm_compute; reflexivity].
  intros [i t|i t|r t|r t|r t|i t|i t|]; cbn [fork_answer]; try discriminate; try (unfold fork_flow); try (apply Qabs.Qabs_nonneg).
  - pose proof (Nat.mod_upper_bound i 3 ltac:(discriminate)). destruct (i mod 3) as [|[|[|k]]]; [discriminate|discriminate|discriminate|lia].
  - pose proof (Nat.mod_upper_bound r 4 ltac:(discriminate)). destruct (r mod 4) as [|[|[|[|k]]]]; [discriminate|discriminate|discriminate|discriminate|lia].
  - pose proof (Nat.mod_upper_bound r 4 ltac:(discriminate)). destruct (r mod 4) as [|[|[|[|k]]]]; [discriminate|discriminate|discriminate|discriminate|lia].
Qed.

(** One river with flow [q t], slack [e] everywhere and content [c t]; [d t] leaves. *)
Definition river_answer (q d c : nat -> Q) (extra : nat -> nat -> Q) (stor : nat -> nat -> Q) (e pen : Q) (v : var) : Q :=
  match v with
  | HIn i t => extra i t
  | HOut _ t => d t
  | HUp _ t => q t
  | HDown _ t => d t
  | HSoC _ t => c t
  | HStor i t => stor i t
  | HFeas _ _ => e
  | HPenalty => pen
  end.
