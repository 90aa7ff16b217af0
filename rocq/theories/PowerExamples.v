(** Settings and answers used in the examples and refutations about the network engine. *)
From Coq Require Import List Bool Arith ZArith QArith Lia.
From Verif Require Import Base GraphData Cases Network InputOutput HydroSpec Linear LinearProofs Devices Power PowerSpec PowerTables.
Import ListNotations.
Open Scope nat_scope.
Open Scope list_scope.

(** ** Checking an answer given as a table; the other variables are 0. *)

Definition var_eqb (a b : var) : bool :=
  match a, b with
  | NFlow i t, NFlow j u | NVolt i t, NVolt j u | NLoss i t, NLoss j u | NPump i t, NPump j u | NFea i t, NFea j u | NGCost i t, NGCost j u | NGen i t, NGen j u
  | NStore i t, NStore j u | NServ i t, NServ j u | NBin i t, NBin j u | NMut i t, NMut j u | NMdt i t, NMdt j u => (i =? j) && (t =? u)
  | _, _ => false
  end.
Lemma var_eqb_eq a b : var_eqb a b = true -> a = b.
Proof. destruct a, b; cbn [var_eqb]; intros H; try discriminate; apply andb_prop in H as (H & H'); apply Nat.eqb_eq in H, H'; congruence. Qed.
Definition assign (l : list (var * Q)) (v : var) : Q := match find (fun p => var_eqb v (fst p)) l with Some p => snd p | None => 0%Q end.
Definition satb (s : var -> Q) (c : constr) : bool := match c with CLe a b => Qle_bool (eval s a) (eval s b) | CEq a b => Qeq_bool (eval s a) (eval s b) end.
Definition domainb (v : var) (q : Q) : bool :=
  match v with
  | NFlow _ _ | NVolt _ _ => true
  | NBin _ _ => Qeq_bool q 0 || Qeq_bool q 1
  | NMut _ _ | NMdt _ _ => Qle_bool 0 q && Qle_bool q 1
  | _ => Qle_bool 0 q
  end.
Lemma domainb_ok v q : domainb v q = true -> domain v q.
Proof.
  destruct v; cbn [domainb domain]; intros H; auto; try (now apply Qle_bool_iff).
  - apply orb_prop in H as [H|H]; apply Qeq_bool_iff in H; auto.
  - apply andb_prop in H as (H & H'). split; now apply Qle_bool_iff.
  - apply andb_prop in H as (H & H'). split; now apply Qle_bool_iff.
Qed.
Definition checked (W : power) (M : model) (l : list (var * Q)) : bool :=
  forallb (fun p => domainb (fst p) (snd p)) l && match constraints W M with Ok cs => forallb (satb (assign l)) cs | Err _ => false end.
Lemma check_answer W M l : checked W M l = true -> answer W M (assign l).
Proof.
  unfold checked. intros H. apply andb_prop in H as (D & H). destruct (constraints W M) as [cs|] eqn:E; [|discriminate]. exists cs. split; [exact E|]. rewrite forallb_forall in D, H. split.
  - apply Forall_forall. intros c Ic. specialize (H c Ic). destruct c; cbn [satb sat] in *; [now apply Qle_bool_iff|now apply Qeq_bool_iff].
  - intros v _. unfold assign. destruct (find _ l) as [p|] eqn:F.
    + apply find_some in F as (Ip & Ev). apply var_eqb_eq in Ev. subst v. apply domainb_ok. now apply D.
    + destruct v; cbn [domain]; try (now apply Qle_refl); auto; [left; reflexivity|split; discriminate|split; discriminate].
Qed.

(** ** Settings *)

Definition no_cf (l : list Q) (i : nat) : res (list Q) := Ok l.
Definition plain_conv : conv_settings := mkConv None [false] [0%Q] [] [false] [] [].
Definition plain_hyd : hydro_settings := mkHyd [false] [0%Q] [None] [false].
(** One scenario with one profile of demand; no ancillary services. *)
Definition sample (buses : list bus) (branches : list branch) (flag losses feas : bool) (sec : list nat) (uc : bool) (time : nat) (pieces points : list Q)
    (cv : conv_settings) (ms : list machine) (hs : hydro_settings) (ps : list plant) (pumps : list pump) (demand : list Q) (weights : option (list Q)) : power :=
  mkPower 1 buses branches flag losses feas false sec None None uc time pieces points cv None ms hs ps [] [None] pumps [] 1 None 1 demand 1 None [] weights None 1.
Definition model_of (W : power) : model :=
  match initialise no_cf W with Ok M => M | Err _ => mkModel (mkGrid [] [] [] []) 0 (mkFleet [] [] 0 0 0) [] [] [] 0 [] [] [] [] [] [] 0 0 0 None end.
(** A free machine, and a plant of cost 1. *)
Definition free (bus : nat) (mx mn : Q) : machine := mkMachine bus mx mn (mkCurve true 2 [0; 0; 1; 0]%Q).
Definition hydro (bus : nat) (mx : Q) : plant := mkPlant bus mx 0 1.

(** Three buses in a ring; branch 1 may trip. *)
Definition ring (losses : bool) (sec : list nat) : power :=
  sample [mkBus 10 0 0; mkBus 20 0 0; mkBus 30 0 (5 # 2)] [mkBranch 10 20 0 1 10 0 true; mkBranch 20 30 0 1 10 0 true; mkBranch 10 30 (1 # 10) 1 10 0 true] true losses true sec false 1 [] [0; 5]%Q
    plain_conv [] plain_hyd [hydro 10 5] [mkPump 2 1 0] [1]%Q None.
Definition ring_table : list (var * Q) :=
  [(NGen 0 0, 7 # 2); (NGCost 0 0, 7 # 2); (NVolt 0 0, 2); (NVolt 1 0, 1); (NVolt 3 0, 3); (NFlow 0 0, 1); (NFlow 1 0, 1); (NFlow 2 0, 2); (NFlow 4 0, 3); (NLoss 2 0, 1)]%Q.
Definition ring_answer : var -> Q := assign ring_table.
Lemma ring_checked : initialise no_cf (ring true [1]) = Ok (model_of (ring true [1])) /\ answer (ring true [1]) (model_of (ring true [1])) ring_answer.
Proof. split; [vm_compute; reflexivity|]. apply check_answer. vm_compute. reflexivity. Qed.

(** Two buses and a branch. *)
Definition pair_ (r rate : Q) (status losses feas : bool) (points : list Q) (pumps : list pump) : power :=
  sample [mkBus 1 0 0; mkBus 2 0 1] [mkBranch 1 2 r 1 rate 0 status] true losses feas [] false 1 [] points plain_conv [] plain_hyd [hydro 1 10] pumps [1]%Q None.
(** One bus, no network. *)
Definition spot (feas uc : bool) (time : nat) (pieces : list Q) (cv : conv_settings) (ms : list machine) (hs : hydro_settings) (ps : list plant) (pumps : list pump) (demand : list Q) (weights : option (list Q)) : power :=
  sample [mkBus 1 0 1] [] false false feas [] uc time pieces [] cv ms hs ps pumps demand weights.
