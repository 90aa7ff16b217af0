(** Settings and answers used in the examples and refutations about reports and setters. *)
From Coq Require Import List Bool Arith ZArith QArith Lia.
From Verif Require Import Base GraphData Cases Network InputOutput Linear Devices EnergyTree Joint JointExamples Reports ReportsSpec.
From Verif Require Power PowerExamples Hydro HydroSpec HydroExamples.
Import ListNotations.
Open Scope nat_scope.
Open Scope list_scope.

(** A network of base 10 with one scenario. *)
Definition country (buses : list bus) (branches : list branch) (flag feas : bool) (time : nat) (ps : list plant) (fs : list farm) (pumps : list Power.pump) (demand : list Q) (weights : option (list Q)) : Power.power :=
  Power.mkPower 10 buses branches flag false feas false [] None None false time [] [] PowerExamples.plain_conv None [] PowerExamples.plain_hyd ps fs [None] pumps [] 1 None 1 demand 1 None [] weights None 1.
(** One season, then two equally likely alternatives. *)
Definition fork : list level := [intervals [1%Q] false; intervals [1 # 2; 1 # 2] true].
Definition halves : list Q := [1 # 2; 1 # 2].

(** Two loaded buses, a plant, a pump and a farm; steps of 1 and 3 hours. *)
Definition isle : settings :=
  mkSettings fork (country [mkBus 1 0 10; mkBus 2 0 20] [mkBranch 1 2 0 1 100 0 true] true true 2 [mkPlant 1 50 0 1] [mkFarm 2 1 0] [Power.mkPump 1 10 (1 # 10)] [1; 1; 1; 2]%Q (Some [1; 3]%Q)) None [] [0; 1] 1000%Q.
Definition isle_start : joint := model_of isle.
(** The farm is given its profile. *)
Definition isle_model : joint := match set_res [] [] isle_start 1 [30; 40]%Q with Ok K => K | Err _ => isle_start end.
(** Per scenario and step: plant, farm, pump, curtailment at bus 2, flow. *)
Definition hour (h t : nat) (plant farm pump fea flow : Q) : list (Power.var * Q) :=
  [(Power.NGen (2 * h) t, plant); (Power.NGen (2 * h + 1) t, farm); (Power.NGCost (2 * h) t, plant * 10 * (if t =? 0 then 1 else 3))%Q; (Power.NPump (2 * h + 1) t, pump); (Power.NFea (2 * h + 1) t, fea);
   (Power.NFlow h t, flow); (Power.NVolt (2 * h) t, flow)].
Definition isle_net : list (Power.var * Q) := hour 0 0 3 1 1 0 1 ++ hour 0 1 1 1 0 1 0 ++ hour 1 0 0 3 0 0 (-1) ++ hour 1 1 2 4 0 0 0.
Definition isle_in : list (list Q) := [[0]; [60]; [0]; [0]]%Q.
Definition isle_states : list (list (Q * Q)) := [[(0, 0); (60, 0); (0, 30); (0, 30)]]%Q.
Definition isle_answer : var -> Q := joined [[0]; [0]; [60]; [60]]%Q isle_net [].
Lemma isle_started : start isle = Ok isle_start /\ set_res [] [] isle_start 1 [30; 40]%Q = Ok isle_model.
Proof. split; vm_compute; reflexivity. Qed.
Lemma isle_ready : ready PowerExamples.no_cf HydroExamples.p53 HydroExamples.rt HydroExamples.p23 isle isle_model.
Proof. eapply ready_res; [apply ready_start|]; apply isle_started. Qed.
Lemma isle_checked : answer isle isle_model isle_in (states_of isle_states) isle_answer.
Proof. apply check_answer. vm_compute. reflexivity. Qed.

(** Two loaded buses without network: in the second scenario nothing is generated. *)
Definition spread : settings := mkSettings fork (country [mkBus 1 0 10; mkBus 2 0 10] [] false true 1 [mkPlant 1 50 0 1] [] [] [1; 1]%Q None) None [] [] 1000%Q.
Definition spread_net : list (Power.var * Q) := [(Power.NGen 0 0, 2); (Power.NGCost 0 0, 20); (Power.NFea 1 0, 2)]%Q.
Definition spread_in : list (list Q) := [[0]; [20]; [0]; [0]]%Q.
Definition spread_states : list (list (Q * Q)) := [[(0, 0); (20, 10); (0, 10); (20, 20)]]%Q.
Definition spread_answer : var -> Q := joined [[0]; [0]; [20]; [0]]%Q spread_net [].
Lemma spread_checked : start spread = Ok (model_of spread) /\ answer spread (model_of spread) spread_in (states_of spread_states) spread_answer.
Proof. split; [vm_compute; reflexivity|]. apply check_answer. vm_compute. reflexivity. Qed.

(** Curtailment is switched off and nothing is generated. *)
Definition strict : settings := mkSettings [intervals [1%Q] false] (country [mkBus 1 0 10; mkBus 2 0 20] [mkBranch 1 2 0 1 100 0 true] true false 1 [mkPlant 1 50 0 1] [] [] [1]%Q None) None [] [] 1000%Q.
Definition strict_net : list (Power.var * Q) := [(Power.NFea 0 0, 1); (Power.NFea 1 0, 2)]%Q.
Definition strict_answer : var -> Q := joined [[0]; [0]]%Q strict_net [].
Lemma strict_checked : start strict = Ok (model_of strict) /\ answer strict (model_of strict) [[0]; [0]]%Q (states_of [[(0, 0); (0, 0)]]%Q) strict_answer.
Proof. split; [vm_compute; reflexivity|]. apply check_answer. vm_compute. reflexivity. Qed.

(** A report succeeds with this value. *)
Definition says (r : res Q) (q : Q) : Prop := match r with Ok x => (x == q)%Q | Err _ => False end.
