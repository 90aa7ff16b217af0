(** What the reports of the joint model should say. *)
From Coq Require Import List Bool Arith ZArith QArith.
From Verif Require Import Base Cases GraphData HydroSpec Joint JointSpec Reports.
From Verif Require Power PowerSpec.
Import ListNotations.
Open Scope nat_scope.
Open Scope list_scope.

Section Reports.
Variables (K : joint) (f : list Q) (o : options).
Notation W := (q_power K).
(** The steps and scenarios that are asked for: all unless some are named. *)
Definition steps : list nat := match o_times o with Some l => l | None => seq 0 (Power.w_time W) end.
Definition scens : list nat := match o_scens o with Some l => l | None => seq 0 (q_number K) end.
(** Their weights; a snapshot has none. *)
Definition step_share (t : nat) : Q := if o_snapshot o then 1%Q else step_weight K t.
Definition scen_share (h : nat) : Q := if o_snapshot o then 1%Q else nth h f 0%Q.
(** The sum of [g] over scenarios and steps, with the weights of both or only of the scenarios. *)
Definition expected (g : nat -> nat -> Q) : Q := qsum (map (fun h => scen_share h * qsum (map (fun t => step_share t * g h t)%Q steps))%Q scens).
Definition unweighted (g : nat -> nat -> Q) : Q := qsum (map (fun h => scen_share h * qsum (map (g h) steps))%Q scens).
(** Energy of power on the base. *)
Definition energy (g : nat -> nat -> Q) : Q := expected (fun h t => Power.w_base W * g h t)%Q.
(** They exist and have weights. *)
Definition askable : Prop :=
  Forall (fun t => t < Power.w_time W) steps /\ Forall (fun h => h < q_number K) scens /\
  (o_snapshot o = false -> q_number K <= List.length f /\ Power.w_time W <= List.length (Power.m_weights (q_model K))).
Definition each (P : nat -> nat -> Prop) : Prop := forall h t, In h scens -> In t steps -> P h t.
End Reports.

(** The models after initialise and any number of changes to demand, renewable generation and lines. *)
Section Ready.
Variables (cf : list Q -> nat -> res (list Q)) (pow53 root pow23 : Q -> Q) (J : settings).
Inductive ready : joint -> Prop :=
| ready_start K : initialise cf pow53 root pow23 J = Ok K -> ready K
| ready_demand K K' index value : ready K -> set_demand K index value = Ok K' -> ready K'
| ready_res rows series K K' index value : ready K -> set_res rows series K index value = Ok K' -> ready K'
| ready_lines K K' k index value : ready K -> set_lines K k index value = Ok K' -> ready K'.
End Ready.

(** The settings of the loads are urban or rural, and no single one. *)
Definition typed (n : nat) (types : list nat) : Prop := types <> [1] /\ List.length types <= n /\ Forall (fun a => a <= 1) types.
(** The type of the load at bus [n]. *)
Definition is_rural (types : list nat) (n : nat) : bool := match types with [_] => false | _ => nth n types 0 =? 1 end.
(** No two pumps at the same bus. *)
Definition apart (W : Power.power) : Prop :=
  forall p q n, p < q < Power.n_pump W -> PowerSpec.at_row (Power.n_bus W) (nth p (map Power.pu_bus (Power.w_pumps W)) 0) n = true ->
    PowerSpec.at_row (Power.n_bus W) (nth q (map Power.pu_bus (Power.w_pumps W)) 0) n = false.

(** The reports about one unit. *)
Inductive report := RGeneration (g : nat) | RPump (p : nat) | RDemand (bus : nat) | RCurtailment (n : nat) | RSpilled (r : nat) | RCost (g : nat).
Definition ask (K : joint) (f : list Q) (s : var -> Q) (r : report) (o : options) : res Q :=
  match r with
  | RGeneration g => get_generation K f s g o
  | RPump p => get_pump K f s p o
  | RDemand b => get_demand K f b o
  | RCurtailment n => get_curtailment K f s n o
  | RSpilled r => get_res K f s r o
  | RCost g => of_part K f s g o
  end.

(** All settings of the network but the lines, the demand and the renewable generation. *)
Definition same_network (W W' : Power.power) : Prop :=
  Power.w_base W' = Power.w_base W /\ Power.w_buses W' = Power.w_buses W /\ Power.w_flag W' = Power.w_flag W /\ Power.w_losses W' = Power.w_losses W /\ Power.w_feas W' = Power.w_feas W /\
  Power.w_secflag W' = Power.w_secflag W /\ Power.w_security W' = Power.w_security W /\ Power.w_loss W' = Power.w_loss W /\ Power.w_anc W' = Power.w_anc W /\ Power.w_uc W' = Power.w_uc W /\ Power.w_time W' = Power.w_time W /\
  Power.w_pieces W' = Power.w_pieces W /\ Power.w_points W' = Power.w_points W /\ Power.w_conv W' = Power.w_conv W /\ Power.w_column W' = Power.w_column W /\ Power.w_machines W' = Power.w_machines W /\ Power.w_hyd W' = Power.w_hyd W /\
  Power.w_plants W' = Power.w_plants W /\ Power.w_farms W' = Power.w_farms W /\ Power.w_unc W' = Power.w_unc W /\ Power.w_pumps W' = Power.w_pumps W /\ Power.w_stores W' = Power.w_stores W /\ Power.w_scen W' = Power.w_scen W /\
  Power.w_links W' = Power.w_links W /\ Power.w_nodem W' = Power.w_nodem W /\ Power.w_nores W' = Power.w_nores W /\ Power.w_links_res W' = Power.w_links_res W /\ Power.w_weights W' = Power.w_weights W /\ Power.w_cool W' = Power.w_cool W /\
  Power.w_noh W' = Power.w_noh W.
(** All of the joint model but the network. *)
Definition same_rest (K K' : joint) : Prop :=
  q_energy K' = q_energy K /\ q_first K' = q_first K /\ q_number K' = q_number K /\ q_water K' = q_water K /\ q_hin K' = q_hin K /\ q_down K' = q_down K /\ q_hout K' = q_hout K /\ q_pout K' = q_pout K.
(** The value of profile [i] (from 0) at step [t]. *)
Definition profile_value (l : list Q) (time i t : nat) : option Q := nth_error l (i * time + t).
