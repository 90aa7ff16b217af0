(** What the joint model should do, in terms of its data and answers. *)
From Coq Require Import List Bool Arith ZArith QArith.
From Verif Require Import Base EnergyTree EnergyTreeSpec EnergyTreeSoC Joint.
From Verif Require Devices Power Hydro.
Import ListNotations.
Open Scope nat_scope.
Open Scope list_scope.

Definition no_level : level := mkLevel 0 [] (Vec []) (Vec []) false.
(** How many times (or how likely) the intervals that lead to node [j] of level [k] occur: the product of their weights. *)
Fixpoint chance (data : list level) (k j : nat) : Q :=
  match k with
  | O => 1
  | S k' => let l := nth k' data no_level in chance data k' (j / lv_names l) * nth (j mod lv_names l) (lv_weights l) 0
  end%Q.
(** The product of the sums of the weights of the levels. *)
Fixpoint volume (data : list level) : Q := match data with [] => 1 | l :: r => fold_right Qplus 0 (lv_weights l) * volume r end%Q.

(** All inputs of vector [x]. *)
Definition supply (data : list level) (inputs : list (list Q)) (x : nat) : Q :=
  let lens := map lv_names data in
  sumf (fun i => sumf (fun j => chance data (1 + i) j * input_of inputs x (node lens (1 + i) j))%Q (width lens (1 + i))) (List.length data).

(** MW of 1 m3/s. *)
Definition per_flow (head eff : Q) : Q := (head * eff * (981 # 100) / 1000)%Q.
(** [q] is [f] of the last of the first [n] units at [node], or 0 without any. *)
Definition takes (l : list nat) (n node : nat) (f : nat -> Q) (q : Q) : Prop :=
  (exists x, x < n /\ nth_error l x = Some node /\ (forall y, x < y < n -> nth_error l y <> Some node) /\ (q == f x)%Q) \/
  ((forall y, y < n -> nth_error l y <> Some node) /\ (q == 0)%Q).

Section Answers.
Variables (K : joint) (s : var -> Q).
Notation W := (q_power K).
Definition step_weight (t : nat) : Q := nth t (Power.m_weights (q_model K)) 0%Q.
(** Sum over the time steps with their weights. *)
Definition over_time (f : nat -> Q) : Q := sumf (fun t => step_weight t * f t)%Q (Power.w_time W).
(** Power of hydropower plant [g] in scenario [h], of any generator, and of a pump. *)
Definition gen_power (h g t : nat) : Q := (base K * s (JNet (Power.NGen (h * Power.n_gen W + g) t)))%Q.
Definition plant_power (h g t : nat) : Q := gen_power h (Power.n_conv W + g) t.
Definition pump_power (h p t : nat) : Q := (base K * s (JNet (Power.NPump (h * (Power.n_pump W + 1) + p + 1) t)))%Q.
(** Costs of plants and farms in a scenario, with the power [p] of the weights of the steps, and what is paid for pumping. *)
Definition unit_costs : list Q := map Devices.pl_cost (Power.w_plants W) ++ map Devices.fa_cost (Power.w_farms W).
Definition costs (p : Z) (h : nat) : Q :=
  sumf (fun t => step_weight t ^ p * sumf (fun g => nth g unit_costs 0 * gen_power h g t) (Power.n_gen W))%Q (Power.w_time W).
Definition income (h : nat) : Q :=
  sumf (fun p => nth p (map Power.pu_value (Power.w_pumps W)) 0 * over_time (pump_power h p))%Q (Power.n_pump W).
End Answers.
