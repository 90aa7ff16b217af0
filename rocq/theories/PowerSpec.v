(** What the properties of the network engine say, in terms of the settings and of an assignment of the variables. *)
From Coq Require Import List Bool Arith ZArith QArith.
From Verif Require Import Base GraphData HydroSpec Devices Power.
Import ListNotations.
Open Scope nat_scope.
Open Scope list_scope.

(** Position [n] is the first with bus number [b]. *)
Definition first_at (numbers : list nat) (b n : nat) : bool :=
  match nth_error numbers n with Some x => (x =? b) && negb (existsb (Nat.eqb b) (firstn n numbers)) | None => false end.
(** Sum of [f i] over the members of [l], bus numbers, that are at position [n]. *)
Definition at_bus (numbers l : list nat) (n : nat) (f : nat -> Q) : Q := below (List.length l) (fun i => if first_at numbers (nth i l 0) n then f i else 0%Q).

(** Number of the flow of branch [b] (from 0) in security case [xs]: case 0 is the intact network, case [k+1] trips
    branch number [sec_k] (from 1). *)
Definition flow_index (n : nat) (sec : list nat) (xs b : nat) : option nat :=
  match xs with
  | O => Some b
  | S k => match nth_error sec k with
           | Some x => if S b =? x then None else Some (n + k * (n - 1) + (if x <=? b then b - 1 else b))
           | None => None
           end
  end.
Definition branch_numbers (n : nat) (sec : list nat) : Prop := Forall (fun x => 1 <= x <= n) sec.

(** The generators in order: their buses, capacities, least outputs. *)
Definition gen_buses (W : power) : list nat := map ma_bus (w_machines W) ++ map pl_bus (w_plants W) ++ map fa_bus (w_farms W).
Definition gen_tops (W : power) : list Q := map ma_max (w_machines W) ++ map pl_max (w_plants W) ++ map fa_max (w_farms W).
Definition gen_lows (W : power) : list Q := map ma_min (w_machines W) ++ map pl_min (w_plants W) ++ map (fun _ => 0%Q) (w_farms W).

(** Names of variables, on the base. *)
Definition output (W : power) (s : var -> Q) (h t g : nat) : Q := s (NGen (h * n_gen W + g) t).
Definition flow (W : power) (s : var -> Q) (h t xs b : nat) : Q :=
  match flow_index (n_bra W) (w_security W) xs b with
  | Some i => s (NFlow (h * (n_bra W + (n_bra W - 1) * List.length (w_security W)) + i) t)
  | None => 0%Q
  end.
Definition angle (W : power) (s : var -> Q) (h t xs n : nat) : Q :=
  s (NVolt (h * (n_bus W * (1 + List.length (w_security W))) + (xs * n_bus W + n)) t).
Definition lost (W : power) (s : var -> Q) (h t b : nat) : Q := s (NLoss (h * n_bra W + b) t).
(** Curtailment at a bus: the buses with positive demand are numbered in order. *)
Definition loaded (W : power) : list bool := map (fun b => negb (Qle_bool (b_pd b) 0)) (w_buses W).
Definition count (l : list bool) : nat := List.length (filter (fun b => b) l).
Definition curtailed (W : power) (s : var -> Q) (h t n : nat) : Q :=
  if nth n (loaded W) false then s (NFea (h * count (loaded W) + count (firstn n (loaded W))) t) else 0%Q.
(** The last pump whose bus is [n + 1]; bus 0 is the last one. *)
Definition at_row (size bus n : nat) : bool := (bus =? S n) || ((bus =? 0) && (S n =? size)).
Definition pump_at (W : power) (n : nat) : option nat := find (fun p => at_row (n_bus W) (nth p (map pu_bus (w_pumps W)) 0) n) (rev (seq 0 (n_pump W))).
Definition pump_power (W : power) (s : var -> Q) (h t p : nat) : Q := s (NPump (h * (n_pump W + 1) + p + 1) t).
Definition pumped (W : power) (s : var -> Q) (h t n : nat) : Q := match pump_at W n with Some p => pump_power W s h t p | None => 0%Q end.
(** Load of a bus at a time: its constant demand and losses times the value of its profile. *)
Definition profile_at (W : power) (n t h : nat) (d : Q) : Prop :=
  if w_nodem W =? 0 then nth_error (w_demand W) 0 = Some d
  else exists l, nth_error (match w_links W with Some ls => ls | None => flat_map (fun h => repeat (S h) (n_bus W)) (seq 0 (w_scen W)) end) (h * n_bus W + n) = Some l
    /\ py_index (w_demand W) ((Z.of_nat l - 1) * Z.of_nat (w_time W) + Z.of_nat t) = Ok d.
Definition load_at (W : power) (n t h : nat) (q : Q) : Prop :=
  exists b d, nth_error (w_buses W) n = Some b /\ profile_at W n t h d /\ (q == (b_loss b + b_pd b) / w_base W * d)%Q.
(** 1 + settings['Loss'] *)
Definition extra (W : power) : Q := match w_loss W with Some l => (1 + l)%Q | None => 1%Q end.
(** Losses of a branch: estimated by the model (those of the intact network), or the fixed ones of the branches in service. *)
Definition branch_loss (W : power) (s : var -> Q) (h t xs b : nat) : Q :=
  if w_losses W then lost W s h t b
  else match flow_index (n_bra W) (w_security W) xs b with
       | Some _ => (nth b (map br_loss (w_branches W)) 0 / w_base W)%Q
       | None => 0%Q
       end.
(** Factor of the loads. *)
Definition load_factor (W : power) : Q := if w_flag W && w_losses W then 1%Q else extra W.
Definition froms (W : power) : list nat := map br_from (w_branches W).
Definition tos (W : power) : list nat := map br_to (w_branches W).
(** Generation and flows at bus [n] against its load [q]. *)
Definition balanced (W : power) (s : var -> Q) (h t xs n : nat) (q : Q) : Prop :=
  (at_bus (numbers W) (gen_buses W) n (output W s h t)
   + (at_bus (numbers W) (tos W) n (flow W s h t xs) - at_bus (numbers W) (froms W) n (flow W s h t xs))
   - (1 # 2) * (at_bus (numbers W) (tos W) n (branch_loss W s h t xs) + at_bus (numbers W) (froms W) n (branch_loss W s h t xs))
   + curtailed W s h t n == load_factor W * q + pumped W s h t n)%Q.

(** ** Settings of one generator *)

(** One value for all or one for each. *)
Definition one_or_each {A} (l : list A) (i : nat) : option A := match l with [a] => Some a | _ => nth_error l i end.
Definition top (W : power) (g : nat) : Q := nth g (gen_tops W) 0%Q.
Definition low (W : power) (g : nat) : Q := nth g (gen_lows W) 0%Q.
(** Ramp of a conventional or hydropower unit. *)
Definition ramp_setting (W : power) (g : nat) (r : Q) : Prop :=
  if g <? n_conv W then
    match cv_ramp (w_conv W) with [] => exists c, w_column W = Some c /\ nth_error c g = Some r | l => one_or_each l g = Some (Some r) end
  else one_or_each (hs_ramp (w_hyd W)) (g - n_conv W) = Some (Some r).
Definition base_setting (W : power) (g : nat) (b : Q) : Prop :=
  if g <? n_conv W then one_or_each (cv_base (w_conv W)) g = Some b else one_or_each (hs_base (w_hyd W)) (g - n_conv W) = Some b.
(** Minimum up or down time of a conventional unit. *)
Definition time_setting (l : list (option nat)) (g : nat) : option nat := match one_or_each l g with Some (Some k) => Some k | _ => None end.
(** Units that can be switched: conventional or hydropower, with positive capacity and least output; they are numbered in
    order. *)
Definition switched (W : power) (g : nat) : bool := (g <? n_conv W + n_hyd W) && negb (Qle_bool (top W g) 0) && negb (Qle_bool (low W g) 0).
Definition switch_no (W : power) (g : nat) : nat := count (map (switched W) (seq 0 g)).
Definition on (W : power) (s : var -> Q) (h t g : nat) : Q := s (NBin (h * n_gen W + switch_no W g) t).
(** Weight of a time step. *)
Definition weight (W : power) (t : nat) (w : Q) : Prop := match w_weights W with Some l => nth_error l t = Some w | None => w = 1%Q end.
(** Output in the units of the settings. *)
Definition power_of (W : power) (s : var -> Q) (h t g : nat) : Q := (output W s h t g * w_base W)%Q.
Definition cost_of (W : power) (s : var -> Q) (h t g : nat) : Q := s (NGCost (h * n_gen W + g) t).
(** Profile of a farm. *)
Definition farm_profile (W : power) (r t h : nat) (q : Q) : Prop :=
  exists l, (if w_nores W =? 1 then l = 1
             else nth_error (match w_links_res W with Some ls => ls | None => flat_map (fun h => repeat (S h) (n_ren W)) (seq 0 (w_scen W)) end) (h * n_ren W + r) = Some l)
    /\ py_index (w_profile W) ((Z.of_nat l - 1) * Z.of_nat (w_time W) + Z.of_nat t) = Ok q.
