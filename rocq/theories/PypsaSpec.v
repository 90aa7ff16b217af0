(** What is asked from the conversion to pypsa and from the tables of results. *)
From Coq Require Import List String ZArith QArith Bool.
From Verif Require Import Base Pypsa.
Import ListNotations.
Open Scope nat_scope.
Open Scope list_scope.

(** Series of a scenario: a place in the profile with a value for each time. *)
Definition profile (links : list (list nat)) (values : list Q) (n scen time : nat) (o : nat) : Prop :=
  exists l, nth_error links n = Some l /\ nth_error l scen = Some o /\ o + time <= List.length values.

(** Networks whose parts belong together. *)
Definition sound (N : net) (scen : nat) : Prop :=
  NoDup (map b_number (n_bus N)) /\
  (forall g, In g (n_conv N) -> g_pos g < List.length (n_bus N)) /\
  (forall g, In g (n_conv N ++ n_res N) -> g_cost g <> []) /\
  (forall r, In r (n_branch N) -> In (r_from r) (map b_number (n_bus N))) /\
  List.length (n_pd N) = List.length (n_bus N) /\ List.length (n_qd N) = List.length (n_bus N) /\
  (forall n, n < List.length (n_bus N) -> exists o, profile (n_bus_scen N) (n_demand N) n scen (n_time N) o) /\
  (forall n, n < List.length (n_res N) -> exists o, profile (n_res_scen N) (n_wind N) n scen (n_time N) o).

(** The buses are numbered by their positions. *)
Definition in_order (N : net) : Prop := forall i b, nth_error (n_bus N) i = Some b -> b_number b = (Z.of_nat i + 1)%Z.

(** Nominal voltage: 1 when there is none. *)
Definition kv_of (b : bus) : Q := if Qeq_bool (b_kv b) 0 then 1%Q else b_kv b.

(** Two sets of results that only differ in the active power of generators. *)
Definition same_but_p (F F' : frames) : Prop :=
  f_gq F = f_gq F' /\ f_vm F = f_vm F' /\ f_va F = f_va F' /\ f_lp0 F = f_lp0 F' /\ f_lp1 F = f_lp1 F' /\ f_lq0 F = f_lq0 F' /\ f_lq1 F = f_lq1 F' /\
  f_tp0 F = f_tp0 F' /\ f_tp1 F = f_tp1 F' /\ f_tq0 F = f_tq0 F' /\ f_tq1 F = f_tq1 F'.

(** The cost of producing [p] in a time step of weight [w]: the highest of 0
    and the pieces. *)
Definition is_cost (l : list (Q * Q)) (p w c : Q) : Prop :=
  (0 <= c)%Q /\ (forall m1 m2, In (m1, m2) l -> (p * m1 * w + m2 <= c)%Q) /\
  (c = 0%Q \/ exists m1 m2, In (m1, m2) l /\ c = (p * m1 * w + m2)%Q).
