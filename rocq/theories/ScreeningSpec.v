(** What the screening model should be: a DC power flow for every contingency and time point, with
    investments in branches and load shedding.  Nothing here uses the rules of the model. *)
From Coq Require Import List Bool Arith ZArith QArith Qabs.
From Verif Require Import Base GraphData Screening.
Import ListNotations.
Open Scope nat_scope.

(** Sums over the elements 0..n-1, possibly only those with a property. *)
Definition total (n : nat) (f : nat -> Q) : Q := qsum (map f (seq 0 n)).
Definition total_where (n : nat) (p : nat -> bool) (f : nat -> Q) : Q := qsum (map f (filter p (seq 0 n))).

(** [i] is the first position of [x]. *)
Definition first_at {X} (x : X) (l : list X) (i : nat) : Prop :=
  nth_error l i = Some x /\ forall j, j < i -> nth_error l j <> Some x.

(** Value of a polynomial whose coefficients start with the highest. *)
Definition polynomial (c : list Q) (x : Q) : Q := fold_left (fun acc a => acc * x + a)%Q c 0%Q.

Section Spec.
Variable M : mpc.
Variable A : setup.

(** Branch [b] takes part in contingency [k]; generator [g] runs. *)
Definition in_service (b k : nat) : Prop :=
  (line_status A = true -> nth b (br_status M) 0%Z <> 0%Z) /\ nth b (nth k (cont A) []) 0%Z <> 0%Z.
Definition runs (g : nat) : Prop := gen_status A = true -> nth g (gen_on M) 0%Z <> 0%Z.
(** The reference of the angles: the last bus of type 3. *)
Definition reference (b : nat) : Prop :=
  b < no_bus M /\ nth b (bus_type M) 0%Z = 3%Z /\ forall j, b < j < no_bus M -> nth j (bus_type M) 0%Z <> 3%Z.
(** Demand of a bus: the given peaks, the table of the case without. *)
Definition pd_of (n : nat) : Q := nth n (match peak_p A with [] => bus_pd M | _ => peak_p A end) 0%Q.
Definition qd_of (n : nat) : Q := nth n (match peak_q A with [] => bus_qd M | _ => peak_q A end) 0%Q.
Definition demand_of (n : nat) : Q := (nth n (mult A) 0 * (pd_of n + qd_of n) + nth n (additions A) 0)%Q.
(** The four breakpoints of the cost of a generator, and its cost. *)
Definition breakpoint (g i : nat) : Q := (nth g (pmin M) 0 + inject_Z (Z.of_nat i) * (nth g (pmax M) 0 / 3))%Q.
Definition cost_at (g : nat) (x : Q) : Q := polynomial (nth g (gc_cost M) []) x.

Variable s : var -> Q.
(** Sum of the flows of the branches that leave, or enter, the bus named [z]. *)
Definition leaving (z : Z) (k t : nat) : Q := total_where (no_branch M) (fun b => Z.eqb (nth b (f_bus M) 0%Z) z) (fun b => s (Pbra b k t)).
Definition entering (z : Z) (k t : nat) : Q := total_where (no_branch M) (fun b => Z.eqb (nth b (t_bus M) 0%Z) z) (fun b => s (Pbra b k t)).
Definition generated (z : Z) (k t : nat) : Q := total_where (no_gen M) (fun g => Z.eqb (nth g (gen_bus M) 0%Z) z) (fun g => s (Pgen g k t)).

(** An operation of the network in contingency [k] at time point [t]. *)
Record operation (two_pi : Q) (k t : nat) : Prop := {
  op_gen : forall g, g < no_gen M -> (0 <= s (Pgen g k t))%Q;
  op_on : forall g, g < no_gen M -> runs g -> (nth g (pmin M) 0 <= s (Pgen g k t))%Q /\
    exists n, first_at (nth g (gen_bus M) 0%Z) (bus_i M) n /\ (s (Pgen g k t) <= nth n (mult A) 0 * nth g (pmax M) 0)%Q;
  op_off : forall g, g < no_gen M -> ~ runs g -> (s (Pgen g k t) == 0)%Q;
  op_cost : forall g, g < no_gen M -> (0 <= s (Cgen g k t))%Q;
  (* above the three secants: C * (x1 - x0) >= y0 * (x1 - P) + y1 * (P - x0) *)
  op_secants : forall g i, g < no_gen M -> (0 < nth g (pmax M) 0)%Q -> i < 3 ->
    (cost_at g (breakpoint g i) * (breakpoint g (S i) - s (Pgen g k t)) + cost_at g (breakpoint g (S i)) * (s (Pgen g k t) - breakpoint g i)
       <= s (Cgen g k t) * (nth g (pmax M) 0 / 3))%Q;
  op_flow : forall b, b < no_branch M -> in_service b k -> exists f n, first_at (nth b (f_bus M) 0%Z) (bus_i M) f /\ first_at (nth b (t_bus M) 0%Z) (bus_i M) n /\
    (s (Pbra b k t) * nth b (br_x M) 0 == m_base M * (s (Ang f k t) - s (Ang n k t)))%Q;
  op_out : forall b, b < no_branch M -> ~ in_service b k -> (s (Pbra b k t) == 0)%Q;
  (* no limit where RATE_A is zero; earlier investments only count in one direction *)
  op_rate : forall b, b < no_branch M -> in_service b k -> ~ (nth b (rate_a M) 0 == 0)%Q ->
    (s (Pbra b k t) <= nth b (rate_a M) 0 + nth b (prev A) 0 + s (ICbra b t))%Q /\ (- s (Pbra b k t) <= nth b (rate_a M) 0 + s (ICbra b t))%Q;
  op_reference : exists b, reference b /\ (s (Ang b k t) == 0)%Q;
  op_angle : forall n, n < no_bus M -> (- two_pi <= s (Ang n k t) <= two_pi)%Q;
  op_balance : forall n, n < no_bus M ->
    (generated (nth n (bus_i M) 0%Z) k t + entering (nth n (bus_i M) 0%Z) k t + s (Plc n k t) == leaving (nth n (bus_i M) 0%Z) k t + demand_of n)%Q;
  op_shed : forall n, n < no_bus M -> (0 <= s (Plc n k t) <= nth n (mult A) 0 * Qabs (pd_of n))%Q }.

(** Operations for all contingencies and time points that share the investments. *)
Definition plan (two_pi : Q) : Prop :=
  (forall b t, b < no_branch M -> t < no_time A -> (0 <= s (ICbra b t))%Q) /\
  forall k t, k < List.length (cont A) -> t < no_time A -> operation two_pi k t.

(** Cost of a plan: investments, generation without contingency, shed load. *)
Definition plan_cost : Q :=
  (cicost A * total (no_branch M) (fun b => total (no_time A) (fun t => s (ICbra b t))) +
   total (no_gen M) (fun g => total (no_time A) (fun t => s (Cgen g 0 t))) +
   penalty A * total (no_bus M) (fun n => total (List.length (cont A)) (fun k => total (no_time A) (fun t => s (Plc n k t)))))%Q.
End Spec.

(** Every row of coefficients has the length it announces. *)
Definition costs_match (M : mpc) : Prop := forall g, g < no_gen M -> List.length (nth g (gc_cost M) []) = nth g (gc_ncost M) 0.

(** Tables that belong together. *)
Record well_formed (M : mpc) (A : setup) : Prop := {
  wf_bus : 0 < no_bus M; wf_branch : 0 < no_branch M; wf_gen : 0 < no_gen M;
  wf_type : List.length (bus_type M) = no_bus M; wf_pd : List.length (bus_pd M) = no_bus M; wf_qd : List.length (bus_qd M) = no_bus M;
  wf_t : List.length (t_bus M) = no_branch M; wf_x : List.length (br_x M) = no_branch M; wf_rate : List.length (rate_a M) = no_branch M;
  wf_status : List.length (br_status M) = no_branch M;
  wf_pmax : List.length (pmax M) = no_gen M; wf_pmin : List.length (pmin M) = no_gen M; wf_on : List.length (gen_on M) = no_gen M;
  wf_model : gc_model M = repeat 2%Z (no_gen M); wf_ncost : List.length (gc_ncost M) = no_gen M; wf_cost : List.length (gc_cost M) = no_gen M;
  wf_terms : forall g, g < no_gen M -> 0 < nth g (gc_ncost M) 0 /\ List.length (nth g (gc_cost M) []) = nth g (gc_ncost M) 0;
  wf_base : ~ (m_base M == 0)%Q; wf_reactance : forall b, b < no_branch M -> ~ (nth b (br_x M) 0 == 0)%Q;
  wf_from : forall z, In z (f_bus M) -> In z (bus_i M); wf_to : forall z, In z (t_bus M) -> In z (bus_i M); wf_at : forall z, In z (gen_bus M) -> In z (bus_i M);
  wf_reference : In 3%Z (bus_type M);
  wf_cont : Forall (fun row => List.length row = no_branch M) (cont A);
  wf_prev : List.length (prev A) = no_branch M; wf_mult : List.length (mult A) = no_bus M; wf_additions : List.length (additions A) = no_bus M;
  wf_peak_p : peak_p A = [] \/ List.length (peak_p A) = no_bus M; wf_peak_q : peak_q A = [] \/ List.length (peak_q A) = no_bus M }.

(** The same network with the ends of some branches exchanged, and the same answer seen from there. *)
Definition flip (F : nat -> bool) (M : mpc) : mpc :=
  mkMPC (m_base M) (bus_i M) (bus_type M) (bus_pd M) (bus_qd M)
    (map (fun b => if F b then nth b (t_bus M) 0%Z else nth b (f_bus M) 0%Z) (seq 0 (no_branch M)))
    (map (fun b => if F b then nth b (f_bus M) 0%Z else nth b (t_bus M) 0%Z) (seq 0 (no_branch M)))
    (br_x M) (rate_a M) (br_status M) (gen_bus M) (pmax M) (pmin M) (gen_on M) (gc_model M) (gc_ncost M) (gc_cost M).
Definition flip_answer (F : nat -> bool) (s : var -> Q) (v : var) : Q :=
  match v with Pbra b k t => if F b then (- s v)%Q else s v | _ => s v end.

(** Other previous investments, other contingencies, and an answer without investments. *)
Definition with_prev (A : setup) (p : list Q) : setup :=
  mkSetup (gen_status A) (line_status A) (cicost A) (penalty A) (cont A) p (peak_p A) (peak_q A) (mult A) (additions A) (no_time A).
Definition with_cont (A : setup) (c : list (list Z)) : setup :=
  mkSetup (gen_status A) (line_status A) (cicost A) (penalty A) c (prev A) (peak_p A) (peak_q A) (mult A) (additions A) (no_time A).
Definition no_invest (s : var -> Q) (v : var) : Q := match v with ICbra _ _ => 0%Q | _ => s v end.

(** The cheapest feasible answers. *)
Definition optimal (M : mpc) (A : setup) (two_pi : Q) (s : var -> Q) : Prop :=
  feasible M A two_pi s /\ exists e, objective M A = Ok e /\ forall s', feasible M A two_pi s' -> (eval s e <= eval s' e)%Q.
