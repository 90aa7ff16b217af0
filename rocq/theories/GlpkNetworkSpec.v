(** What an optimal power flow has to meet, written with the values of the plan. *)
From Coq Require Import List String Bool Arith ZArith QArith.
From Verif Require Import Base GraphData GlpkNetwork.
Import ListNotations.
Open Scope nat_scope.
Open Scope list_scope.

(** A plan gives for every day and time the output and cost of units, the power of pumps and the energy stored, and for every case too the
    flows and losses of lines and the curtailment and angle of buses. *)
Record plan := mkPlan {
  p_gen : kind -> nat -> nat -> nat -> Q; p_cost : kind -> nat -> nat -> nat -> Q; p_store : nat -> nat -> nat -> Q; p_pump : nat -> nat -> nat -> Q;
  p_flow : nat -> nat -> nat -> nat -> Q; p_loss : nat -> nat -> nat -> nat -> Q; p_lc : nat -> nat -> nat -> nat -> Q; p_gc : nat -> nat -> nat -> nat -> Q; p_angle : nat -> nat -> nat -> nat -> Q }.

(** The sum over a list with positions. *)
Definition total {A} (l : list A) (f : nat -> A -> Q) : Q := qsum (map (fun a => f (fst a) (snd a)) (enum l)).

Open Scope Q_scope.

(** Rules of a period. *)
Definition unit_rule (m : nm) (k : kind) (i j n : nat) (u : unit_) (g : Q) : Prop :=
  match k with
  | Thermal => if active m u then un_min u <= g <= un_max u else g == 0
  | Renewable => un_min u <= g <= nm_level m i j n * un_max u
  | Hydro => un_min u <= g <= un_max u
  end.
Record period_rules (m : nm) (p : plan) (i j : nat) : Prop := {
  pr_unit : forall k n u, nth_error (nm_units m k) n = Some u -> unit_rule m k i j n u (p_gen p k i j n);
  (** The cost is above every piece, times the hours. *)
  pr_cost : forall k n u, nth_error (nm_units m k) n = Some u -> 0 <= p_cost p k i j n /\
    forall a b, In (a, b) (un_pieces u) -> nm_hours m j * (a * p_gen p k i j n + b) <= p_cost p k i j n;
  pr_pump : forall n c, nth_error (nm_pumps m) n = Some c -> 0 <= p_pump p i j n <= fst c;
  pr_store : forall n c, nth_error (nm_stores m) n = Some c -> 0 <= p_store p i j n }.

(** What reaches a bus from the units, the storage devices, the pumps, the lines and the curtailment. *)
Definition at_bus (m : nm) (p : plan) (i j : nat) (b : bus) : Q :=
  qsum (map (fun k => total (nm_units m k) (fun n u => if (un_bus u =? bs_no b)%nat then p_gen p k i j n else 0)) kinds).
Definition stored_power (m : nm) (p : plan) (i j : nat) : Q :=
  if (j =? 0)%nat then 0 else total (nm_stores m) (fun n e => e / nm_hours m (j - 1) * (p_store p i j n - p_store p i (j - 1) n)).
Definition pumped (m : nm) (p : plan) (i j : nat) : Q := total (nm_pumps m) (fun n _ => p_pump p i j n).
Definition from_lines (m : nm) (p : plan) (i j k : nat) (b : bus) : Q :=
  total (nm_lines m) (fun n l => (if (ln_to l =? bs_no b)%nat then p_flow p i j k n else 0) - (if (ln_from l =? bs_no b)%nat then p_flow p i j k n else 0)).
(** Half of the losses of every line at the bus. *)
Definition lost (m : nm) (p : plan) (i j k : nat) (b : bus) : Q :=
  total (nm_lines m) (fun n l => (1 # 2) * ((if (ln_from l =? bs_no b)%nat then 1 else 0) + (if (ln_to l =? bs_no b)%nat then 1 else 0)) *
    match nm_losses m with Some _ => p_loss p i j k n | None => ln_loss l end).
Definition curtailed (m : nm) (p : plan) (i j k n : nat) : Q := if nm_feas m then p_lc p i j k n - p_gc p i j k n else 0.
Definition demand (m : nm) (i j n : nat) (b : bus) : Q := bs_demand b * nm_mult m i j n * match nm_perc m with None => 1 | Some q => 1 + q end.

(** Rules of a period and case. *)
Record case_rules (m : nm) (p : plan) (i j k : nat) : Prop := {
  cr_off : forall n l, nth_error (nm_lines m) n = Some l -> ln_on l k = false -> p_flow p i j k n == 0 /\ (nm_losses m <> None -> p_loss p i j k n == 0);
  cr_on : forall n l, nth_error (nm_lines m) n = Some l -> ln_on l k = true ->
    (if Qle_bool (ln_rate l) 0 then p_flow p i j k n == 0 else - ln_rate l <= p_flow p i j k n <= ln_rate l) /\
    p_flow p i j k n == (p_angle p i j k (ln_pf l) - p_angle p i j k (ln_pt l)) / ln_x l;
  cr_loss : forall c n l, nm_losses m = Some c -> nth_error (nm_lines m) n = Some l -> ln_on l k = true -> 0 <= p_loss p i j k n /\
    forall a b, In (a, b) c -> ln_r l * (a + b * p_flow p i j k n) <= p_loss p i j k n /\ ln_r l * (a - b * p_flow p i j k n) <= p_loss p i j k n;
  cr_curtail : nm_feas m = true -> forall n b, nth_error (nm_buses m) n = Some b ->
    (if Qle_bool (bs_demand b) 0 then p_lc p i j k n == 0 else 0 <= p_lc p i j k n <= bs_demand b * nm_mult m i j n) /\
    0 <= p_gc p i j k n /\ ((forall g u, In u (nm_units m g) -> un_bus u <> bs_no b) -> p_gc p i j k n == 0);
  cr_angle : forall n b, nth_error (nm_buses m) n = Some b -> bs_type b = 3%nat -> p_angle p i j k n == 0;
  (** The balance of every bus that is not of type 4. *)
  cr_balance : forall n b, nth_error (nm_buses m) n = Some b -> bs_type b <> 4%nat ->
    at_bus m p i j b + stored_power m p i j + from_lines m p i j k b + curtailed m p i j k n == demand m i j n b + pumped m p i j + lost m p i j k b }.

Definition opf_rules (m : nm) (p : plan) : Prop :=
  forall i j, (i < nm_days m)%nat -> (j < nm_times m)%nat -> period_rules m p i j /\ forall k, (k < cases m)%nat -> case_rules m p i j k.

(** The cost of a plan: the cost of units times the hours, less that of pumps, and curtailment with the penalty. *)
Definition over_periods (m : nm) (f : nat -> nat -> Q) : Q := qsum (map (fun i => qsum (map (f i) (seq 0 (nm_times m)))) (seq 0 (nm_days m))).
Definition plan_cost (m : nm) (p : plan) (w : nat -> Q) (penalty : Q) : Q :=
  over_periods m (fun i j => w i * nm_hours m j *
    (qsum (map (fun k => total (nm_units m k) (fun n _ => p_cost p k i j n)) kinds) - nm_base m * total (nm_pumps m) (fun n c => snd c * p_pump p i j n) +
     (if nm_feas m then penalty * qsum (map (fun k => total (nm_buses m) (fun n _ => p_lc p i j k n + p_gc p i j k n)) (seq 0 (cases m))) else 0))).

Close Scope Q_scope.

(** The tables for a plan. *)
Definition grid (m : nm) (f : nat -> nat -> nat -> Q) (count : nat) (scale : Q) : list (list (list Q)) :=
  map (fun i => map (fun j => map (fun k => (f i j k * scale)%Q) (seq 0 count)) (seq 0 (nm_times m))) (seq 0 (nm_days m)).
Definition grid4 (m : nm) (f : nat -> nat -> nat -> nat -> Q) (count : nat) (scale : Q) : list (list (list (list Q))) :=
  map (fun i => map (fun j => map (fun k => map (fun n => (f i j k n * scale)%Q) (seq 0 count)) (seq 0 (cases m))) (seq 0 (nm_times m))) (seq 0 (nm_days m)).

(** Data the optimal power flow can be built from. *)
Record usable (m : nm) : Prop := {
  us_buses : nm_buses m <> []; us_lines : nm_lines m <> [];
  us_pieces : forall k u, In u (nm_units m k) -> un_pieces u <> [];
  us_losses : nm_losses m <> Some [];
  us_ends : forall l, In l (nm_lines m) -> ln_pf l < List.length (nm_buses m) /\ ln_pt l < List.length (nm_buses m) /\ ln_pf l <> ln_pt l /\ ln_from l <> ln_to l;
  us_x : forall l, In l (nm_lines m) -> ~ (ln_x l == 0)%Q;
  us_hours : nm_stores m <> [] -> forall j, ~ (nm_hours m j == 0)%Q;
  (** There is a line that is not active in every case but the first. *)
  us_conts : 0 < nm_conts m -> 1 < List.length (nm_lines m);
  us_off : forall k, 0 < k < cases m -> exists l, In l (nm_lines m) /\ ln_on l k = false;
  (** No storage device, or a single time, or one device and no contingencies. *)
  us_stores : nm_stores m = [] \/ nm_times m <= 1 \/ (List.length (nm_stores m) = 1 /\ nm_conts m = 0) }.
(** Limits that GLPK takes. *)
Record limits_ok (m : nm) : Prop := {
  li_unit : forall k n u i j, i < nm_days m -> j < nm_times m -> nth_error (nm_units m k) n = Some u ->
    match k with
    | Thermal => active m u = true -> (un_min u <= un_max u)%Q
    | Renewable => (un_min u <= nm_level m i j n * un_max u)%Q
    | Hydro => (un_min u <= un_max u)%Q
    end;
  li_pump : 0 < nm_days m -> 0 < nm_times m -> forall c, In c (nm_pumps m) -> (0 <= fst c)%Q;
  li_mult : nm_feas m = true -> forall n b i j, i < nm_days m -> j < nm_times m -> nth_error (nm_buses m) n = Some b -> (0 < bs_demand b)%Q -> (0 < nm_mult m i j n)%Q }.
