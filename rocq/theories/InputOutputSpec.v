(** Vocabulary for the properties of the input and output functions. *)
From Coq Require Import List String Bool Arith ZArith QArith Qabs.
From Verif Require Import Base Container GraphData Cases InputOutput.
Import ListNotations.
Open Scope string_scope.
Open Scope nat_scope.
Open Scope list_scope.

(** [i] is the position of the first entry of [l] that satisfies [P]. *)
Definition first_such {A} (P : A -> Prop) (l : list A) (i : nat) : Prop :=
  (exists a, nth_error l i = Some a /\ P a) /\ forall j a, j < i -> nth_error l j = Some a -> ~ P a.

(** [c] is the cost of the first size of the catalogue equal to [a]. *)
Definition costs_as (cat : catalogue) (a c : Q) : Prop :=
  exists i, first_such (fun x => x == a)%Q (ct_sizes cat) i /\ nth_error (ct_costs cat) i = Some c.

(** Entry of a table per year and scenario. *)
Definition entry {A} (t : table2 A) (y s : nat) : option A := match nth_error t y with Some r => nth_error r s | None => None end.

(** Values of at most 0.0001 count as none. *)
Definition tidied (l l' : list Q) : Prop :=
  Forall2 (fun x x' => (Qabs x <= 1 # 10000 -> x' = 0) /\ (~ Qabs x <= 1 # 10000 -> x' = x))%Q l l'.

(** What the report must say about a path that goes through the scenarios [path]. *)
Definition describes_path (years : nat) (sum_co : Q) (yearly_co : table2 Q) (ci : table2 (list Q)) (sum_ci : Q) (cflex : table2 Q)
    (pflex : table2 (list Q)) (path : list nat) (e : scenario_entry) : Prop :=
  sn_branch e = sum_ci /\ sn_operation e == sum_co /\ sn_total e == sn_branch e + sn_flex e /\
  (exists cs, sn_flex e = qsum cs /\ List.length cs = years /\ forall y s, y < years -> nth_error path y = Some s -> entry cflex y s = nth_error cs y) /\
  List.length (sn_years e) = years /\
  forall y s, y < years -> nth_error path y = Some s -> exists ye, nth_error (sn_years e) y = Some ye /\
    ye_label ye = 2020 + 10 * y /\ entry ci y s = Some (ye_branch ye) /\ (exists l, entry pflex y s = Some l /\ tidied l (ye_flex ye)) /\
    (~ sum_co == 0 -> entry yearly_co y s = Some (ye_operation ye)) /\ (sum_co == 0 -> ye_operation ye = 0%Q).

(** The tables have an entry for every node of the path. *)
Definition known_path (years : nat) (sum_co : Q) (yearly_co : table2 Q) (ci : table2 (list Q)) (cflex : table2 Q) (pflex : table2 (list Q)) (path : list nat) : Prop :=
  forall y, y < years -> exists s c i f, nth_error path y = Some s /\ entry cflex y s = Some c /\ entry ci y s = Some i /\ entry pflex y s = Some f /\
    (~ sum_co == 0 -> exists o, entry yearly_co y s = Some o).

(** Line capacities with a cluster added, in kA at 11 kV. *)
Fixpoint with_cluster (caps c : list Q) : list Q :=
  match caps, c with a :: caps', x :: c' => (a + x / 11)%Q :: with_cluster caps' c' | _, _ => caps end.

(** The search of the script at a node: [found] is the first of the clusters, in order, for which the OPF succeeds on the network
    with it and all clusters before it; capacities count up to equality. *)
Definition search_at (opf : list Q -> bool) (base : list Q) (clusters : list (list Q)) (found : option nat) : Prop :=
  match found with
  | Some k => k < List.length clusters /\ opf (fold_left with_cluster (firstn (S k) clusters) base) = true /\
              forall j, j < k -> opf (fold_left with_cluster (firstn (S j) clusters) base) = false
  | None => forall j, j < List.length clusters -> opf (fold_left with_cluster (firstn (S j) clusters) base) = false
  end.
(** The answer of the OPF depends on the values of the capacities only. *)
Definition respects_values (opf : list Q -> bool) : Prop := forall a b, Forall2 Qeq a b -> opf a = opf b.

(** A list of [n] entries, the i-th of which satisfies [P i]. *)
Definition indexed {A} (n : nat) (l : list A) (P : nat -> A -> Prop) : Prop := List.length l = n /\ forall i a, nth_error l i = Some a -> P i a.

(** No two sizes of the catalogue are equal. *)
Fixpoint distinct_sizes (l : list Q) : Prop := match l with [] => True | x :: r => (forall y, In y r -> ~ (y == x)%Q) /\ distinct_sizes r end.

(** The hourly values of a bus and those at the peak hour. *)
Definition series_of (h : hourly) (ib : nat) (p q u d : list Q) : Prop :=
  nth_error (h_pd h) ib = Some p /\ nth_error (h_qd h) ib = Some q /\ nth_error (h_up h) ib = Some u /\ nth_error (h_dn h) ib = Some d.
