(** Vocabulary for the properties of the investment-planning entry point. *)
From Coq Require Import List String Ascii Bool Arith ZArith QArith Qabs.
From Verif Require Import Base Graph GraphData Reader NumeralSpec Cases.
Import ListNotations.
Open Scope nat_scope.
Open Scope list_scope.

(** Growth compounded over consecutive years at a yearly rate in percent. *)
Fixpoint compounded (g : Z -> Q) (y : Z) (later : list Z) : Q :=
  match later with
  | [] => 1%Q
  | y' :: r => ((1 + g y' * (inject_Z (y' - y) / 100)) * compounded g y' r)%Q
  end.

(** [l] has [n] entries, equally spaced from [a] to [b] (only [a] if [n] is 1). *)
Definition evenly (n : nat) (a b : Q) (l : list Q) : Prop :=
  List.length l = n /\
  forall k v, nth_error l k = Some v -> (v == a + inject_Z (Z.of_nat k) * ((b - a) / inject_Z (Z.of_nat n - 1)))%Q.

(** [r] is the least size of a catalogue that is not below [v]. *)
Definition least_sufficient (cat : list Q) (v r : Q) : Prop :=
  In r cat /\ (v <= r)%Q /\ forall c, In c cat -> (v <= c)%Q -> (r <= c)%Q.

(** Pointwise comparison of clusters. *)
Definition below (a b : list Q) : Prop := Forall2 Qle a b.

(** The size [r] proposed for a branch of a given tap whose reinforcement is [v]: nothing changes
    without reinforcement. *)
Definition rounded (cat : list Q * list Q) (tap v r : Q) : Prop :=
  ((v <= 0)%Q -> r = v) /\ ((0 < v)%Q -> least_sufficient (if Qeq_bool tap 0 then fst cat else snd cat) v r).

(** A reinforcement no catalogue size covers. *)
Definition oversized (cat : list Q * list Q) (tap v : Q) : Prop :=
  (0 < v)%Q /\ forall c, In c (if Qeq_bool tap 0 then fst cat else snd cat) -> (c < v)%Q.

(** Equality of clusters as lists of numbers. *)
Definition same_cluster (a b : list Q) : Prop := Forall2 Qeq a b.

(** A cluster that reinforces something. *)
Definition reinforces (c : list Q) : Prop := exists v, In v c /\ (0 < v)%Q.

(** The rows of the planner input: scenario s reads at stage y node s / 2^(n-1-y), for all buses
    with active demand. *)
Definition expected_rows (pd qd : list Q) (yrs : list Z) (multiplier : list (list Q)) : list brow :=
  let n := List.length yrs in
  flat_map (fun s => flat_map (fun y => map (fun b =>
      let f := nth (s / 2 ^ (n - 1 - y)) (nth y multiplier []) 0%Q in
      mkB (Z.of_nat s + 1) (nth y yrs 0%Z) b (nth b pd 0 * f)%Q (nth b qd 0 * f)%Q)
    (filter (fun b => negb (Qeq_bool (nth b pd 0%Q) 0)) (seq 0 (List.length pd)))) (seq 0 n)) (seq 0 (2 ^ (n - 1))).

(** Distance of a cost from an ideal cost. *)
Definition dist (ideal : Q) (c : Q) : Q := Qabs (ideal - c).

(** The first of the positions not [taken] at least distance from the ideal cost. *)
Definition first_nearest (ideal : Q) (costs : list Q) (taken : list nat) (x : nat) : Prop :=
  exists c, nth_error costs x = Some c /\ ~ In x taken /\
  forall x' c', nth_error costs x' = Some c' -> ~ In x' taken ->
    (dist ideal c <= dist ideal c')%Q /\ ((x' < x)%nat -> dist ideal c < dist ideal c')%Q.

(** One position per ideal cost, none taken twice. *)
Fixpoint picks (costs : list Q) (taken : list nat) (ideals : list Q) (xs : list nat) : Prop :=
  match ideals, xs with
  | [], [] => True
  | i :: r, x :: t => first_nearest i costs taken x /\ picks costs (x :: taken) r t
  | _, _ => False
  end.

(** [x] is the position in the catalogue of the size of branch [b] of cluster [c]. *)
Definition takes (cat c : list Q) (b x : nat) : Prop :=
  (exists s, nth_error cat x = Some s /\ (nth b c 0 == s)%Q) /\ forall y s, y < x -> nth_error cat y = Some s -> ~ (nth b c 0 == s)%Q.

(** The branches a cluster reinforces. *)
Definition reinforced (c : list Q) : list nat := filter (fun b => negb (Qle_bool (nth b c 0%Q) 0)) (seq 0 (List.length c)).

(** The cost of a cluster: sum of the costs of the sizes of its branches, per unit of length. *)
Definition costs_of (cat cost : list Q) (c : list Q) (q : Q) : Prop :=
  exists xs, Forall2 (takes cat c) (reinforced c) xs /\ (q == qsum (map (fun x => nth x cost 0%Q) xs))%Q.

(** Sum of two lists of investments. *)
Definition plus_list (a b : list Q) : list Q := map (fun ab => (fst ab + snd ab)%Q) (combine a b).

(** Clusters with one entry per branch. *)
Definition rectangular (n : nat) (l : list (list Q)) : Prop := Forall (fun c => List.length c = n) l.

(** Clusters that can all be compared branch by branch. *)
Definition chain (l : list (list Q)) : Prop := forall a b, In a l -> In b l -> below a b \/ below b a.

(** Every reinforcement of the cluster is a size of the catalogue. *)
Definition listed (cat : list Q) (c : list Q) : Prop := forall v, In v c -> (0 < v)%Q -> exists s, In s cat /\ (v == s)%Q.

(** Investments assumed built after the years in [recs]: those of the last scenario of each. *)
Definition built (start : list Q) (recs : list (list (list Q * list Q))) : list Q :=
  fold_left (fun prev rs => plus_list (fst (last rs ([], []))) prev) recs start.

(** A text with numbers given by their decimal digits, between pieces without digits. *)
Fixpoint text_of (sep : list ascii) (l : list (list nat)) : list ascii :=
  match l with
  | [] => sep
  | ds :: r => sep ++ map digit_char ds ++ text_of sep r
  end.

(** The investment option of a cluster: its branches counted from one, the catalogue size
    [oversize] places above the one needed, and costs per length times lengths. *)
Definition option_for (cat cost lengths : list Q) (oversize : nat) (c : list Q) (o : option_row) : Prop :=
  exists xs, Forall2 (takes cat c) (reinforced c) xs /\
    op_elements o = map S (reinforced c) /\
    op_capacity o = map (fun x => nth (x + oversize) cat 0%Q) xs /\
    (op_cost o == qsum (map (fun bx => nth (snd bx + oversize) cost 0 * nth (fst bx) lengths 0)%Q (combine (reinforced c) xs)))%Q.
