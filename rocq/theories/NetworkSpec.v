(** Specification vocabulary for the network: cells, lines, and the physical meaning of a
    reinforcement, independent of how PandaPowerManager computes it. *)
From Coq Require Import List String Bool ZArith QArith.
From Verif Require Import Base Container Network.
Import ListNotations.
Open Scope string_scope.
Open Scope nat_scope.
Open Scope list_scope.

(** The cell of table [t] in row [l] and column [c], if there is one. *)
Definition cell (n : network) (t : string) (l : Z) (c : string) : option val :=
  match d_get t (n_tables n) with
  | Some tb => if in_dec Z.eq_dec l (t_index tb) then
                 if in_dec string_dec c (t_cols tb) then Some (t_cell tb l c) else None
               else None
  | None => None
  end.

(** Row labels and columns of a table. *)
Definition shape (n : network) (t : string) : option (list Z * list string) :=
  option_map (fun tb => (t_index tb, t_cols tb)) (d_get t (n_tables n)).

(** Equal cells, numbers up to [==]. *)
Definition val_eq (a b : val) : Prop :=
  match a, b with VQ x, VQ y => (x == y)%Q | _, _ => a = b end.
Definition cell_eq (a b : option val) : Prop :=
  match a, b with Some x, Some y => val_eq x y | None, None => True | _, _ => False end.

(** The same network: tables, labels, columns, cells, controllers. *)
Definition net_eq (n n' : network) : Prop :=
  (forall t, shape n t = shape n' t) /\ (forall t l c, cell_eq (cell n t l c) (cell n' t l c)) /\ n_ctrl n = n_ctrl n'.

(** Line [l] starts at a bus of voltage [v] kV and has rating [i] kA, resistance [r] and
    reactance [x]. *)
Definition line_data (n : network) (l : Z) (v i r x : Q) : Prop :=
  cell n "line" l "max_i_ka" = Some (VQ i) /\ cell n "line" l "r_ohm_per_km" = Some (VQ r) /\
  cell n "line" l "x_ohm_per_km" = Some (VQ x) /\
  (exists s, cell n "line" l "in_service" = Some s) /\
  exists b, cell n "line" l "from_bus" = Some (VZ b) /\ cell n "bus" b "vn_kv" = Some (VQ v).

(** What a list of updates asks for: pairs of a line and a capacity in MW.  The positions of a
    cluster count from one (finding C46). *)
Definition targets (u : update) : list (Z * Q) :=
  match u_pos u, u_cap u with
  | PInt p, CNum c => [(p, c)]
  | PList ps, CList cs => combine (map (fun p => p - 1)%Z ps) cs
  | _, _ => []
  end.

(** A well-formed reinforcement of lines. *)
Definition line_update (u : update) : Prop :=
  u_type u = "line" /\
  match u_pos u, u_cap u with
  | PInt _, CNum _ => True
  | PList ps, CList cs => List.length ps = List.length cs
  | _, _ => False
  end.

(** The MW asked for on one line. *)
Definition total_mw (l : Z) (ts : list (Z * Q)) : Q :=
  fold_right (fun lc acc => if Z.eqb (fst lc) l then snd lc + acc else acc)%Q 0%Q ts.

(** The columns a reinforcement may write. *)
Definition line_columns : list string := ["in_service"; "max_i_ka"; "r_ohm_per_km"; "x_ohm_per_km"].
