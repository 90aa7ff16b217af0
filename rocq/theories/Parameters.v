(** Model of the container of the network elements, pyensys/engines/pyene_Parameters.py (PA): the elements by
    kind, their positions in the lists, the positions by which they refer to each other, deletion. *)
From Coq Require Import List ZArith QArith Bool Lia Arith.
From Verif Require Import Base Cases.
Import ListNotations.
Open Scope list_scope.

(** The kinds of elements connected to buses, in the order of [__series_elements] (PA:203-205) and of
    [__generation_types] (PA:208-210). *)
Inductive skind := Lines | Trafos.
Inductive gkind := Conv | Res | Hydro.
Definition series_kinds : list skind := [Lines; Trafos].
Definition gen_kinds : list gkind := [Conv; Res; Hydro].

(** PA:142-169, the part of a bus read or written by PA and by the network analyser: number, position, voltage,
    peak active and reactive demand, non technical losses, zone, and per kind of element the list of numbers
    ([X_number]) and the list of positions ([X_position]).  The entries read are taken to be given (numbers, not
    None); those copied without being looked at (name, area, coordinates, limits) are left out. *)
Record refs := mkRefs { r_lines : list nat; r_trafos : list nat; r_conv : list nat; r_res : list nat; r_hydro : list nat }.
Record bus := mkBus {
  b_no : nat; b_at : nat; b_kv : Q; b_p : Q; b_q : Q; b_ntl : Q; b_zone : nat; b_nos : refs; b_pos : refs }.
(** PA:101-134: a transmission line or a transformer.  [s_ends] is [bus_number], [s_pos] is [bus_position],
    [s_on] is [status != 0]; [s_ntl] is the non technical losses, which may be None. *)
Record series := mkSeries {
  s_no : nat; s_at : nat; s_ends : list nat; s_pos : list nat; s_on : bool;
  s_b : Q; s_r : Q; s_x : Q; s_limit : Q; s_ntl : option Q }.
(** PA:581-622: a generator.  [g_name] stands for the data that is only carried along. *)
Record gen := mkGen { g_name : nat; g_at : nat; g_bus : nat; g_pos : nat }.
(** PA:171-257: the lists of elements.  A list that holds nothing but the element of [__init__], whose
    position is None, is the empty list here; the elements of the other lists are taken to have a position. *)
Record net := mkNet {
  n_bus : list bus; n_lines : list series; n_trafos : list series;
  n_conv : list gen; n_res : list gen; n_hydro : list gen }.

(** Reading and writing the part of a kind. *)
Definition els (k : skind) (N : net) : list series := match k with Lines => n_lines N | Trafos => n_trafos N end.
Definition gens (k : gkind) (N : net) : list gen := match k with Conv => n_conv N | Res => n_res N | Hydro => n_hydro N end.
Definition sref (k : skind) (r : refs) : list nat := match k with Lines => r_lines r | Trafos => r_trafos r end.
Definition gref (k : gkind) (r : refs) : list nat := match k with Conv => r_conv r | Res => r_res r | Hydro => r_hydro r end.
Definition set_els (k : skind) (l : list series) (N : net) : net :=
  match k with
  | Lines => mkNet (n_bus N) l (n_trafos N) (n_conv N) (n_res N) (n_hydro N)
  | Trafos => mkNet (n_bus N) (n_lines N) l (n_conv N) (n_res N) (n_hydro N)
  end.
Definition set_sref (k : skind) (l : list nat) (r : refs) : refs :=
  match k with
  | Lines => mkRefs l (r_trafos r) (r_conv r) (r_res r) (r_hydro r)
  | Trafos => mkRefs (r_lines r) l (r_conv r) (r_res r) (r_hydro r)
  end.
Definition set_gref (k : gkind) (l : list nat) (r : refs) : refs :=
  match k with
  | Conv => mkRefs (r_lines r) (r_trafos r) l (r_res r) (r_hydro r)
  | Res => mkRefs (r_lines r) (r_trafos r) (r_conv r) l (r_hydro r)
  | Hydro => mkRefs (r_lines r) (r_trafos r) (r_conv r) (r_res r) l
  end.
Definition set_bus_at (i : nat) (b : bus) : bus :=
  mkBus (b_no b) i (b_kv b) (b_p b) (b_q b) (b_ntl b) (b_zone b) (b_nos b) (b_pos b).
Definition set_bus_pos (r : refs) (b : bus) : bus :=
  mkBus (b_no b) (b_at b) (b_kv b) (b_p b) (b_q b) (b_ntl b) (b_zone b) (b_nos b) r.
Definition set_bus_nos (r : refs) (b : bus) : bus :=
  mkBus (b_no b) (b_at b) (b_kv b) (b_p b) (b_q b) (b_ntl b) (b_zone b) r (b_pos b).
Definition set_s_at (i : nat) (s : series) : series :=
  mkSeries (s_no s) i (s_ends s) (s_pos s) (s_on s) (s_b s) (s_r s) (s_x s) (s_limit s) (s_ntl s).
Definition set_s_pos (l : list nat) (s : series) : series :=
  mkSeries (s_no s) (s_at s) (s_ends s) l (s_on s) (s_b s) (s_r s) (s_x s) (s_limit s) (s_ntl s).
Definition set_g_at (i : nat) (g : gen) : gen := mkGen (g_name g) i (g_bus g) (g_pos g).
Definition set_g_pos (i : nat) (g : gen) : gen := mkGen (g_name g) (g_at g) (g_bus g) i.
Definition set_g_bus (i : nat) (g : gen) : gen := mkGen (g_name g) (g_at g) i (g_pos g).

(** PA:558-577 [__update_positions_objects]: every element gets its position in the list. *)
Definition numbered {A} (set : nat -> A -> A) (l : list A) : list A :=
  map (fun ix => set (fst ix) (snd ix)) (combine (seq 0 (length l)) l).

(** PA:525-537, an entry that is a list: the elements of the other list are gone through in order, and each one
    whose number is still wanted gives its position; an entry is used once ([aux_bool]).  The flags of the
    entries already used are modelled by dropping the entry.  An empty list of elements gives the empty list,
    as PA:514-520. *)
Fixpoint drop_one (a : nat) (l : list nat) : list nat :=
  match l with [] => [] | x :: r => if a =? x then r else x :: drop_one a r end.
Fixpoint matched (keys : list (nat * nat)) (wanted : list nat) : list nat :=
  match keys with
  | [] => []
  | (k, p) :: r => if existsb (Nat.eqb k) wanted then p :: matched r (drop_one k wanted) else matched r wanted
  end.
(** PA:538-543, an entry that is a number: the position of the first element with that number; left as it was
    if there is none, as with an empty list (PA:516, generators). *)
Definition first_at (keys : list (nat * nat)) (wanted old : nat) : nat :=
  match find (fun kp => fst kp =? wanted) keys with Some kp => snd kp | None => old end.

(** The numbers and positions that are compared: of the buses, of lines and transformers ([number]), and of
    generators ([bus_number]). *)
Definition bus_keys (l : list bus) : list (nat * nat) := map (fun b => (b_no b, b_at b)) l.
Definition series_keys (l : list series) : list (nat * nat) := map (fun s => (s_no s, s_at s)) l.
Definition gen_keys (l : list gen) : list (nat * nat) := map (fun g => (g_bus g, g_at g)) l.

(** PA:496-556, the four uses of [__update_relative_position_objects]: the buses in lines and transformers, the
    buses in generators, lines and transformers in the buses, generators in the buses. *)
Definition place_series (B : list bus) (l : list series) : list series :=
  map (fun s => set_s_pos (matched (bus_keys B) (s_ends s)) s) l.
Definition place_gens (B : list bus) (l : list gen) : list gen :=
  map (fun g => set_g_pos (first_at (bus_keys B) (g_bus g) (g_pos g)) g) l.
Definition refer_series (k : skind) (l : list series) (B : list bus) : list bus :=
  map (fun b => set_bus_pos (set_sref k (matched (series_keys l) (sref k (b_nos b))) (b_pos b)) b) B.
Definition refer_gens (k : gkind) (l : list gen) (B : list bus) : list bus :=
  map (fun b => set_bus_pos (set_gref k (matched (gen_keys l) (gref k (b_nos b))) (b_pos b)) b) B.

(** PA:470-494 [update_all_positions]. *)
Definition update_all (N : net) : net :=
  let B := numbered set_bus_at (n_bus N) in
  let C := numbered set_g_at (n_conv N) in
  let R := numbered set_g_at (n_res N) in
  let H := numbered set_g_at (n_hydro N) in
  let L := numbered set_s_at (n_lines N) in
  let T := numbered set_s_at (n_trafos N) in
  let C := place_gens B C in
  let R := place_gens B R in
  let H := place_gens B H in
  let L := place_series B L in
  let T := place_series B T in
  let B := refer_series Trafos T (refer_series Lines L B) in
  let B := refer_gens Hydro H (refer_gens Res R (refer_gens Conv C B)) in
  mkNet B L T C R H.

(** PA:279-280: the elements whose position is not in the list. *)
Definition without {A} (pos : list nat) (l : list A) : list A :=
  map snd (filter (fun ix => negb (existsb (Nat.eqb (fst ix)) pos)) (combine (seq 0 (length l)) l)).
(** PA:263-304 [delete_objects] of buses: positions of the buses, then the buses in all other elements. *)
Definition delete_buses (pos : list nat) (N : net) : net :=
  let B := numbered set_bus_at (without pos (n_bus N)) in
  mkNet B (place_series B (n_lines N)) (place_series B (n_trafos N))
    (place_gens B (n_conv N)) (place_gens B (n_res N)) (place_gens B (n_hydro N)).
(** PA:263-304 [delete_objects] of lines or transformers: their positions, then their positions in the buses. *)
Definition delete_series (k : skind) (pos : list nat) (N : net) : net :=
  let l := numbered set_s_at (without pos (els k N)) in
  let N' := set_els k l N in
  mkNet (refer_series k l (n_bus N)) (n_lines N') (n_trafos N') (n_conv N) (n_res N) (n_hydro N).
(** PA:263-304 [delete_objects] of generators: the entry compared is [number], which generators do not have; the
    value read is None, so no bus finds any generator of that kind. *)
Definition delete_gens (k : gkind) (pos : list nat) (N : net) : net :=
  let l := numbered set_g_at (without pos (gens k N)) in
  let B := map (fun b => set_bus_pos (set_gref k [] (b_pos b)) b) (n_bus N) in
  match k with
  | Conv => mkNet B (n_lines N) (n_trafos N) l (n_res N) (n_hydro N)
  | Res => mkNet B (n_lines N) (n_trafos N) (n_conv N) l (n_hydro N)
  | Hydro => mkNet B (n_lines N) (n_trafos N) (n_conv N) (n_res N) l
  end.
(** PA:331-352 [get_objects] with a list of positions. *)
Definition objects {A} (l : list A) (pos : list nat) : res (list A) := mapM (fun p => at_ l p) pos.
