(** Model of parts of pyensys/readers/JSONReader.py (JR): profiles adapted to the OPF time settings
    (JR:474-495), growth profiles derived from bus data (JR:291-323, 503-530) and the number
    reader of MATPOWER files (JR:120-149). *)
From Coq Require Import List String Ascii Bool Arith ZArith QArith.
From Verif Require Import Base Graph GraphData.
Import ListNotations.
Open Scope nat_scope.
Open Scope list_scope.

(** ** Profiles and time settings *)

(** A pandapower profile: number of columns and rows of values.  Simplification: numeric values
    only, none missing. *)
Record pp_profile := mkPP { pp_width : nat; pp_rows : list (list Q) }.

(** JR:490-491, [iloc[a:b, :].mean()]: the column means of a block of rows. *)
Definition block_mean (width : nat) (rows : list (list Q)) : list Q :=
  map (fun j => mean (map (fun r => nth j r 0%Q) rows)) (seq 0 width).

(** JR:484-495, _recalculate_pandapower_profile_data; [size] is date_time_settings.size. *)
Definition recalculate (size : nat) (p : pp_profile) : res pp_profile :=
  match size with
  | 0 => Err ZeroDivisionError
  | _ =>
    if List.length (pp_rows p) mod size =? 0 then
      let sub := List.length (pp_rows p) / size in
      Ok (mkPP (pp_width p) (map (fun k => block_mean (pp_width p) (firstn sub (skipn (k * sub) (pp_rows p)))) (seq 0 size)))
    else Err ValueError
  end.

(** JR:474-482, _adjust_pandapower_profiles_to_time_settings. *)
Definition adjust (size : nat) (p : pp_profile) : res pp_profile :=
  if size <? List.length (pp_rows p) then recalculate size p
  else if List.length (pp_rows p) <? size then Err ValueError
  else Ok p.
Definition adjust_all (size : nat) (ps : list pp_profile) : res (list pp_profile) := mapM (adjust size) ps.

(** ** Growth profiles *)

Definition col_of (fr : frame) (c : string) (r : frow) : res Q :=
  match position c (f_cols fr) with Some i => Ok (nth i (fr_vals r) 0%Q) | None => Err KeyError end.

(** JR:304-313, _calculate_total_system_apparent_power; math.sqrt is the argument [sq].
    Simplification: no missing values, so the ValueError of JR:311-312 does not arise. *)
Definition system_power (sq : Q -> Q) (fr : frame) (s y : Z) : res Q :=
  foldM (fun acc r => do p <- col_of fr "p_mw" r; do q <- col_of fr "q_mvar" r; Ok (acc + sq (p * p + q * q))%Q)
    (filter (fun r => Z.eqb (fr_scenario r) s && Z.eqb (fr_year r) y) (f_rows fr)) 0%Q.

(** A row of the table of JR:299-300: scenario, year, s_mva. *)
Record prow := mkP { po_scenario : Z; po_year : Z; po_mva : Q }.

(** JR:291-301. *)
Definition power_table (sq : Q -> Q) (fr : frame) : res (list prow) :=
  let scenarios := unique (map fr_scenario (f_rows fr)) in
  let years := unique (map fr_year (f_rows fr)) in
  mapM (fun sy => do t <- system_power sq fr (fst sy) (snd sy); Ok (mkP (fst sy) (snd sy) t))
    (flat_map (fun s => map (fun y => (s, y)) years) scenarios).

(** Series.unique on floats. *)
Definition qunique (l : list Q) : list Q :=
  fold_left (fun acc q => if existsb (Qeq_bool q) acc then acc else acc ++ [q]) l [].

(** The builtin min of a non-empty sequence. *)
Definition zmin (l : list Z) : res Z :=
  match l with [] => Err ValueError | z :: r => Ok (fold_left Z.min r z) end.
Definition qmin (l : list Q) : res Q :=
  match l with [] => Err ValueError | q :: r => Ok (fold_left (fun a b => if Qle_bool a b then a else b) r q) end.

(** JR:316-323, _normalise_system_apparent_power: the table with its new column.  Without rows
    the table has no columns (KeyError).  Simplification: a first-year total of zero makes
    pandas write inf or nan, where the model writes 0; the theorems assume a non-zero total. *)
Definition normalise (t : list prow) : res (list (prow * Q)) :=
  match t with
  | [] => Err KeyError
  | _ =>
    do m <- zmin (map po_year t);
    let first := map po_mva (filter (fun r => Z.eqb (po_year r) m) t) in
    if 1 <? List.length (qunique first) then Err ValueError
    else do s <- qmin first; Ok (map (fun r => (r, (po_mva r / s)%Q)) t)
  end.

(** JR:515-517: float() of the selected column, which must have exactly one entry. *)
Definition multiplier (t : list (prow * Q)) (s y : Z) : res Q :=
  match filter (fun r => Z.eqb (po_year (fst r)) y && Z.eqb (po_scenario (fst r)) s) t with
  | [r] => Ok (snd r)
  | _ => Err TypeError
  end.

(** JR:503-530, _create_optimisation_profiles_based_on_attest_dataframes.  The labels
    "scenario <s>" and str(year) are kept as numbers, the form in which CG:284-293 reads them
    back; element type and variable name keep their default values. *)
Definition growth_profile (sq : Q -> Q) (frames : @Container.items frame) : res clustered :=
  match Container.l_get "buses" frames with
  | None => Err KeyError
  | Some fr =>
    do t <- power_table sq fr;
    do n <- normalise t;
    let scenarios := unique (map (fun r => po_scenario (fst r)) n) in
    let years := zsort (unique (map (fun r => po_year (fst r)) n)) in
    do rows <- mapM (fun y => mapM (fun s => multiplier n s y) scenarios) years;
    Ok (mkClustered (mkProfile "" "" rows) scenarios years)
  end.

(** ** Numbers in MATPOWER files *)

Definition is_digit (a : ascii) : bool := (48 <=? nat_of_ascii a) && (nat_of_ascii a <=? 57).
Definition digit_value (a : ascii) : Z := Z.of_nat (nat_of_ascii a - 48).

(** int() of a text.  Simplification: a non-empty sequence of ASCII digits; int() also accepts a
    sign, spaces and underscores, none of which follows "e+" or "e-" in a number. *)
Definition py_int (l : list ascii) : res Z :=
  match l with
  | [] => Err ValueError
  | _ => if forallb is_digit l then Ok (fold_left (fun acc a => (acc * 10 + digit_value a)%Z) l 0%Z) else Err ValueError
  end.

(** float() of a text of digits and points: at most one point and at least one digit.  Exact
    decimal value (rounding to double precision is not modelled). *)
Fixpoint split_point (l : list ascii) : list ascii * option (list ascii) :=
  match l with
  | [] => ([], None)
  | a :: r => if Ascii.eqb a "." then ([], Some r) else let (h, t) := split_point r in (a :: h, t)
  end.
Definition digits_value (l : list ascii) : Z := fold_left (fun acc a => (acc * 10 + digit_value a)%Z) l 0%Z.
Definition py_float (l : list ascii) : res Q :=
  match split_point l with
  | ([], None) => Err ValueError
  | (h, None) => Ok (inject_Z (digits_value h))
  | (h, Some t) =>
    if negb (forallb is_digit t) then Err ValueError
    else if (List.length h + List.length t =? 0) then Err ValueError
    else Ok (digits_value (h ++ t) # Z.to_pos (10 ^ Z.of_nat (List.length t)))%Q
  end.

(** JR:126-138: the loop over the characters, [rest] being str[xstr:].  Result: the collected
    characters and the multiplier. *)
Fixpoint scan (rest : list ascii) (num : list ascii) : res (list ascii * Q) :=
  match rest with
  | [] => Ok (num, 1%Q)
  | a :: r =>
    if is_digit a then scan r (num ++ [a])
    else if Ascii.eqb a "." then scan r (num ++ [a])
    else if Ascii.eqb a "e" then
      do k <- py_int (skipn 1 r);
      match r with
      | [] => Err IndexError
      | b :: _ => Ok (num, if Ascii.eqb b "+" then inject_Z (10 ^ k) else / inject_Z (10 ^ k))%Q
      end
    else scan r num
  end.

(** JR:120-149, _get_digit_string: [None] for (False, ' ').  [str[0]] exists when a digit was found. *)
Definition get_digit (str : list ascii) : res (option Q) :=
  do nm <- scan str [];
  match fst nm with
  | [] => Ok None
  | num =>
    do v <- py_float num;
    let m := match str with a :: _ => if Ascii.eqb a "-" then (snd nm * -1)%Q else snd nm | [] => snd nm end in
    Ok (Some (m * v)%Q)
  end.
