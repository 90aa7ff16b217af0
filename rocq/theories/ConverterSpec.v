(** MATPOWER case files as the converter takes them: layout and contents, independently of the
    converter. *)
From Coq Require Import List String Ascii Bool Arith ZArith QArith.
From Verif Require Import Base Container NumeralSpec MatFile MatFileSpec Converter.
Import ListNotations.
Open Scope string_scope.
Open Scope nat_scope.
Open Scope list_scope.

(** An entry of a table: a decimal numeral, Inf or -Inf. *)
Inductive entry := Num (n : numeral) | Infinite (neg : bool).
Definition entry_ok (e : entry) : Prop := match e with Num n => numeral_ok n | Infinite _ => True end.
Definition entry_text (e : entry) : text :=
  match e with Num n => numeral_text n | Infinite neg => (if neg then ["-"%char] else []) ++ word_of "Inf" end.
(** A numeral without point and exponent. *)
Definition plain (n : numeral) : Prop := nu_frac n = None /\ nu_exp n = None.

(** The columns: whole numbers, numbers, and the last column, which the semicolon follows. *)
Inductive kind := Whole | Real | Final.
(** The word [w] holds the entry [e]; [lax]: any numeral may stand for a whole number. *)
Definition holds (lax : bool) (k : kind) (e : entry) (w : text) : Prop :=
  match k with
  | Whole => exists n, e = Num n /\ numeral_ok n /\ w = numeral_text n /\
      (if lax then True else plain n)
  | Real => entry_ok e /\ w = entry_text e
  | Final => entry_ok e /\ exists suf, w = entry_text e ++ suf /\ Forall (eq ";"%char) suf
  end.

Definition reals (l : list string) : list (string * kind) := map (fun c => (c, Real)) l.
Definition layout (name : string) : option (list (string * kind)) :=
  (if String.eqb name "bus" then
     Some ([("BUS_I", Whole); ("BUS_TYPE", Whole)] ++ reals ["PD"; "QD"; "GS"; "BS"] ++ [("BUS_AREA", Whole)] ++
           reals ["VM"; "VA"; "BASE_KV"] ++ [("ZONE", Whole); ("VMAX", Real); ("VMIN", Final)])
   else if String.eqb name "gen" then
     Some ([("GEN_BUS", Whole)] ++ reals ["PG"; "QG"; "QMAX"; "QMIN"; "VG"; "MBASE"] ++ [("GEN", Whole)] ++
           reals ["PMAX"; "PMIN"; "PC1"; "PC2"; "QC1MIN"; "QC1MAX"; "QC2MIN"; "QC2MAX"; "RAMP_AGC"; "RAMP_10"; "RAMP_30"; "RAMP_Q"] ++
           [("APF", Final)])
   else if String.eqb name "branch" then
     Some ([("F_BUS", Whole); ("T_BUS", Whole)] ++ reals ["BR_R"; "BR_X"; "BR_B"; "RATE_A"; "RATE_B"; "RATE_C"; "TAP"; "SHIFT"] ++
           [("BR_STATUS", Whole); ("ANGMIN", Real); ("ANGMAX", Final)])
   else None).

(** A row of gencost: MODEL, STARTUP, SHUTDOWN and the coefficients, of which there is at least one. *)
Record cost := mkCost { co_model : numeral; co_startup : entry; co_shutdown : entry; co_ncost : numeral; co_first : list entry; co_last : entry }.

(** The sections of a case file.  [None] is an empty line within a table. *)
Inductive section :=
| Note (l : text)
| BaseMVA (e : entry) (l : text)
| Matrix (name : string) (header : text) (body : list (option (list entry) * text)) (closing : text)
| Costs (header : text) (body : list (option cost * text)) (closing : text)
| Demand (active : bool) (header : text) (body : list (option entry * text)) (closing : text).

Definition headers (V : variant) : list text :=
  map word_of (["mpc.baseMVA"; "mpc.bus"; "mpc.gen"; "mpc.branch"; "mpc.gencost"] ++
               (if v_demands V then ["mpc.demandP"; "mpc.demandQ"] else [])).

(** The lines [body] hold the rows. *)
Definition body_ok {R} (row : R -> text -> Prop) (body : list (option R * text)) : Prop :=
  Forall (fun rl => match fst rl with None => written (snd rl) [] | Some r => row r (snd rl) end) body.
Definition begins (w : text) (l : text) : Prop := exists ws, written l (w :: ws).
Definition row_ok (lax : bool) (cols : list (string * kind)) (r : list entry) (l : text) : Prop :=
  exists ws more, written l (ws ++ more) /\ List.length r = List.length cols /\ List.length ws = List.length cols /\
    forall j c k e w, nth_error cols j = Some (c, k) -> nth_error r j = Some e -> nth_error ws j = Some w -> holds lax k e w.
Definition cost_ok (V : variant) (r : cost) (l : text) : Prop :=
  exists w0 w1 w2 w3 ws w more, written l (w0 :: w1 :: w2 :: w3 :: ws ++ w :: more) /\
    holds false Whole (Num (co_model r)) w0 /\ holds false Real (co_startup r) w1 /\ holds false Real (co_shutdown r) w2 /\
    holds false Whole (Num (co_ncost r)) w3 /\ (numeral_value (co_ncost r) == inject_Z (Z.of_nat (S (List.length (co_first r)))))%Q /\
    Forall2 (holds false Real) (co_first r) ws /\ holds false Final (co_last r) w /\
    (if v_keeps_text V then True else exists n, co_last r = Num n /\ plain n).

Definition section_ok (V : variant) (s : section) : Prop :=
  match s with
  | Note l => exists ws, written l ws /\ match ws with [] => True | w :: _ => ~ In w (headers V) end
  | BaseMVA e l => exists eq w more, written l (mpc "baseMVA" :: eq :: w :: more) /\ holds false Final e w
  | Matrix name header body closing => exists cols, layout name = Some cols /\
      begins (mpc name) header /\ body_ok (row_ok (v_truncates V) cols) body /\ begins (word_of "];") closing
  | Costs header body closing =>
      begins (mpc "gencost") header /\ body_ok (cost_ok V) body /\ begins (word_of "];") closing
  | Demand active header body closing => v_demands V = true /\
      begins (mpc (if active then "demandP" else "demandQ")) header /\
      body_ok (fun e l => exists w more, written l (w :: more) /\ holds false Real e w) body /\ begins (word_of "];") closing
  end.

Definition section_lines (s : section) : list text :=
  match s with
  | Note l | BaseMVA _ l => [l]
  | Matrix _ h b c => h :: map snd b ++ [c]
  | Costs h b c => h :: map snd b ++ [c]
  | Demand _ h b c => h :: map snd b ++ [c]
  end.

(** What the file says. *)
Definition given {R} (body : list (option R * text)) : list R :=
  flat_map (fun rl => match fst rl with Some r => [r] | None => [] end) body.
Definition rows_of (name : string) (ss : list section) : list (list entry) :=
  flat_map (fun s => match s with Matrix name' _ b _ => if String.eqb name' name then given b else [] | _ => [] end) ss.
Definition costs_of (ss : list section) : list cost := flat_map (fun s => match s with Costs _ b _ => given b | _ => [] end) ss.
Definition demands_of (active : bool) (ss : list section) : list entry :=
  flat_map (fun s => match s with Demand a _ b _ => if Bool.eqb a active then given b else [] | _ => [] end) ss.
Definition base_of (ss : list section) : option entry :=
  fold_left (fun acc s => match s with BaseMVA e _ => Some e | _ => acc end) ss None.
(** The number without its fraction. *)
Definition whole_part (z : Z) (q : Q) : Prop :=
  ((0 <= q -> inject_Z z <= q /\ q < inject_Z (z + 1)) /\ (q <= 0 -> inject_Z (z - 1) < q /\ q <= inject_Z z))%Q.
(** The number of the last bus of type 3. *)
Definition is_num (e : option entry) (z : Z) : Prop := match e with Some (Num n) => whole_part z (numeral_value n) | _ => False end.
Definition slack_bus (rows : list (list entry)) (z : Z) : Prop :=
  exists before r after, rows = before ++ r :: after /\ is_num (nth_error r 1) 3 /\ is_num (nth_error r 0) z /\
    Forall (fun r' => ~ is_num (nth_error r' 1) 3) after.

Definition slack_is (rows : list (list entry)) (s : option Z) : Prop :=
  match s with Some z => slack_bus rows z | None => Forall (fun r => ~ is_num (nth_error r 1) 3) rows end.

(** A stored number. *)
Definition float_is (e : entry) (f : pyfloat) : Prop :=
  match e, f with Num n, Fin q => (q == numeral_value n)%Q | Infinite b, Inf b' => b = b' | _, _ => False end.
Definition stored (k : kind) (e : entry) (v : value) : Prop :=
  match k, v with
  | Whole, VI z => exists n, e = Num n /\ whole_part z (numeral_value n)
  | Whole, _ => False
  | _, VF f => float_is e f
  | _, _ => False
  end.
Definition the_table (name : string) (c : case) : table :=
  (if String.eqb name "bus" then k_bus c else if String.eqb name "gen" then k_gen c else k_branch c).
(** The columns of the table hold the entries of the rows. *)
Definition holds_rows (cols : list (string * kind)) (rows : list (list entry)) (t : table) : Prop :=
  map fst t = map fst cols /\
  forall j c k, nth_error cols j = Some (c, k) -> exists vs, d_get c t = Some vs /\
    Forall2 (fun r v => exists e, nth_error r j = Some e /\ stored k e v) rows vs.
(** The lists of gencost hold the rows of costs. *)
Definition holds_costs (V : variant) (rs : list cost) (c : costs) : Prop :=
  Forall2 (fun r z => inject_Z z == numeral_value (co_model r))%Q rs (c_model c) /\
  Forall2 (fun r f => float_is (co_startup r) f) rs (c_startup c) /\
  Forall2 (fun r f => float_is (co_shutdown r) f) rs (c_shutdown c) /\
  Forall2 (fun r z => z = Z.of_nat (S (List.length (co_first r)))) rs (c_ncost c) /\
  Forall2 (fun r l => exists fs v, l = fs ++ [v] /\ Forall2 (stored Real) (co_first r) fs /\
    (if v_keeps_text V then v = VT (entry_text (co_last r)) else stored Whole (co_last r) v)) rs (c_cost c).

(** The case holds the file. *)
Definition holds_file (V : variant) (ss : list section) (c : case) : Prop :=
  match base_of ss, k_base c with Some e, Some f => float_is e f | None, None => True | _, _ => False end /\
  slack_is (rows_of "bus" ss) (k_slack c) /\
  (forall name cols, layout name = Some cols -> holds_rows cols (rows_of name ss) (the_table name c)) /\
  holds_costs V (costs_of ss) (k_costs c) /\
  Forall2 float_is (demands_of true ss) (k_demand_p c) /\ Forall2 float_is (demands_of false ss) (k_demand_q c).

(** A word that is a whole number for Python: a sign or none, and digits, where single underscores may stand between digits. *)
Definition int_word (w : text) (z : Z) : Prop :=
  exists (sg : text) (neg : bool) (g : list nat) (gs : list (list nat)),
    (sg = ["-"%char] /\ neg = true \/ (sg = ["+"%char] \/ sg = []) /\ neg = false) /\
    Forall (fun g => digits g /\ g <> []) (g :: gs) /\
    w = sg ++ map digit_char g ++ flat_map (fun g => "_"%char :: map digit_char g) gs /\
    z = (if neg then - positional (List.concat (g :: gs)) else positional (List.concat (g :: gs)))%Z.
(** The first column of a table, a whole number. *)
Definition first_column (name : string) : string := (if String.eqb name "bus" then "BUS_I" else if String.eqb name "gen" then "GEN_BUS" else "F_BUS").
