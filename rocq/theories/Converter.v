(** Model of any2json.matpower2json, the converter of MATPOWER case files, from the lines of the file to
    the dictionary that is dumped.  There are three copies:
    - pyensys/tests/matpower/conversion_model_mat2json.py (CJ), used by cases.py:464 and
      input_output_function.py:45 for the screening model;
    - pyensys/Optimisers/conversion_model_mat2json.py (CO);
    - pyensys/engines/pyeneI.py:548-755 (CI).

    Simplifications.
    - Opening the file, the two assertions (CJ:28-31), the constant metadata and version, and
      json.dump are left out.
    - Texts are ASCII.
    - OverflowError, which int() raises for an infinite number, is ValueError here. *)
From Coq Require Import List String Ascii Bool Arith ZArith QArith.
From Verif Require Import Base Container Reader MatFile.
Import ListNotations.
Open Scope nat_scope.
Open Scope list_scope.

Definition text_eqb (a b : text) : bool := if list_eq_dec Ascii.ascii_dec a b then true else false.
Definition word (s : string) : text := list_ascii_of_string s.

(** What distinguishes the copies. *)
Record variant := mkVariant {
  v_truncates : bool;    (** int(float(w)) for the integer columns (CJ:166-212) instead of int(w) (CO:166-213, CI) *)
  v_row_at_once : bool;  (** no [continue] after the header of gencost (CJ:151-153, CO:151-153; CI:666-669 has it) *)
  v_keeps_text : bool;   (** the last coefficient of a cost is left a text (CI:734-738) *)
  v_demands : bool }.    (** demandP and demandQ are read (CJ and CO) *)
Definition planner_copy : variant := mkVariant true true false true.
Definition optimiser_copy : variant := mkVariant false true false true.
Definition engine_copy : variant := mkVariant false false true false.

(** ** int() and float() of a word without blanks *)

(** Underscores may stand between two digits (CPython, _Py_string_to_number_with_underscores and
    PyLong_FromString); [prev]: the character before is a digit. *)
Fixpoint drop_underscores (prev : bool) (l : text) : option text :=
  match l with
  | [] => Some []
  | a :: r =>
    if Ascii.eqb a "_" then
      if prev && match r with b :: _ => is_digit b | [] => false end then drop_underscores false r else None
    else match drop_underscores (is_digit a) r with Some t => Some (a :: t) | None => None end
  end.
Definition sign (l : text) : bool * text :=
  match l with
  | a :: r => if Ascii.eqb a "-" then (true, r) else if Ascii.eqb a "+" then (false, r) else (false, l)
  | [] => (false, [])
  end.
Definition signed (neg : bool) (z : Z) : Z := if neg then (- z)%Z else z.
Definition all_digits (l : text) : bool := match l with [] => false | _ => forallb is_digit l end.

(** int(w) *)
Definition read_int (w : text) : res Z :=
  match drop_underscores false w with
  | None => Err ValueError
  | Some l => let (neg, u) := sign l in if all_digits u then Ok (signed neg (digits_value u)) else Err ValueError
  end.

(** Floating-point numbers.  Simplification: exact values. *)
Inductive pyfloat := Fin (q : Q) | Inf (neg : bool) | NaN.
Definition lower (a : ascii) : ascii :=
  let n := nat_of_ascii a in if (65 <=? n) && (n <=? 90) then ascii_of_nat (n + 32) else a.
Fixpoint take_digits (l : text) : text * text :=
  match l with
  | [] => ([], [])
  | a :: r => if is_digit a then let (d, t) := take_digits r in (a :: d, t) else ([], l)
  end.
Definition decimal (neg : bool) (i f : text) (e : Z) : Q :=
  (inject_Z (signed neg (digits_value (i ++ f))) / inject_Z (10 ^ Z.of_nat (List.length f)) * 10 ^ e)%Q.

(** float(w) *)
Definition read_float (w : text) : res pyfloat :=
  match drop_underscores false w with
  | None => Err ValueError
  | Some l =>
    let (neg, u) := sign l in
    let v := map lower u in
    if text_eqb v (word "inf") || text_eqb v (word "infinity") then Ok (Inf neg)
    else if text_eqb v (word "nan") then Ok NaN
    else
      let (i, r) := take_digits u in
      let (f, r) := match r with a :: r' => if Ascii.eqb a "." then take_digits r' else ([], r) | [] => ([], []) end in
      match i ++ f with
      | [] => Err ValueError
      | _ =>
        match r with
        | [] => Ok (Fin (decimal neg i f 0))
        | a :: r' =>
          if Ascii.eqb (lower a) "e" then
            let (eneg, d) := sign r' in
            if all_digits d then Ok (Fin (decimal neg i f (signed eneg (digits_value d)))) else Err ValueError
          else Err ValueError
        end
      end
  end.

(** int(float(w)): towards zero. *)
Definition read_truncated (w : text) : res Z :=
  do f <- read_float w;
  match f with Fin q => Ok (Z.quot (Qnum q) (Zpos (Qden q))) | _ => Err ValueError end.

(** CJ:135-137 and the like: the word without its semicolons. *)
Definition no_semicolons (w : text) : text := filter (fun a => negb (Ascii.eqb a ";")) w.

(** ** The dictionary *)

Inductive value := VI (z : Z) | VF (f : pyfloat) | VT (t : text).
Definition table := @items (list value).
(** CJ:49-101: the keys of the tables, in order. *)
Definition bus_columns : list string :=
  ["BUS_I"; "BUS_TYPE"; "PD"; "QD"; "GS"; "BS"; "BUS_AREA"; "VM"; "VA"; "BASE_KV"; "ZONE"; "VMAX"; "VMIN"].
Definition branch_columns : list string :=
  ["F_BUS"; "T_BUS"; "BR_R"; "BR_X"; "BR_B"; "RATE_A"; "RATE_B"; "RATE_C"; "TAP"; "SHIFT"; "BR_STATUS"; "ANGMIN"; "ANGMAX"].
Definition gen_columns : list string :=
  ["GEN_BUS"; "PG"; "QG"; "QMAX"; "QMIN"; "VG"; "MBASE"; "GEN"; "PMAX"; "PMIN"; "PC1"; "PC2"; "QC1MIN"; "QC1MAX"; "QC2MIN";
   "QC2MAX"; "RAMP_AGC"; "RAMP_10"; "RAMP_30"; "RAMP_Q"; "APF"].
Definition empty_table (cols : list string) : table := map (fun c => (c, [])) cols.

(** CJ:102-108: the five lists of gencost. *)
Record costs := mkCosts {
  c_model : list Z; c_startup : list pyfloat; c_shutdown : list pyfloat; c_ncost : list Z; c_cost : list (list value) }.
(** CJ:37-120; demandP and demandQ have the single entry 0, because NoTime is 1. *)
Record case := mkCase {
  k_base : option pyfloat; k_slack : option Z; k_bus : table; k_gen : table; k_branch : table;
  k_costs : costs; k_demand_p : list pyfloat; k_demand_q : list pyfloat }.
Definition empty_case : case :=
  mkCase None None (empty_table bus_columns) (empty_table gen_columns) (empty_table branch_columns) (mkCosts [] [] [] [] []) [] [].
(** CJ:125-130: the tables that are open. *)
Record flags := mkFlags { f_bus : bool; f_gen : bool; f_branch : bool; f_cost : bool; f_dp : bool; f_dq : bool }.
Definition no_flags : flags := mkFlags false false false false false false.

(** jsonformat[...][c].append(v) *)
Definition append (c : string) (v : value) (t : table) : res table :=
  match d_get c t with Some l => Ok (d_set c (l ++ [v]) t) | None => Err KeyError end.

Section Copy.
Variable V : variant.

(** An entry of an integer column. *)
Definition read_whole (w : text) : res Z := if v_truncates V then read_truncated w else read_int w.

(** CJ:183-195 and 199-212: one word of a row; the column [last] may carry semicolons, [ints] are integers. *)
Definition cell (ints : list string) (last : string) (c : string) (w : text) : res value :=
  if String.eqb c last then do f <- read_float (no_semicolons w); Ok (VF f)
  else if existsb (String.eqb c) ints then do z <- read_whole w; Ok (VI z)
  else do f <- read_float w; Ok (VF f).
Definition read_row (ints : list string) (last : string) (cols : list string) (ws : list text) (t : table) : res table :=
  foldM (fun t wc => do v <- cell ints last (snd wc) (fst wc); append (snd wc) v t) (combine ws cols) t.

(** CJ:163-179: a bus; a bus of type 3 is the slack bus. *)
Definition bus_row (ws : list text) (st : table * option Z) : res (table * option Z) :=
  foldM (fun st wc =>
    let '(w, c) := wc in
    if String.eqb c "BUS_TYPE" then
      do ty <- read_whole w;
      if Z.eqb ty 3 then
        match ws with
        | w0 :: _ => do s <- read_whole w0; do t <- append c (VI ty) (fst st); Ok (t, Some s)
        | [] => Err IndexError
        end
      else do v <- cell ["BUS_I"; "BUS_TYPE"; "BUS_AREA"; "ZONE"]%string "VMIN" c w; do t <- append c v (fst st); Ok (t, snd st)
    else do v <- cell ["BUS_I"; "BUS_TYPE"; "BUS_AREA"; "ZONE"]%string "VMIN" c w; do t <- append c v (fst st); Ok (t, snd st))
    (combine ws bus_columns) st.
(** CJ:183-195 and 199-212. *)
Definition gen_row (ws : list text) (t : table) : res table := read_row ["GEN_BUS"; "GEN"]%string "APF" gen_columns ws t.
Definition branch_row (ws : list text) (t : table) : res table :=
  read_row ["F_BUS"; "T_BUS"; "BR_STATUS"]%string "ANGMAX" branch_columns ws t.

(** CJ:216-236: MODEL, STARTUP, SHUTDOWN, NCOST and as many words of COST as NCOST says; the last
    of them is an integer and may carry semicolons. *)
Definition nth_word (ws : list text) (i : nat) : res text := match nth_error ws i with Some w => Ok w | None => Err IndexError end.
Definition cost_row (ws : list text) (c : costs) : res costs :=
  do w0 <- nth_word ws 0; do model <- read_int w0;
  do w1 <- nth_word ws 1; do up <- read_float w1;
  do w2 <- nth_word ws 2; do down <- read_float w2;
  do w3 <- nth_word ws 3; do n <- read_int w3;
  do l <- mapM (fun x =>
      do w <- nth_word ws (4 + x);
      if (Z.of_nat x <? n - 1)%Z then do f <- read_float w; Ok (VF f)
      else if v_keeps_text V then Ok (VT (no_semicolons w))
      else do z <- read_int (no_semicolons w); Ok (VI z)) (seq 0 (Z.to_nat n));
  Ok (mkCosts (c_model c ++ [model]) (c_startup c ++ [up]) (c_shutdown c ++ [down]) (c_ncost c ++ [n]) (c_cost c ++ [l])).

(** CJ:244-249 and 256-261: the first word of a demand row. *)
Definition demand_row (ws : list text) (l : list pyfloat) : res (list pyfloat) :=
  do w <- nth_word ws 0; do f <- read_float w; Ok (l ++ [f]).

(** The two branches of CJ:163-181 and of the blocks after it: a row of an open table, or the end of all
    open tables.  [ws] are the words of the line. *)
Definition closes (ws : list text) : bool := match ws with w :: _ => text_eqb w (word "];") | [] => false end.
Definition rows (ws : list text) (fl : flags) (c : case) : res (flags * case) :=
  match ws with
  | [] => Ok (fl, c)
  | _ =>
    if closes ws then Ok (no_flags, c)
    else
      do bs <- (if f_bus fl then bus_row ws (k_bus c, k_slack c) else Ok (k_bus c, k_slack c));
      do g <- (if f_gen fl then gen_row ws (k_gen c) else Ok (k_gen c));
      do b <- (if f_branch fl then branch_row ws (k_branch c) else Ok (k_branch c));
      do co <- (if f_cost fl then cost_row ws (k_costs c) else Ok (k_costs c));
      do dp <- (if f_dp fl then demand_row ws (k_demand_p c) else Ok (k_demand_p c));
      do dq <- (if f_dq fl then demand_row ws (k_demand_q c) else Ok (k_demand_q c));
      Ok (fl, mkCase (k_base c) (snd bs) (fst bs) g b co dp dq)
  end.

(** CJ:133-138: the value of baseMVA is the third word. *)
Definition set_base (ws : list text) (c : case) : res case :=
  do w <- nth_word ws 2; do f <- read_float (no_semicolons w);
  Ok (mkCase (Some f) (k_slack c) (k_bus c) (k_gen c) (k_branch c) (k_costs c) (k_demand_p c) (k_demand_q c)).

(** What the first word of a line announces (CJ:133-161). *)
Inductive head := HBase | HBus | HGen | HBranch | HCost | HDemandP | HDemandQ | HNone.
Definition head_of (ws : list text) : head :=
  match ws with
  | [] => HNone
  | w :: _ =>
    if text_eqb w (word "mpc.baseMVA") then HBase
    else if text_eqb w (word "mpc.bus") then HBus
    else if text_eqb w (word "mpc.gen") then HGen
    else if text_eqb w (word "mpc.branch") then HBranch
    else if text_eqb w (word "mpc.gencost") then HCost
    else if v_demands V && text_eqb w (word "mpc.demandP") then HDemandP
    else if v_demands V && text_eqb w (word "mpc.demandQ") then HDemandQ
    else HNone
  end.
Definition open (h : head) (fl : flags) : flags :=
  let 'mkFlags a b c d e f := fl in
  match h with
  | HBus => mkFlags true b c d e f
  | HGen => mkFlags a true c d e f
  | HBranch => mkFlags a b true d e f
  | HCost => mkFlags a b c true e f
  | HDemandP => mkFlags a b c d true f
  | HDemandQ => mkFlags a b c d e true
  | HBase | HNone => fl
  end.

(** CJ:132-268: the loop over the lines.  After the header of bus, gen, branch or demandQ the next line is treated
    as any line; after that of gencost or demandP the next line is taken as a row at once. *)
Fixpoint convert_lines (ls : list text) (fl : flags) (c : case) : res case :=
  match ls with
  | [] => Ok c
  | l :: rest =>
    let ws := split l in
    match head_of ws with
    | HBase => do c' <- set_base ws c; do fc <- rows ws fl c'; convert_lines rest (fst fc) (snd fc)
    | HBus => convert_lines rest (open HBus fl) c
    | HGen => convert_lines rest (open HGen fl) c
    | HBranch => convert_lines rest (open HBranch fl) c
    | HDemandQ => convert_lines rest (open HDemandQ fl) c
    | HNone => do fc <- rows ws fl c; convert_lines rest (fst fc) (snd fc)
    | HCost =>
      if v_row_at_once V then
        match rest with
        | [] => Ok c
        | l' :: rest' => do fc <- rows (split l') (open HCost fl) c; convert_lines rest' (fst fc) (snd fc)
        end
      else convert_lines rest (open HCost fl) c
    | HDemandP =>
      match rest with
      | [] => Ok c
      | l' :: rest' => do fc <- rows (split l') (open HDemandP fl) c; convert_lines rest' (fst fc) (snd fc)
      end
    end
  end.
(** The whole function: the case, without the counters of CJ:270-272. *)
Definition convert (ls : list text) : res case := convert_lines ls no_flags empty_case.
End Copy.
(** CJ:270-272. *)
Definition count (c : string) (t : table) : nat := match d_get c t with Some l => List.length l | None => 0 end.
Definition k_no_bus (c : case) : nat := count "BUS_I" (k_bus c).
Definition k_no_branch (c : case) : nat := count "F_BUS" (k_branch c).
Definition k_no_gen (c : case) : nat := count "GEN_BUS" (k_gen c).
