(** Model of pyene2any.pyene2matpower, the writer of MATPOWER case files (pyensys/engines/pyeneI.py:757-893, PI),
    with the data of the network that it reads (pyene_Parameters.py:101-169 and 581-602, PA).

    Simplifications.
    - The three assertions (PI:771-775) and the path of the file are left out.
    - A value is None, a Boolean, a whole number or a finite floating-point number; arithmetic is exact.
    - The text that str.format gives for a floating-point number is an argument ([repr]).
    - The file is the list of its lines, without the line ends. *)
From Coq Require Import List String Ascii Bool Arith ZArith QArith.
From Verif Require Import Base MatFile Converter.
Import ListNotations.
Open Scope nat_scope.
Open Scope list_scope.

(** A value of an element. *)
Inductive pyval := PNone | PBool (b : bool) | PInt (z : Z) | PFloat (q : Q).

(** PA:142-169: what a bus says of itself, as far as MATPOWER has a column for it. *)
Record wbus := mkWBus {
  wb_number : pyval; wb_type : pyval; wb_p : pyval; wb_q : pyval; wb_gs : pyval; wb_bs : pyval; wb_area : pyval;
  wb_vm : pyval; wb_va : pyval; wb_kv : pyval; wb_zone : pyval; wb_vmax : pyval; wb_vmin : pyval }.
(** PA:581-602: a generator.  [wg_costs] is [cost_function_parameters], always a list (PA:594-599, 80-86). *)
Record wgen := mkWGen {
  wg_bus : pyval; wg_qmax : pyval; wg_qmin : pyval; wg_status : pyval; wg_pmax : pyval; wg_pmin : pyval;
  wg_startup : pyval; wg_shutdown : pyval; wg_costs : list pyval }.
(** PA:101-140: a line or a transformer.  [we_ends] is [bus_number]; lines have no [we_tap]. *)
Record wbranch := mkWBranch {
  we_ends : list pyval; we_r : pyval; we_x : pyval; we_b : pyval; we_limit : pyval; we_short : pyval; we_emergency : pyval;
  we_tap : pyval; we_status : pyval }.
(** PA:171-257.  A list whose first element has no position counts as empty (PA:314-324), and is empty here. *)
Record wnet := mkWNet {
  wn_base : pyval; wn_bus : list wbus; wn_conv : list wgen; wn_hydro : list wgen; wn_res : list wgen;
  wn_lines : list wbranch; wn_trafos : list wbranch }.

(** What has been written, and the exception that ended the writing. *)
Definition output : Type := list text * option exn.
Definition put (ls : list text) : output := (ls, None).
Definition before (a b : output) : output :=
  match snd a with Some e => a | None => (fst a ++ fst b, snd b) end.
(** A [for] loop that writes the lines of each element; an exception leaves the lines before it. *)
Fixpoint write_each {A} (f : A -> res text) (l : list A) : output :=
  match l with
  | [] => put []
  | a :: r => match f a with Ok t => before (put [t]) (write_each f r) | Err e => ([], Some e) end
  end.

Section Writer.
Variable repr : Q -> text.

(** "{0}".format(v) *)
Definition show (v : pyval) : text :=
  match v with
  | PNone => word "None"
  | PBool b => word (if b then "True" else "False")
  | PInt z => word (str_Z z)
  | PFloat q => repr q
  end.
(** [v * w]; Booleans count as 0 and 1. *)
Definition as_int (v : pyval) : option Z :=
  match v with PBool b => Some (if b then 1%Z else 0%Z) | PInt z => Some z | _ => None end.
Definition as_num (v : pyval) : option Q :=
  match v with PNone => None | PFloat q => Some q | _ => option_map inject_Z (as_int v) end.
Definition times (v w : pyval) : res pyval :=
  match as_int v, as_int w with
  | Some a, Some b => Ok (PInt (a * b))
  | _, _ => match as_num v, as_num w with Some a, Some b => Ok (PFloat (a * b)) | _, _ => Err TypeError end
  end.
Definition zero : pyval := PInt 0.

(** A row as it is formatted: a tab before each value; the blanks are those of the continued source line. *)
Definition tabbed (vs : list pyval) : text := flat_map (fun v => ascii_of_nat 9 :: show v) vs.
Definition sixteen : text := repeat " "%char 16.

(** PI:786-806 *)
Definition bus_line (base : pyval) (b : wbus) : res text :=
  do p <- times (wb_p b) base; do q <- times (wb_q b) base;
  Ok (tabbed [wb_number b; wb_type b; p; q; zero; zero; zero; zero; zero; wb_kv b; zero] ++ sixteen ++ tabbed [wb_vmax b; wb_vmin b] ++ word ";").
(** PI:810-831 *)
Definition gen_line (base : pyval) (g : wgen) : res text :=
  do pmax <- times (wg_pmax g) base; do pmin <- times (wg_pmin g) base;
  Ok (tabbed [wg_bus g; zero; zero; wg_qmax g; wg_qmin g; zero; zero; wg_status g; pmax; pmin; zero] ++ sixteen ++
      tabbed [zero; zero; zero; zero; zero; zero; zero; zero; zero; zero] ++ sixteen ++ word ";").
(** PI:835-853 and 854-875: a line has no tap and angles 0 and 0, a transformer its tap and angles -360 and 360. *)
Definition branch_line (trafo : bool) (base : pyval) (e : wbranch) : res text :=
  do a <- py_index (we_ends e) 0; do b <- py_index (we_ends e) 1; do limit <- times (we_limit e) base;
  Ok (tabbed [a; b; we_r e; we_x e; we_b e; limit; zero; zero; if trafo then we_tap e else zero; zero; we_status e] ++ sixteen ++
      tabbed (if trafo then [PInt (-360); PInt 360] else [zero; zero]) ++ word ";").
(** PI:879-889 *)
Definition cost_line (g : wgen) : res text :=
  Ok (tabbed ([PInt 2; zero; zero; PInt (Z.of_nat (List.length (wg_costs g)))] ++ wg_costs g) ++ word ";").

(** PI:757-893 *)
Definition write_case (N : wnet) : output :=
  let base := wn_base N in
  before (put [word "function mpc = Egypt_reduced"; []; word "mpc.version = '2';"; []; word "mpc.baseMVA = " ++ show base ++ word ";"; []; word "mpc.bus = ["])
  (before (write_each (bus_line base) (wn_bus N))
  (before (put [word "];"; []; word "mpc.gen = ["])
  (before (write_each (gen_line base) (wn_conv N))
  (before (put [word "];"; []; word "mpc.branch = ["])
  (before (write_each (branch_line false base) (wn_lines N))
  (before (write_each (branch_line true base) (wn_trafos N))
  (before (put [word "];"; []; word "mpc.gencost = ["])
  (before (write_each cost_line (wn_conv N))
  (put [word "];"; []]))))))))).
End Writer.
