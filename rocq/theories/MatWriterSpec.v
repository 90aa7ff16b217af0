(** What a written MATPOWER case file should hold of a network. *)
From Coq Require Import List String Ascii Bool Arith ZArith QArith.
From Verif Require Import Base Container NumeralSpec MatFile Converter ConverterSpec MatWriter.
Import ListNotations.
Open Scope string_scope.
Open Scope nat_scope.
Open Scope list_scope.

(** The number that a value is. *)
Definition num_of (v : pyval) : option Q := match v with PInt z => Some (inject_Z z) | PFloat q => Some q | _ => None end.
Definition num (v : pyval) : Q := match num_of v with Some q => q | None => 0 end.
Definition whole (v : pyval) : Prop := exists z, v = PInt z.

(** The text of a floating-point number is a numeral with its value, and depends on the value only. *)
Definition respects (repr : Q -> text) : Prop := forall p q, (p == q)%Q -> repr p = repr q.
Definition printed (repr : Q -> text) (q : Q) : Prop := exists n, numeral_ok n /\ repr q = numeral_text n /\ (numeral_value n == q)%Q.
(** A number that is printed. *)
Definition writable (repr : Q -> text) (v : pyval) : Prop :=
  match v with PInt _ => True | PFloat q => printed repr q | _ => False end.
(** A number whose product with the base is printed. *)
Definition scalable (repr : Q -> text) (base v : pyval) : Prop :=
  num_of v <> None /\ (whole v /\ whole base \/ printed repr (num v * num base)).

Definition bus_ok repr base (b : wbus) : Prop :=
  whole (wb_number b) /\ whole (wb_type b) /\ scalable repr base (wb_p b) /\ scalable repr base (wb_q b) /\
  writable repr (wb_kv b) /\ writable repr (wb_vmax b) /\ writable repr (wb_vmin b).
Definition gen_ok repr base (g : wgen) : Prop :=
  whole (wg_bus g) /\ whole (wg_status g) /\ writable repr (wg_qmax g) /\ writable repr (wg_qmin g) /\
  scalable repr base (wg_pmax g) /\ scalable repr base (wg_pmin g).
Definition branch_ok repr base (trafo : bool) (e : wbranch) : Prop :=
  (exists a b more, we_ends e = a :: b :: more /\ whole a /\ whole b) /\ whole (we_status e) /\ writable repr (we_r e) /\ writable repr (we_x e) /\
  writable repr (we_b e) /\ scalable repr base (we_limit e) /\ (trafo = true -> writable repr (we_tap e)).
(** At least one coefficient; copies of the converter that read the last one as a whole number need one. *)
Definition cost_fine repr (V : variant) (g : wgen) : Prop :=
  exists first last, wg_costs g = first ++ [last] /\ Forall (writable repr) first /\ writable repr last /\
    (v_keeps_text V = false -> whole last).
Definition tables_ok repr (N : wnet) : Prop :=
  writable repr (wn_base N) /\ Forall (bus_ok repr (wn_base N)) (wn_bus N) /\ Forall (gen_ok repr (wn_base N)) (wn_conv N) /\
  Forall (branch_ok repr (wn_base N) false) (wn_lines N) /\ Forall (branch_ok repr (wn_base N) true) (wn_trafos N).
Definition net_ok repr V (N : wnet) : Prop := tables_ok repr N /\ Forall (cost_fine repr V) (wn_conv N).

(** The rows of the tables. *)
Definition zeros (n : nat) : list Q := repeat 0%Q n.
Definition bus_numbers (N : wnet) (b : wbus) : list Q :=
  ([num (wb_number b); num (wb_type b); num (wb_p b) * num (wn_base N); num (wb_q b) * num (wn_base N)] ++ zeros 5 ++
   [num (wb_kv b); 0; num (wb_vmax b); num (wb_vmin b)])%Q.
Definition gen_numbers (N : wnet) (g : wgen) : list Q :=
  ([num (wg_bus g); 0; 0; num (wg_qmax g); num (wg_qmin g); 0; 0; num (wg_status g); num (wg_pmax g) * num (wn_base N);
    num (wg_pmin g) * num (wn_base N)] ++ zeros 11)%Q.
Definition end_of (i : nat) (e : wbranch) : Q := match nth_error (we_ends e) i with Some v => num v | None => 0 end.
Definition branch_numbers (N : wnet) (te : bool * wbranch) : list Q :=
  let (trafo, e) := te in
  ([end_of 0 e; end_of 1 e; num (we_r e); num (we_x e); num (we_b e); num (we_limit e) * num (wn_base N); 0; 0;
    if trafo then num (we_tap e) else 0; 0; num (we_status e)] ++ (if trafo then [inject_Z (-360); inject_Z 360] else [0; 0]))%Q.
Definition branches (N : wnet) : list (bool * wbranch) := map (pair false) (wn_lines N) ++ map (pair true) (wn_trafos N).

(** An entry of a table is the number: a whole number or a floating-point number. *)
Definition entry_is (k : kind) (q : Q) (v : value) : Prop :=
  match k, v with
  | Whole, VI z => (q == inject_Z z)%Q
  | Whole, _ => False
  | _, VF (Fin x) => (x == q)%Q
  | _, _ => False
  end.
(** The table [t] with the columns of the layout has one row for each element of [l], holding its numbers. *)
Definition table_is {A} (name : string) (row : A -> list Q) (l : list A) (c : case) : Prop :=
  forall cols, layout name = Some cols -> map fst (the_table name c) = map fst cols /\
  forall j col k, nth_error cols j = Some (col, k) -> exists vs, d_get col (the_table name c) = Some vs /\
    Forall2 (fun a v => exists q, nth_error (row a) j = Some q /\ entry_is k q v) l vs.
(** The costs: polynomials, no cost of starting and stopping, the number of coefficients and the coefficients;
    the last of them is a whole number, or the text as it was written. *)
Definition costs_are repr V (l : list wgen) (c : costs) : Prop :=
  c_model c = map (fun _ => 2%Z) l /\ Forall (fun f => exists q, f = Fin q /\ q == 0)%Q (c_startup c) /\ List.length (c_startup c) = List.length l /\
  Forall (fun f => exists q, f = Fin q /\ q == 0)%Q (c_shutdown c) /\ List.length (c_shutdown c) = List.length l /\
  c_ncost c = map (fun g => Z.of_nat (List.length (wg_costs g))) l /\
  Forall2 (fun g vs => exists first last fs v, wg_costs g = first ++ [last] /\ vs = fs ++ [v] /\ Forall2 (fun a => entry_is Real (num a)) first fs /\
    (if v_keeps_text V then v = VT (show repr last) else exists z, last = PInt z /\ v = VI z)) l (c_cost c).
(** The number of the last bus of type 3. *)
Definition slack_number (N : wnet) : option Z :=
  match find (fun b => match wb_type b with PInt 3 => true | _ => false end) (rev (wn_bus N)) with
  | Some b => match wb_number b with PInt z => Some z | _ => None end
  | None => None
  end.
Definition case_is repr V (N : wnet) (c : case) : Prop :=
  (exists q, k_base c = Some (Fin q) /\ q == num (wn_base N))%Q /\ k_slack c = slack_number N /\
  table_is "bus" (bus_numbers N) (wn_bus N) c /\ table_is "gen" (gen_numbers N) (wn_conv N) c /\ table_is "branch" (branch_numbers N) (branches N) c /\
  costs_are repr V (wn_conv N) (k_costs c).

(** What the beginning of a file holds: the buses and the generators [g1], and neither branches nor costs. *)
Definition gens_only (N : wnet) (g1 : list wgen) (c : case) : Prop :=
  (exists q, k_base c = Some (Fin q) /\ q == num (wn_base N))%Q /\ k_slack c = slack_number N /\ table_is "bus" (bus_numbers N) (wn_bus N) c /\ table_is "gen" (gen_numbers N) g1 c /\
  table_is "branch" (branch_numbers N) [] c /\ k_costs c = k_costs empty_case.
(** The generator with the status 1. *)
Definition switched_on (g : wgen) : wgen := mkWGen (wg_bus g) (wg_qmax g) (wg_qmin g) (PInt 1) (wg_pmax g) (wg_pmin g) (wg_startup g) (wg_shutdown g) (wg_costs g).

(** The networks agree on the base, on the order of their elements, and on these data of buses, generators, lines and transformers. *)
Definition bus_written (b : wbus) : list pyval := [wb_number b; wb_type b; wb_p b; wb_q b; wb_kv b; wb_vmax b; wb_vmin b].
Definition gen_written (g : wgen) : list pyval * list pyval := ([wg_bus g; wg_qmax g; wg_qmin g; wg_status g; wg_pmax g; wg_pmin g], wg_costs g).
Definition line_written (e : wbranch) : list pyval * list pyval := (firstn 2 (we_ends e), [we_r e; we_x e; we_b e; we_limit e; we_status e]).
Definition trafo_written (e : wbranch) : list pyval * list pyval := (firstn 2 (we_ends e), [we_r e; we_x e; we_b e; we_limit e; we_tap e; we_status e]).
Definition agree (N N' : wnet) : Prop :=
  wn_base N = wn_base N' /\ map bus_written (wn_bus N) = map bus_written (wn_bus N') /\ map gen_written (wn_conv N) = map gen_written (wn_conv N') /\
  map line_written (wn_lines N) = map line_written (wn_lines N') /\ map trafo_written (wn_trafos N) = map trafo_written (wn_trafos N').
