(** Model of the conversion of networks to pypsa and of the class that collects
    the results of pypsa: pyensys/engines/pyeneI.py ([EInterfaceClass],
    lines 30-280), pyensys/engines/pyeneP.py ([PrintClass], lines 12-224) and
    the methods of pyensys/engines/pyeneD.py they use.  Floats are rationals.
    pypsa is not modelled: a call [nu.add(...)] is recorded with its arguments,
    and the power flow is an oracle with one column for each component. *)
From Coq Require Import List String ZArith QArith Bool.
From Verif Require Import Base.
Import ListNotations.
Open Scope string_scope.
Open Scope list_scope.

(** ** Networks of pyene, as far as they are read here *)

(** pyeneD.py:391-525 ([Bus]): number, type, kV, VM, limits of the voltage
    and coordinates ([None] when X is None).  [get_Pos] is the position in the
    list of buses. *)
Record bus := Bus { b_number : Z; b_type : Z; b_kv : Q; b_vm : Q; b_vmin : Q; b_vmax : Q; b_xy : option (Q * Q) }.

(** pyeneD.py:716-1190 (generators): number of the bus, position of the bus,
    VG, Max (per unit), P, Q and the pieces of the cost curve
    (rows of cost['LCost'], as many as pyomo['NoPieces']; lines 960-985). *)
Record gen := Gen { g_bus : Z; g_pos : nat; g_vg : Q; g_max : Q; g_p : Q; g_q : Q; g_cost : list (Q * Q) }.

(** pyeneD.py:232-390 ([Branch]): ends, tap ratio, reactance, resistance,
    susceptance, rate (per unit).  [get_Number] is the position plus one. *)
Record branch := Branch { r_from : Z; r_to : Z; r_tap : Q; r_x : Q; r_r : Q; r_b : Q; r_rate : Q }.

(** The attributes of pyeneN's network used by lines 30-280: base, number of
    time steps, buses, the three lists of generators, branches, demandE['PD']
    and ['QD'], scenarios['Demand'] and ['RES'], busScenario and resScenario. *)
Record net := Net {
  n_base : Q; n_time : nat; n_bus : list bus; n_conv : list gen; n_hydro : list gen; n_res : list gen;
  n_branch : list branch; n_pd : list Q; n_qd : list Q; n_demand : list Q; n_wind : list Q;
  n_bus_scen : list (list nat); n_res_scen : list (list nat) }.

(** ** What is added to the network of pypsa *)
Record cbus := CBus { cb_name : string; cb_nom : Q; cb_set : Q; cb_min : Q; cb_max : Q; cb_xy : option (Q * Q) }.
(** [cg_max] is the argument p_nom_max: a number, or a series for RES. *)
Record cgen := CGen { cg_name : string; cg_bus : string; cg_control : string; cg_max : Q + list Q; cg_nom : option Q;
  cg_p : Q; cg_q : Q; cg_cost : Q }.
Record cload := CLoad { cl_name : string; cl_bus : string; cl_p : list Q; cl_q : list Q }.
Record cline := CLine { ci_name : string; ci_bus0 : string; ci_bus1 : string; ci_x : Q; ci_r : Q; ci_nom : Q }.
Record ctrs := CTrs { ct_name : string; ct_bus0 : string; ct_bus1 : string; ct_x : Q; ct_r : Q; ct_b : Q; ct_nom : Q; ct_tap : Q }.
Record cnet := CNet { c_time : nat; c_bus : list cbus; c_gen : list cgen; c_load : list cload; c_line : list cline; c_trs : list ctrs }.

(** [l[i]] for a position that is not negative. *)
Definition at_ {A} (l : list A) (i : nat) : res A := match nth_error l i with Some a => Ok a | None => Err IndexError end.

Fixpoint set_nth {A} (l : list A) (i : nat) (a : A) : list A :=
  match l, i with [], _ => [] | _ :: r, O => a :: r | x :: r, S j => x :: set_nth r j a end.

(** A list with the positions of its items. *)
Definition numbered {A} (l : list A) : list (nat * A) := combine (seq 0 (List.length l)) l.

(** pyeneI.py:45-47, 'Bus'+str(number). *)
Definition bus_name (z : Z) : string := ("Bus" ++ str_Z z)%string.
Definition gen_name (k : nat) : string := ("Gen" ++ str_nat k)%string.
Definition load_name (k : nat) : string := ("Load" ++ str_nat k)%string.
Definition line_name (k : nat) : string := ("Line" ++ str_nat k)%string.
Definition trs_name (k : nat) : string := ("Trs" ++ str_nat k)%string.

(** pyeneI.py:74-77: the array of set points of the PV buses. *)
Definition pv_step (N : net) (pv : list Q) (g : gen) : res (list Q) :=
  do b <- at_ (n_bus N) (g_pos g);
  Ok (if (b_type b =? 2)%Z then set_nth pv (g_pos g) (g_vg g) else pv).
Definition pv_bus (N : net) : res (list Q) := foldM (pv_step N) (n_conv N) (repeat 0%Q (List.length (n_bus N))).

(** pyeneI.py:79-101: a bus.  pypsa refuses a name that is already there
    (an assertion of [Network.add]). *)
Definition bus_step (pv : list Q) (acc : list cbus) (x : nat * bus) : res (list cbus) :=
  let b := snd x in
  let nom := if Qeq_bool (b_kv b) 0 then 1%Q else b_kv b in
  do set <- (if ((b_type b =? 2) || (b_type b =? 3))%Z then Ok (b_vm b) else at_ pv (fst x));
  if existsb (fun c => String.eqb (cb_name c) (bus_name (b_number b))) acc then Err AssertionError
  else Ok (acc ++ [CBus (bus_name (b_number b)) nom set (b_vmin b) (b_vmax b) (b_xy b)]).
Definition buses (N : net) (pv : list Q) : res (list cbus) := foldM (bus_step pv) (numbered (n_bus N)) [].

(** pyeneI.py:134-151: conventional generators; [fst x] generators came before. *)
Definition conv_gen (N : net) (x : nat * gen) : res cgen :=
  let g := snd x in
  do b <- at_ (n_bus N) (g_pos g);
  let control := if (b_type b =? 1)%Z then "PQ" else if (b_type b =? 2)%Z then "PV" else "Slack" in
  do c <- at_ (g_cost g) 0;
  Ok (CGen (gen_name (fst x + 1)) (bus_name (g_bus g)) control (inl (g_max g * n_base N)%Q) None (g_p g) (g_q g) (fst c)).

(** pyeneI.py:153-168: RES generators.  The counter has been increased when
    the name is made with str(xg+1). *)
Definition res_gen (N : net) (scen : nat) (x : nat * gen) : res cgen :=
  let g := snd x in
  let xg := (List.length (n_conv N) + fst x + 1)%nat in
  do y <- mapM (fun t => do l <- at_ (n_res_scen N) (fst x); do o <- at_ l scen; at_ (n_wind N) (o + t)) (seq 0 (n_time N));
  do c <- at_ (g_cost g) 0;
  Ok (CGen (gen_name (xg + 1)) (bus_name (g_bus g)) "PQ" (inr y) (Some (g_max g * n_base N)%Q) 0%Q 0%Q (fst c)).

(** pyeneI.py:195-210: loads of the buses with PD; the bus is named by its
    position. *)
Definition load_step (N : net) (scen : nat) (acc : list cload) (xn : nat) : res (list cload) :=
  do pd <- at_ (n_pd N) xn;
  if Qeq_bool pd 0 then Ok acc
  else
    do y <- mapM (fun t =>
      do l <- at_ (n_bus_scen N) xn; do o <- at_ l scen; do a <- at_ (n_demand N) (o + t);
      do qd <- at_ (n_qd N) xn; Ok ((pd * a)%Q, (qd * a)%Q)) (seq 0 (n_time N));
    Ok (acc ++ [CLoad (load_name (List.length acc + 1)) (bus_name (Z.of_nat xn + 1)) (map fst y) (map snd y)]).
Definition loads (N : net) (scen : nat) : res (list cload) :=
  foldM (load_step N scen) (seq 0 (List.length (n_bus N))) [].

(** nu.buses['v_nom'][name]. *)
Fixpoint v_nom (name : string) (l : list cbus) : res Q :=
  match l with
  | [] => Err KeyError
  | b :: r => if String.eqb (cb_name b) name then Ok (cb_nom b) else v_nom name r
  end.

(** pyeneI.py:236-248: lines.  The base is taken not to be 0 (numpy would
    give inf). *)
Definition line_step (N : net) (bs : list cbus) (acc : list cline) (x : nat * branch) : res (list cline) :=
  let r := snd x in
  if Qeq_bool (r_tap r) 0 then
    do v <- v_nom (bus_name (r_from r)) bs;
    let pu := (v * v / n_base N)%Q in
    Ok (acc ++ [CLine (line_name (fst x + 1)) (bus_name (r_from r)) (bus_name (r_to r)) (r_x r * pu)%Q (r_r r * pu)%Q
                  (r_rate r * n_base N)%Q])
  else Ok acc.
Definition lines (N : net) (bs : list cbus) : res (list cline) := foldM (line_step N bs) (numbered (n_branch N)) [].

(** pyeneI.py:273-287: transformers. *)
Definition trs (N : net) : list ctrs :=
  map (fun x => let r := snd x in
    CTrs (trs_name (fst x + 1)) (bus_name (r_from r)) (bus_name (r_to r)) (r_x r) (r_r r) (r_b r) (r_rate r * n_base N)%Q (r_tap r))
  (filter (fun x => negb (Qeq_bool (r_tap (snd x)) 0)) (numbered (n_branch N))).

(** pyeneI.py:31-292, [pyene2pypsa]; the flag that is returned is always True. *)
Definition convert (N : net) (scen : nat) : res cnet :=
  do pv <- pv_bus N;
  do bs <- buses N pv;
  do gc <- mapM (conv_gen N) (numbered (n_conv N));
  do gr <- mapM (res_gen N scen) (numbered (n_res N));
  do ls <- loads N scen;
  do li <- lines N bs;
  Ok (CNet (n_time N) bs (gc ++ gr) ls li (trs N)).

(** ** Results *)

(** What pypsa gives after a power flow: a value for each name and snapshot. *)
Record frames := Frames {
  f_gp : string -> nat -> Q; f_gq : string -> nat -> Q; f_vm : string -> nat -> Q; f_va : string -> nat -> Q;
  f_lp0 : string -> nat -> Q; f_lp1 : string -> nat -> Q; f_lq0 : string -> nat -> Q; f_lq1 : string -> nat -> Q;
  f_tp0 : string -> nat -> Q; f_tp1 : string -> nat -> Q; f_tq0 : string -> nat -> Q; f_tq1 : string -> nat -> Q }.

(** getattr(frame, name): the columns are the names of the components. *)
Definition column (names : list string) (f : string -> nat -> Q) (name : string) : res (nat -> Q) :=
  if existsb (String.eqb name) names then Ok (f name) else Err AttributeError.

(** pyeneP.py:55-94, 155-216: the rows of the tables that belong to one
    connection xh; the row of a generator is connections['Generation'][xh]+xg
    with connections['Generation'][xh] = xh*NoGen, so that no row is written
    for two connections.  Security constraints add no rows here. *)
Record part := Part {
  p_gp : list (nat -> Q); p_gq : list (nat -> Q); p_cost : list (nat -> Q); p_vm : list (nat -> Q); p_va : list (nat -> Q);
  p_p0 : list (nat -> Q); p_p1 : list (nat -> Q); p_q0 : list (nat -> Q); p_q1 : list (nat -> Q);
  p_lp : list (nat -> Q); p_lq : list (nat -> Q) }.

(** The generators in the order of pyomo['Type'] (pyeneD.py:1491-1531). *)
Definition all_gens (N : net) : list gen := n_conv N ++ n_hydro N ++ n_res N.

(** pyeneD.py:1521-1524, 1393-1395: the largest number of pieces. *)
Definition pieces (N : net) : nat := fold_left (fun k g => Nat.max k (List.length (g_cost g))) (all_gens N) 0%nat.

(** Python's max(a, b). *)
Definition py_max (a b : Q) : Q := if Qle_bool b a then a else b.

(** pyeneP.py:175-183 and pyeneD.py:734-748: one piece of a generator.  The
    reactive power is used. *)
Definition cost_step (w : nat -> Q) (q : nat -> Q) (g : gen) (c : nat -> Q) (xc : nat) : nat -> Q :=
  match nth_error (g_cost g) xc with
  | Some (m1, m2) => fun t => py_max (c t) (q t * m1 * w t + m2)%Q
  | None => c
  end.
Definition cost_row (N : net) (w : nat -> Q) (x : gen * (nat -> Q)) : nat -> Q :=
  fold_left (cost_step w (snd x) (fst x)) (seq 0 (pieces N)) (fun _ => 0%Q).

(** pyeneP.py:159-164. *)
Definition gen_rows (N : net) (C : cnet) (f : string -> nat -> Q) : res (list (nat -> Q)) :=
  mapM (fun g => column (map cg_name (c_gen C)) f (gen_name (g + 1))) (seq 0 (List.length (all_gens N))).

(** pyeneP.py:185-190. *)
Definition bus_rows (N : net) (C : cnet) (f : string -> nat -> Q) : res (list (nat -> Q)) :=
  mapM (fun n => column (map cb_name (c_bus C)) f ("Bus" ++ str_nat (n + 1))%string) (seq 0 (List.length (n_bus N))).

(** pyeneP.py:193-216. *)
Definition branch_rows (N : net) (C : cnet) (fl ft : string -> nat -> Q) : res (list (nat -> Q)) :=
  mapM (fun x : nat * branch =>
    if Qeq_bool (r_tap (snd x)) 0 then column (map ci_name (c_line C)) fl (line_name (fst x + 1))
    else column (map ct_name (c_trs C)) ft (trs_name (fst x + 1))) (numbered (n_branch N)).

Definition sums (a b : list (nat -> Q)) : list (nat -> Q) := map (fun x t => (fst x t + snd x t)%Q) (combine a b).

(** pyeneP.py:157-216, one connection.  The statements of one loop that read
    several columns are separated into one loop for each column: each of them
    only raises AttributeError.  NM.scenarios['Weights'] has a weight for each
    time step. *)
Definition read_part (N : net) (w : nat -> Q) (m : cnet * frames) : res part :=
  let (C, F) := m in
  do gp <- gen_rows N C (f_gp F);
  do gq <- gen_rows N C (f_gq F);
  do vm <- bus_rows N C (f_vm F);
  do va <- bus_rows N C (f_va F);
  do p0 <- branch_rows N C (f_lp0 F) (f_tp0 F);
  do p1 <- branch_rows N C (f_lp1 F) (f_tp1 F);
  do q0 <- branch_rows N C (f_lq0 F) (f_tq0 F);
  do q1 <- branch_rows N C (f_lq1 F) (f_tq1 F);
  Ok (Part gp gq (map (cost_row N w) (combine (all_gens N) gq)) vm va p0 p1 q0 q1 (sums p0 p1) (sums q0 q1)).

(** The value xt has after the loops of lines 157-183, when it has one: the
    loop over the time is run when a generator has a piece. *)
Definition last_t (N : net) (ms : list (cnet * frames)) : option nat :=
  if ((0 <? List.length ms) && (0 <? pieces N) && (0 <? n_time N))%nat then Some (n_time N - 1)%nat else None.

(** pyeneP.py:219-224. *)
Definition objective (N : net) (xt : option nat) (ofaux : list Q) (ps : list part) : res Q :=
  foldM (fun acc x => foldM (fun acc c =>
      match xt with
      | None => Err UnboundLocalError
      | Some t => do o <- at_ ofaux (fst x); Ok (acc + (c : nat -> Q) t * o)%Q
      end) (p_cost (snd x)) acc) (numbered ps) 0%Q.

(** pyeneP.py:155-224: the tables and the objective for the results of pypsa. *)
Definition report (N : net) (w : nat -> Q) (ofaux : list Q) (ms : list (cnet * frames)) : res (list part * Q) :=
  do ps <- mapM (read_part N w) ms;
  do o <- objective N (last_t N ms) ofaux ps;
  Ok (ps, o).
