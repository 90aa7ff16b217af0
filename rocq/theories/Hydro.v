(** Model of pyensys/engines/pyeneH.py (HY): HydrologyClass, the rivers and reservoirs of the energy
    system, from its settings to the pyomo constraints.  The solver is not modelled: an answer is any
    assignment of the variables.

    Simplifications.
    - Numbers are rational, node numbers natural.
    - The columns of rivers (From, To, Share, ...) have the same length; a row is a [river].
    - Division of Python numbers: by zero it raises.  After _BuildParts has divided a river the columns are
      numpy arrays, whose division by zero gives inf or nan instead.  In _Process and addPar division by zero is
      zero; theorems about these numbers say when the divisors are not.
    - pyomo refuses a constraint without any variable (a Boolean); here it is a constraint like the others.
    - settings['Flag'] is true.
    - _Read, OF_rule, printing and print_settings are left out. *)
From Coq Require Import List Bool Arith ZArith QArith Qround Qminmax.
From Verif Require Import Base Cases Network InputOutput.
Import ListNotations.
Open Scope nat_scope.
Open Scope list_scope.

(** One row of self.rivers (HY:33-45). *)
Record river := mkRiver {
  ri_from : nat; ri_to : nat; ri_share : Q; ri_length : Q; ri_slope : Q; ri_width : Q; ri_dmax : Q; ri_dmin : Q; ri_manning : Q }.
Definition nsum (l : list nat) : nat := fold_left Nat.add l 0.
(** max(l) *)
Definition nmax (l : list nat) : res nat := match l with [] => Err ValueError | a :: r => Ok (fold_left Nat.max r a) end.
Definition nmin (l : list nat) : res nat := match l with [] => Err ValueError | a :: r => Ok (fold_left Nat.min r a) end.
(** max([max(From), max(To)]) *)
Definition last_node (rs : list river) : res nat :=
  do a <- nmax (map ri_from rs); do b <- nmax (map ri_to rs); Ok (Nat.max a b).
(** a[node-1]: row of a node in an array of [size] rows; node 0 is the last row. *)
Definition row (size node : nat) : res nat :=
  match node with
  | O => match size with O => Err IndexError | S s => Ok s end
  | S i => if i <? size then Ok i else Err IndexError
  end.

(** ** Parts of rivers *)

(** HY:298-306: one part per river, the same number for all rivers, or as given. *)
Definition parts_of (given : list nat) (n : nat) : list nat :=
  match given with [] => repeat 1 n | [a] => repeat a n | _ => given end.
(** HY:308-325: [aux] is taken from self.rivers['Ramp'] after that has been overwritten with ones; with a
    single given value the whole array is assigned to an entry. *)
Definition ramp_values (n : nat) (parts : list nat) (ramp : list Q) : res (list nat) :=
  let total := nsum parts in
  match ramp with
  | [] => Ok (repeat 1 total)
  | [_] => if total <=? 1 then Ok (repeat 1 total) else Err ValueError
  | _ =>
    do u <- foldM (fun u xp => do k <- at_ parts xp; if (0 <? k) && (total <=? xp) then Err IndexError else Ok u) (seq 0 n) tt;
    Ok (repeat 1 total)
  end.
(** HY:343-350 and 357-364. *)
Definition bucket (r : river) (a b : nat) (share len : Q) : river :=
  mkRiver a b share len (ri_slope r) (ri_width r) (ri_dmax r) (ri_dmin r) (ri_manning r).
(** HY:341-365: the parts of one river; [k] parts follow this one, [xn] is the last node so far. *)
Fixpoint chain (r : river) (len : Q) (k a xn : nat) (share : Q) : list river * nat :=
  match k with
  | O => ([bucket r a (ri_to r) share len], xn)
  | S k' => let (l, xn') := chain r len k' (S xn) (S xn) 1 in (bucket r a (S xn) share len :: l, xn')
  end.
(** The rows of the new arrays that are not written (HY:329-337). *)
Definition blank_river : river := mkRiver 0 0 1 0 0 0 0 0 0.
(** HY:339-377. *)
Definition divide_rivers (parts : list nat) (rs : list river) (nodes : nat) : res (list river * nat) :=
  do st <- foldM (fun st ir =>
      let '(xn, l) := st in
      do k <- at_ parts (fst ir);
      match k with
      | O => Err ZeroDivisionError
      | S k' => let (ps, xn') := chain (snd ir) (ri_length (snd ir) / inject_Z (Z.of_nat k))%Q k' (ri_from (snd ir)) xn (ri_share (snd ir)) in
                Ok (xn', l ++ ps)
      end) (combine (seq 0 (List.length rs)) rs) (nodes, []);
  Ok (snd st ++ repeat blank_river (nsum parts - List.length (snd st)), fst st).
(** HY:292-377, _BuildParts: the rivers, nodes['Number'] and Ramp. *)
Definition build_parts (given : list nat) (ramp : list Q) (rs : list river) : res (list river * nat * list nat) :=
  do n <- last_node rs;
  let parts := parts_of given (List.length rs) in
  do rp <- ramp_values (List.length rs) parts ramp;
  if List.length rs <? nsum parts then do d <- divide_rivers parts rs n; Ok (d, rp)
  else Ok (rs, n, rp).

(** ** Input and output nodes *)

(** HY:232-249: the nodes of one kind, then the nodes of the pumps that are not among them; [size] is NoHM. *)
Definition note_node (size : nat) (st : list bool * list nat) (xn : nat) : res (list bool * list nat) :=
  do i <- row size xn;
  if List.length (snd st) <? size then Ok (set_nth i true (fst st), snd st ++ [xn]) else Err IndexError.
Definition add_pump_nodes (size : nat) (nodes pumps : list nat) : res (list nat) :=
  do st <- foldM (note_node size) nodes (repeat false size, []);
  do st <- foldM (fun (st : list bool * list nat) xn =>
      if xn =? 0 then Ok st
      else do i <- row size xn; do f <- at_ (fst st) i; if (f : bool) then Ok st else note_node size st xn) pumps st;
  Ok (snd st).
(** HY:229-249: (In, Out). *)
Definition water_nodes (rs : list river) (n_in n_out pump_from pump_to : list nat) : res (list nat * list nat) :=
  match pump_from with
  | [] => Ok (n_in, n_out)
  | _ =>
    do size <- last_node rs;
    do o <- add_pump_nodes size n_out pump_from;
    do i <- add_pump_nodes size n_in pump_to;
    Ok (i, o)
  end.
(** HY:267-273: per node a flag and the position in the list. *)
Definition node_table (size : nat) (nodes : list nat) : res (list (nat * nat)) :=
  foldM (fun t ix => do i <- row size (snd ix); Ok (set_nth i (1, fst ix) t)) (combine (seq 0 (List.length nodes)) nodes) (repeat (0, 0) size).

(** ** Rivers of a node *)

(** networkH (HY:136-144): a simple undirected graph. *)
Definition graph_nodes (rs : list river) (nodes : nat) : res nat :=
  do a <- nmin (map ri_from rs); do b <- nmin (map ri_to rs);
  Ok (List.length (nodup Nat.eq_dec (seq (Nat.min a b) nodes ++ map ri_from rs ++ map ri_to rs))).
Definition ends (r : river) : nat * nat := (Nat.min (ri_from r) (ri_to r), Nat.max (ri_from r) (ri_to r)).
Definition pair_dec (a b : nat * nat) : {a = b} + {a <> b}.
Proof. decide equality; apply Nat.eq_dec. Defined.
Definition graph_edges (rs : list river) : nat := List.length (nodup pair_dec (map ends rs)).

(** HY:146-156: LLaux, LLnext, and the columns 2-3 (rivers that leave) and 0-1 (rivers that arrive) of LLN2B2. *)
Record links := mkLinks { l_aux : list nat; l_next : list nat; l_out : list (nat * nat); l_in : list (nat * nat); l_x0 : nat }.
(** HY:168-169 *)
Fixpoint last_link (fuel : nat) (next : list nat) (p : nat) : res nat :=
  do n <- at_ next p;
  if n =? 0 then Ok p else match fuel with O => Err OutOfFuel | S f => last_link f next n end.
(** HY:162-174: one end of a river. *)
Definition link_end (tab : list (nat * nat)) (next : list nat) (x0 node : nat) : res (list (nat * nat) * list nat) :=
  do i <- row (List.length tab) node;
  do cp <- at_ tab i;
  let '(cnt, pos) := cp in
  if (pos =? 0) && (cnt =? 0) then Ok (set_nth i (1, x0) tab, next)
  else do p <- last_link (List.length next) next pos; Ok (set_nth i (S cnt, pos) tab, set_nth p x0 next).
Definition link_river (st : links) (br : nat * river) : res links :=
  let '(xb, r) := br in
  do o <- link_end (l_out st) (l_next st) (l_x0 st) (ri_from r);
  do aux <- store (l_aux st) (l_x0 st) xb;
  do i <- link_end (l_in st) (snd o) (S (l_x0 st)) (ri_to r);
  do aux <- store aux (S (l_x0 st)) xb;
  Ok (mkLinks aux (snd i) (fst o) (fst i) (S (S (l_x0 st)))).
(** HY:190-194 *)
Fixpoint follow (aux next : list nat) (k pos : nat) (l1 : list nat) (x0 : nat) : res (list nat * nat) :=
  match k with
  | O => Ok (l1, x0)
  | S k' => do b <- at_ aux pos; do l1 <- store l1 x0 b; do p <- at_ next pos; follow aux next k' p l1 (S x0)
  end.
(** HY:180-194 for one of the two kinds; xacu and x0. *)
Definition arrange (aux next : list nat) (tab : list (nat * nat)) (st : list nat * nat * nat) : res (list nat * nat * nat * list (nat * nat)) :=
  foldM (fun st cp =>
      let '(l1, x0, xacu, out) := st in
      let '(cnt, pos) := cp in
      if cnt =? 0 then Ok (l1, x0, xacu, out ++ [cp])
      else do r <- follow aux next cnt pos l1 x0; Ok (fst r, snd r, xacu + cnt, out ++ [(cnt, xacu)])) tab (st, []).
(** HY:134-194: LLN2B1 and the two halves of LLN2B2. *)
Record adjacency := mkAdj { a_list : list nat; a_out : list (nat * nat); a_in : list (nat * nat) }.
Definition build_network (rs : list river) (nodes : nat) : res adjacency :=
  do nn <- graph_nodes rs nodes;
  let n := 2 * graph_edges rs in
  do st <- foldM link_river (combine (seq 0 (List.length rs)) rs) (mkLinks (repeat 0 n) (repeat 0 n) (repeat (0, 0) nn) (repeat (0, 0) nn) 0);
  do o <- arrange (l_aux st) (l_next st) (l_out st) (repeat 0 n, 0, 0);
  do i <- arrange (l_aux st) (l_next st) (l_in st) (fst o);
  Ok (mkAdj (fst (fst (fst i))) (snd o) (snd i)).
(** The d-th river of a node in LLN2B1. *)
Definition nth_river (l1 : list nat) (cp : nat * nat) (d : nat) : res nat := at_ l1 (snd cp + d).
(** HY:196-220: pairs of rivers that leave the same node and the ratio of their shares. *)
Definition share_links (rs : list river) (nodes : nat) (a : adjacency) : res (list (nat * nat * Q)) :=
  do ls <- mapM (fun xn =>
      do cp <- at_ (a_out a) xn;
      mapM (fun xb =>
        do b1 <- nth_river (a_list a) cp xb;
        do b2 <- nth_river (a_list a) cp (xb + 1);
        do r1 <- at_ rs b1; do r2 <- at_ rs b2;
        if Qeq_bool (ri_share r1) 0 then Err ZeroDivisionError else Ok (b1, b2, (ri_share r2 / ri_share r1)%Q)) (seq 0 (fst cp - 1))) (seq 0 nodes);
  Ok (List.concat ls).

(** ** Other tables *)

(** HY:756-779, SoCLinks; [lf] and [lt] are LinksF and LinksT.  Without links the variable is never bound.
    Simplification: a flat list [a, b] is the list [[a, b]]. *)
Definition soc_links (lf lt : list (nat * nat)) (scenarios rivers time : nat) : res (list (nat * nat * (nat * nat))) :=
  match lf with
  | [] => Err UnboundLocalError
  | _ =>
    mapM (fun i =>
      do f <- at_ lf i; do t <- at_ lt i;
      do a <- (if fst f <? scenarios then Ok (rivers * fst f) else Err IndexError);
      do b <- at_ [0; time] (snd f);
      do c <- (if fst t <? scenarios then Ok (rivers * fst t) else Err IndexError);
      do d <- at_ [0; time] (snd t);
      Ok (a, b, (c, d))) (seq 0 (List.length lf))
  end.

(** Hydropower units (HY:61-67) without Storage, which may be left empty. *)
Record unit_ := mkUnit { u_node : nat; u_eff : Q; u_head : Q }.
(** int() of a number. *)
Definition truncate (q : Q) : Z := Z.quot (Qnum q) (Zpos (Qden q)).
Record storage := mkStorage { s_no : nat; s_cap : list Z; s_node : list (nat * nat); s_time : list (nat * nat) }.
(** HY:782-806 *)
Definition storage_units (nodes time : nat) (us : list unit_) (st : list Q) : res storage :=
  do r <- foldM (fun acc i =>
      let '(cou, cap, tab) := acc in
      do s <- at_ st i;
      if Qeq_bool s 0 then Ok acc
      else
        do u <- at_ us i;
        do x <- row nodes (u_node u);
        if Qeq_bool (u_eff u) 0 || Qeq_bool (u_head u) 0 then Err ZeroDivisionError
        else
          do cap <- store cap (S cou) (truncate (s * 1000 / (981 # 100) / u_eff u / u_head u)%Q);
          Ok (S cou, cap, set_nth x (1, cou) tab)) (seq 0 (List.length st)) (0, repeat 0%Z (S nodes), repeat (0, 0) nodes);
  let '(cou, cap, tab) := r in
  let cap := match st with [] => cap | _ => firstn (S cou) cap end in
  match cou with
  | O => Ok (mkStorage 0 cap tab (repeat (0, 0) time))
  | S _ =>
    match time with
    | O => Err IndexError
    | S t => Ok (mkStorage cou cap tab ((0, t) :: map (fun x => (x, x - 1)) (seq 1 t)))
    end
  end.

(** HY:808-818: LLpumpFrom and LLpumpTo. *)
Definition pump_tables (nodes : nat) (pf pt : list nat) : res (list (nat * nat) * list (nat * nat)) :=
  foldM (fun st x =>
      do f <- at_ pf x; do i <- row nodes f;
      let a := set_nth i (1, x) (fst st) in
      do t <- at_ pt x;
      if 0 <? t then Ok (a, set_nth i (1, x) (snd st)) else Ok (a, snd st)) (seq 0 (List.length pf)) (repeat (0, 0) nodes, repeat (0, 0) nodes).

(** HY:832-846: for every output node from which no river starts its position and the first river that ends
    there. *)
Fixpoint first_to (rs : list river) (node i : nat) : res nat :=
  match rs with [] => Err IndexError | r :: rest => if ri_to r =? node then Ok i else first_to rest node (S i) end.
Definition out_constraints (rs : list river) (n_out : list nat) : res (list (nat * nat)) :=
  foldM (fun l ix =>
      if existsb (Nat.eqb (snd ix)) (map ri_from rs) then Ok l
      else do xr <- first_to rs (snd ix) 0; Ok (l ++ [(fst ix, xr)])) (combine (seq 0 (List.length n_out)) n_out) [].

(** ** Flow limits *)

Section Process.
(** d ** (5/3), x ** 0.5 and d ** (2/3). *)
Variables (pow53 root pow23 : Q -> Q).
(** settings['seconds'] and settings['M']. *)
Variables (seconds M : Q).
(** HY:394-402: flow and speed at depth [d]; volume. *)
Definition flow (r : river) (d : Q) : Q := (ri_width r * pow53 d * root (ri_slope r) / ri_manning r)%Q.
Definition speed (r : river) (d : Q) : Q := (pow23 d * root (ri_slope r) / ri_manning r)%Q.
Definition volume (r : river) (d : Q) : Q := ((ri_length r * d * ri_width r) / M)%Q.
Definition q_max (r : river) : Q := flow r (ri_dmax r).
Definition q_min (r : river) : Q := flow r (ri_dmin r).
(** HY:421-426: the share of the flow that leaves within a time step, for [b] buckets and speed [s]. *)
Definition leaving (len : Q) (b : Z) (s : Q) : Q :=
  let dl := (len / inject_Z b)%Q in
  let k := inject_Z (Z.min b (Qfloor (s * seconds / dl))) in
  (k / inject_Z b - dl * k * (k + 1) / 2 / s / seconds / inject_Z b)%Q.
Definition leaving_pair (r : river) : Q * Q :=
  let s0 := speed r (ri_dmax r) in let s1 := speed r (ri_dmin r) in
  let d := (s1 * seconds)%Q in
  if Qeq_bool d 0 then
    let d := Qmin (s0 * seconds) (ri_length r) in
    ((d - (1 # 2) * d ^ 2 / seconds / s0) / ri_length r, 0)%Q
  else
    let b := Qceiling (ri_length r / d) in
    (leaving (ri_length r) b s0, leaving (ri_length r) b s1).
(** HY:428-440: the coefficients of the flow that leaves as a function of the flow that enters. *)
Definition f_linear (r : river) : Q * Q * Q :=
  let q0 := q_max r in let q1 := q_min r in
  let '(a1, a2) := leaving_pair r in
  let f0 := ((q0 * a1 + (1 - a1) * q1 - q1 * a2 - (1 - a2) * q1) / (q0 - q1))%Q in
  let f1 := (q0 * a1 + (1 - a1) * q1 - f0 * q0)%Q in
  let a3 := ((q0 * a1 + (1 - a1) * q0 - q1 * a2 - (1 - a2) * q0) / (q0 - q1))%Q in
  let a4 := (q0 * a1 + (1 - a1) * q0 - a3 * q0)%Q in
  (f0, f1, (a3 * q0 + a4 - f0 * q0 - f1) / (q0 - q1))%Q.
(** HY:442-454: the flow as a function of the volume. *)
Definition q_linear (r : river) : Q * Q :=
  let q0 := q_max r in let q1 := q_min r in
  let s0 := speed r (ri_dmax r) in
  let dt := (seconds / M)%Q in
  let '(f0, f1, f2) := f_linear r in
  let v := if Qle_bool (ri_length r) (s0 * seconds) then 1%Q else (ri_length r / s0 / seconds)%Q in
  let v := (Qmax ((q0 * f0 - f1 + f2 * q1) * dt) ((- q1 * f0 + f1 + f2 * q0) * dt) * v)%Q in
  let k := ((q0 - q1) / v)%Q in
  (k, (q1 - k * volume r (ri_dmin r))%Q).
(** HY:404-407: self.p['Ramp'] is replaced by a number for every river; [zeros] without rivers. *)
Inductive ramp_par := RampZeros | RampAll (q : Q).
Definition ramp_limit (rs : list river) (ramp : list nat) : res ramp_par :=
  foldM (fun _ ir => do k <- at_ ramp (fst ir); Ok (RampAll ((q_max (snd ir) - q_min (snd ir)) * inject_Z (Z.of_nat k))%Q))
    (combine (seq 0 (List.length rs)) rs) RampZeros.
End Process.

(** ** The pyomo model *)

Inductive var :=
| HIn (i t : nat) | HOut (i t : nat) | HUp (r t : nat) | HDown (r t : nat) | HSoC (r t : nat) | HStor (i t : nat) | HFeas (i t : nat) | HPenalty.
Inductive expr := EK (q : Q) | EV (v : var) | EAdd (a b : expr) | ESub (a b : expr) | EMul (q : Q) (a : expr).
Inductive constr := CLe (a b : expr) | CEq (a b : expr).
Definition esum (l : list expr) : expr := fold_left EAdd l (EK 0).
Fixpoint eval (s : var -> Q) (e : expr) : Q :=
  match e with
  | EK q => q
  | EV v => s v
  | EAdd a b => eval s a + eval s b
  | ESub a b => eval s a - eval s b
  | EMul q a => q * eval s a
  end%Q.
Definition sat (s : var -> Q) (c : constr) : Prop := match c with CLe a b => eval s a <= eval s b | CEq a b => eval s a == eval s b end%Q.

(** What initialise, addSets and addPar leave in self. *)
Record hydro := mkHydro {
  y_rivers : nat; y_nodes : nat; y_time : nat; y_scen : nat; y_feas : bool; y_dt : Q; y_penalty : Q;
  y_in : list nat; y_out : list nat; y_lin : list (nat * nat); y_lout : list (nat * nat); y_adj : adjacency; y_share : list (nat * nat * Q);
  y_soc : list (nat * nat * (nat * nat)); y_stor : storage; y_minout : list (nat * nat);
  y_qmax : list Q; y_qmin : list Q; y_qlin : list (Q * Q); y_flin : list (Q * Q * Q); y_ramp : ramp_par;
  y_fixed : list (nat * nat * Q); y_incn : list nat; y_incs : list nat; y_series1 : list Q; y_series : list (list Q) }.

Section Model.
Variable Y : hydro.
(** HY:275-290: FeasNo, FeasNoTime, Feas and FeasTime. *)
Definition feas_no : nat := if y_feas Y then y_rivers Y else 1.
Definition feas_times : nat := if y_feas Y then y_time Y else 1.
Definition feas_row (r h : nat) : nat := if y_feas Y then h * y_rivers Y + r else 0.
Definition feas_time (t : nat) : nat := if y_feas Y then t else 0.

(** HY:580-612, addVars: the index sets.  Without storage vHStor has no index. *)
Definition declared (v : var) : bool :=
  match v with
  | HIn i t => (i <? y_scen Y * List.length (y_in Y)) && (t <? y_time Y)
  | HOut i t => (i <? y_scen Y * List.length (y_out Y)) && (t <? y_time Y)
  | HUp r t | HDown r t => (r <? y_scen Y * y_rivers Y) && (t <? y_time Y)
  | HSoC r t => (r <? y_scen Y * y_rivers Y) && (t <? S (y_time Y))
  | HStor i t => negb (s_no (y_stor Y) =? 0) && (i <? y_scen Y * s_no (y_stor Y)) && (t <? y_time Y)
  | HFeas i t => (i <? feas_no * y_scen Y) && (t <? feas_times)
  | HPenalty => true
  end.
(** m.v[...] *)
Definition get (v : var) : res expr := if declared v then Ok (EV v) else Err KeyError.
Definition gets (vs : list var) : res expr := do l <- mapM get vs; Ok (esum l).

(** ConRiver, ConInNode, ConOutNode (HY:258-265). *)
Definition con_river (h : nat) : nat := y_rivers Y * h.
Definition con_in (h : nat) : nat := List.length (y_in Y) * h.
Definition con_out (h : nat) : nat := List.length (y_out Y) * h.
Definition slack (r t h : nat) : res expr := get (HFeas (feas_row r h) (feas_time t)).

(** HY:614-617 *)
Definition fixed_input (f : nat * nat * Q) : res constr := do v <- get (HIn (fst (fst f)) (snd (fst f))); Ok (CEq v (EK (snd f))).
(** HY:619-621: one controlled input. *)
Definition fixed_vector (t : nat) : res constr := do n <- at_ (y_incn Y) 0; do v <- get (HIn n t); do q <- at_ (y_series1 Y) t; Ok (CEq v (EK q)).
(** HY:623-627 *)
Definition fixed_matrix (t x : nat) : res constr :=
  do h <- at_ (y_incs Y) x;
  do c <- (if h <? y_scen Y then Ok (con_in h) else Err IndexError);
  do n <- at_ (y_incn Y) x;
  do v <- get (HIn (c + n) t);
  do s <- at_ (y_series Y) x; do q <- at_ s t; Ok (CEq v (EK q)).
(** HY:629-638 *)
Definition down_time (r t h : nat) : res constr :=
  do d <- get (HDown (con_river h + r) t);
  do f <- at_ (y_flin Y) r;
  do u <- get (HUp (con_river h + r) t);
  do s <- slack r t h;
  do v <- get (HSoC (con_river h + r) t);
  do q <- at_ (y_qlin Y) r;
  do m <- at_ (y_qmin Y) r;
  let '(f0, f1, f2) := f in
  Ok (CEq d (EAdd (ESub (EAdd (EMul f0 u) (EK f1)) s) (EMul f2 (EAdd (EMul (fst q) v) (EK (snd q - m)%Q))))).
(** HY:640-644 *)
Definition soc_link (l : nat * nat * (nat * nat)) (r : nat) : res constr :=
  let '(a, b, (c, d)) := l in do x <- get (HSoC (a + r) b); do y <- get (HSoC (c + r) d); Ok (CEq x y).
(** HY:646-653 *)
Definition stor_max (n t h : nat) : res constr :=
  do v <- get (HStor (h * s_no (y_stor Y) + n) t); do c <- at_ (s_cap (y_stor Y)) (n + 1); Ok (CLe v (EK (inject_Z c))).
Definition stor_link (n : nat) : res constr := do a <- get (HStor n 0); do b <- get (HStor n (y_time Y - 1)); Ok (CEq a b).
(** HY:655-683 *)
Definition max_down (r t h : nat) : res constr :=
  do v <- get (HDown (con_river h + r) t); do q <- at_ (y_qmax Y) r; do s <- slack r t h; Ok (CLe v (EAdd (EK q) s)).
Definition max_up (r t h : nat) : res constr :=
  do v <- get (HUp (con_river h + r) t); do q <- at_ (y_qmax Y) r; do s <- slack r t h; Ok (CLe v (EAdd (EK q) s)).
Definition min_down (r t h : nat) : res constr :=
  do v <- get (HDown (con_river h + r) t); do q <- at_ (y_qmin Y) r; do s <- slack r t h; Ok (CLe (ESub (EK q) s) v).
Definition min_out (o : nat * nat) (t h : nat) : res constr :=
  do v <- get (HOut (con_out h + fst o) t); do q <- at_ (y_qmin Y) (snd o); do s <- slack (snd o) t h; Ok (CLe (ESub (EK q) s) v).
Definition min_up (r t h : nat) : res constr :=
  do v <- get (HUp (con_river h + r) t); do q <- at_ (y_qmin Y) r; do s <- slack r t h; Ok (CLe (ESub (EK q) s) v).
(** HY:685-703 *)
Definition node_balance (n t h : nat) : res constr :=
  do st <- at_ (s_node (y_stor Y)) n;
  do li <- at_ (y_lin Y) n;
  do lo <- at_ (y_lout Y) n;
  do ai <- at_ (a_in (y_adj Y)) n;
  do ao <- at_ (a_out (y_adj Y)) n;
  do tm <- at_ (s_time (y_stor Y)) t;
  let base := h * s_no (y_stor Y) + snd st in
  do a <- gets (map (fun _ => HIn (con_in h + snd li) t) (seq 0 (fst li)));
  do ds <- mapM (nth_river (a_list (y_adj Y)) ai) (seq 0 (fst ai));
  do d <- gets (map (fun b => HDown (con_river h + b) t) ds);
  do us <- mapM (nth_river (a_list (y_adj Y)) ao) (seq 0 (fst ao));
  do u <- gets (map (fun b => HUp (con_river h + b) t) us);
  do o <- gets (map (fun _ => HOut (con_out h + snd lo) t) (seq 0 (fst lo)));
  do s0 <- gets (map (fun x => HStor (base + x) (fst tm)) (seq 0 (fst st)));
  do s1 <- gets (map (fun x => HStor (base + x) (snd tm)) (seq 0 (fst st)));
  Ok (CEq (EAdd a d) (ESub (EAdd (EAdd u o) s0) s1)).
(** HY:705-713 *)
Definition penalty_rule : res constr :=
  do l <- mapM (fun h => do l <- mapM (fun t => do l <- mapM (fun r => slack r t h) (seq 0 (y_rivers Y)); Ok (EMul (y_penalty Y) (esum l)))
                                      (seq 0 (y_time Y)); Ok (esum l)) (seq 0 (y_scen Y));
  Ok (CEq (EV HPenalty) (EMul 1000 (esum l))).
(** HY:714-724: the second flow is taken at FeasTime[xt]. *)
Definition ramp_down (r t h : nat) : res constr :=
  do a <- get (HUp (con_river h + r) t); do b <- get (HUp (con_river h + r) (feas_time t));
  match y_ramp Y with RampAll q => Ok (CLe (EK (- q)) (ESub a b)) | RampZeros => Err TypeError end.
Definition ramp_up (r t h : nat) : res constr :=
  do a <- get (HUp (con_river h + r) t); do b <- get (HUp (con_river h + r) (feas_time t));
  match y_ramp Y with RampAll q => Ok (CLe (ESub a b) (EK q)) | RampZeros => Err TypeError end.
(** HY:726-730 *)
Definition river_balance (r t h : nat) : res constr :=
  let x := con_river h + r in
  do d <- get (HDown x t); do u <- get (HUp x t); do s0 <- get (HSoC x t); do s1 <- get (HSoC x (t + 1));
  Ok (CEq (EMul (y_dt Y) d) (ESub (EAdd (EMul (y_dt Y) u) s0) s1)).
(** HY:732-736 *)
Definition weights (w : nat * nat * Q) (t h : nat) : res constr :=
  let '(b1, b2, k) := w in
  do x <- get (HUp (con_river h + b1) t); do y <- get (HUp (con_river h + b2) t); Ok (CEq (EMul k x) y).

(** Constraint(A, times, scenarios, rule=...) *)
Definition over {A} (l : list A) (f : A -> nat -> nat -> res constr) : res (list constr) :=
  do r <- mapM (fun a => do r <- mapM (fun t => mapM (fun h => f a t h) (seq 0 (y_scen Y))) (seq 0 (y_time Y)); Ok (List.concat r)) l;
  Ok (List.concat r).
Definition rivers_set : list nat := seq 0 (y_rivers Y).

(** HY:478-542, addCon with Flag: all constraints. *)
Definition constraints : res (list constr) :=
  do c1 <- over rivers_set max_down; do c2 <- over rivers_set max_up; do c3 <- over rivers_set min_down; do c4 <- over rivers_set min_up;
  do c5 <- over (y_minout Y) min_out; do c6 <- over (seq 0 (y_nodes Y)) node_balance; do c7 <- penalty_rule; do c8 <- over rivers_set river_balance;
  do c9 <- over (y_share Y) weights;
  do c10 <- mapM (fun l => mapM (soc_link l) rivers_set) (y_soc Y);
  do c11 <- over rivers_set down_time;
  do c12 <- mapM fixed_input (y_fixed Y);
  do c13 <- over (seq 0 (s_no (y_stor Y))) stor_max;
  do c14 <- mapM stor_link (seq 0 (y_scen Y * s_no (y_stor Y)));
  do c15 <- over rivers_set ramp_down; do c16 <- over rivers_set ramp_up;
  do c17 <- match y_incn Y with
            | [] => Ok []
            | [_] => mapM fixed_vector (seq 0 (y_time Y))
            | _ => do l <- mapM (fun t => mapM (fixed_matrix t) (seq 0 (List.length (y_incn Y)))) (seq 0 (y_time Y)); Ok (List.concat l)
            end;
  Ok (c1 ++ c2 ++ c3 ++ c4 ++ c5 ++ c6 ++ [c7] ++ c8 ++ c9 ++ List.concat c10 ++ c11 ++ c12 ++ c13 ++ c14 ++ c15 ++ c16 ++ c17).

(** An answer of a solver: the constraints hold and no variable is negative. *)
Definition answer (s : var -> Q) : Prop :=
  (forall v, declared v = true -> 0 <= s v)%Q /\ exists cs, constraints = Ok cs /\ Forall (sat s) cs.
End Model.

(** ** initialise *)

(** The settings that are used (HY:22-74). *)
Record settings := mkSettings {
  e_rivers : list river; e_parts : list nat; e_ramps : list Q; e_in : list nat; e_out : list nat; e_pump_from : list nat; e_pump_to : list nat;
  e_units : list unit_; e_storage : list Q; e_links_from : list (nat * nat); e_links_to : list (nat * nat); e_scen : nat; e_time : nat; e_feas : bool;
  e_seconds : Q; e_m : Q; e_penalty : Q; e_fixed : list (nat * nat * Q); e_incn : list nat; e_incs : list nat; e_series1 : list Q; e_series : list (list Q) }.
(** HY:738-846 and 549-578. *)
Definition initialise (pow53 root pow23 : Q -> Q) (E : settings) : res hydro :=
  do p <- build_parts (e_parts E) (e_ramps E) (e_rivers E);
  let '(rs, nodes, ramp) := p in
  do io <- water_nodes rs (e_in E) (e_out E) (e_pump_from E) (e_pump_to E);
  do li <- node_table nodes (fst io);
  do lo <- node_table nodes (snd io);
  do rp <- ramp_limit pow53 root rs ramp;
  do adj <- build_network rs nodes;
  do sh <- share_links rs nodes adj;
  do soc <- soc_links (e_links_from E) (e_links_to E) (e_scen E) (List.length rs) (e_time E);
  do st <- storage_units nodes (e_time E) (e_units E) (e_storage E);
  do pt <- pump_tables nodes (e_pump_from E) (e_pump_to E);
  do oc <- out_constraints rs (snd io);
  Ok (mkHydro (List.length rs) nodes (e_time E) (e_scen E) (e_feas E) (e_seconds E / e_m E)%Q (e_penalty E) (fst io) (snd io) li lo adj sh soc st oc
        (map (q_max pow53 root) rs) (map (q_min pow53 root) rs) (map (q_linear pow53 root pow23 (e_seconds E) (e_m E)) rs)
        (map (f_linear pow53 root pow23 (e_seconds E)) rs) rp (e_fixed E) (e_incn E) (e_incs E) (e_series1 E) (e_series E)).
