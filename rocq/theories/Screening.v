(** Model of the screening model: model_screening in pyensys/Optimisers/screening_model_CLI.py
    (SC:79-726), the pyomo model that main_screening (Cases.v) solves for every year and scenario.
    The solver is not modelled: an answer is any assignment of the variables.

    Simplifications.
    - Numbers are rational; the bound 2*pi of the angles is an argument.
    - The graph of SC:168-278 only renames the entries of the tables (every element has its own
      identifier), so m.para["Gen3_PMAX"] is mpc["gen"]["PMAX"][3]; the columns that are recorded but
      never used (QMAX, QMIN, VG, BASE_KV, VMAX, VMIN, BR_B, BR_R) are left out.
    - The duals and printing are left out. *)
From Coq Require Import List Bool Arith ZArith QArith Qabs Qround.
From Verif Require Import Base Cases.
Import ListNotations.
Open Scope nat_scope.
Open Scope list_scope.

(** The case as written by conversion_model_mat2json.py: NoBus, NoBranch and NoGen are the
    lengths of BUS_I, F_BUS and GEN_BUS (lines 271-273 there). *)
Record mpc := mkMPC {
  m_base : Q;
  bus_i : list Z; bus_type : list Z; bus_pd : list Q; bus_qd : list Q;
  f_bus : list Z; t_bus : list Z; br_x : list Q; rate_a : list Q; br_status : list Z;
  gen_bus : list Z; pmax : list Q; pmin : list Q; gen_on : list Z;
  gc_model : list Z; gc_ncost : list nat; gc_cost : list (list Q) }.
Definition no_bus (m : mpc) : nat := List.length (bus_i m).
Definition no_branch (m : mpc) : nat := List.length (f_bus m).
Definition no_gen (m : mpc) : nat := List.length (gen_bus m).

(** The other arguments (SC:79-80): the switches, the costs, the contingencies (one list of branch
    states each), the previous investments, peak demands, multipliers, additional demands, number of
    time points. *)
Record setup := mkSetup {
  gen_status : bool; line_status : bool; cicost : Q; penalty : Q; cont : list (list Z);
  prev : list Q; peak_p : list Q; peak_q : list Q; mult : list Q; additions : list Q; no_time : nat }.

(** SC:314-330: the variables; g, b, n, k, t are generator, branch, bus, contingency and time point. *)
Inductive var :=
| Pgen (g k t : nat) | Cgen (g k t : nat) | Pbra (b k t : nat) | ICbra (b t : nat) | Ang (n k t : nat) | Plc (n k t : nat).

(** Pyomo expressions and constraints. *)
Inductive expr :=
| EK (q : Q) | EV (v : var) | EAdd (a b : expr) | ESub (a b : expr) | EMul (q : Q) (a : expr).
Inductive constr := CLe (a b : expr) | CEq (a b : expr) | CSkip.
Definition esum (l : list expr) : expr := fold_left EAdd l (EK 0).

Fixpoint eval (s : var -> Q) (e : expr) : Q :=
  match e with
  | EK q => q
  | EV v => s v
  | EAdd a b => eval s a + eval s b
  | ESub a b => eval s a - eval s b
  | EMul q a => q * eval s a
  end%Q.
Definition sat (s : var -> Q) (c : constr) : Prop :=
  match c with CLe a b => eval s a <= eval s b | CEq a b => eval s a == eval s b | CSkip => True end%Q.

(** [i for i, x in enumerate(l) if x == z]. *)
Fixpoint positions_from (i : nat) (z : Z) (l : list Z) : list nat :=
  match l with
  | [] => []
  | x :: r => if Z.eqb x z then i :: positions_from (S i) z r else positions_from (S i) z r
  end.
Definition positions (z : Z) (l : list Z) : list nat := positions_from 0 z l.
(** [l.index(z)] *)
Definition index_of (z : Z) (l : list Z) : res nat :=
  match positions z l with i :: _ => Ok i | [] => Err ValueError end.

Section Model.
Variable M : mpc.
Variable A : setup.

(** SC:82-158, readVarPara: [del] of a loop variable that was never bound. *)
Definition read_parameters : res unit :=
  if (no_gen M =? 0) || (no_bus M =? 0) || (no_branch M =? 0) then Err UnboundLocalError else Ok tt.

(** SC:541-551: the polynomial cost at [x]; [n] is NCOST, the coefficients start with the highest. *)
Definition poly_at (n : nat) (c : list Q) (x : Q) : res Q :=
  do c0 <- py_index c (Z.of_nat n - 1);
  foldM (fun acc e => do ce <- py_index c (Z.of_nat n - 1 - Z.of_nat e); Ok (acc + ce * Qpower x (Z.of_nat e)))%Q (seq 1 (n - 1)) c0.

(** SC:531-559: breakpoints PMIN + i*PMAX/3 and the three secants between them, as slope and
    intercept. *)
Definition secant (x0 y0 x1 y1 : Q) : Q * Q := let k := ((y1 - y0) / (x1 - x0))%Q in (k, (y1 - x1 * k)%Q).
Definition gen_pieces (g : nat) : res (list (Q * Q)) :=
  do lo <- at_ (pmin M) g;
  do hi <- at_ (pmax M) g;
  do n <- at_ (gc_ncost M) g;
  do c <- at_ (gc_cost M) g;
  let d := (hi / 3)%Q in
  let xs := [lo; lo + d; lo + d + d; lo + d + d + d]%Q in
  do ys <- mapM (poly_at n c) xs;
  match xs, ys with
  | [x0; x1; x2; x3], [y0; y1; y2; y3] => Ok [secant x0 y0 x1 y1; secant x1 y1 x2 y2; secant x2 y2 x3 y3]
  | _, _ => Err IndexError
  end.

(** SC:511-583, genCost_rule: the pieces of every generator.  NoPieces is bound by the first generator
    with positive PMAX, and used for every generator; without cost table NoPieces is never
    bound.  Simplification: every piecewise-linear cost raises (SC:527 stores a row, a list of two or
    more numbers, in an array of numbers). *)
Definition gen_cost : res (list (list (Q * Q))) :=
  match gc_model M with
  | [] => Err UnboundLocalError
  | _ =>
    do r <- foldM (fun (st : bool * list (list (Q * Q))) (g : nat) =>
      do mo <- at_ (gc_model M) g;
      if Z.eqb mo 1 then Err ValueError
      else
        do hi <- at_ (pmax M) g;
        if Qle_bool hi 0 then
          if fst st then Ok (true, snd st ++ [[(0, 0); (0, 0); (0, 0)]]) else Err UnboundLocalError
        else do ps <- gen_pieces g; Ok (true, snd st ++ [ps])) (seq 0 (no_gen M)) (false, []);
    Ok (snd r)
  end%Q.

(** SC:588-621, nodeConnections_rule: the demands; given peaks replace the columns of the case. *)
Definition demand (peak col : list Q) : res (list Q) :=
  do l <- mapM (fun b => at_ col b) (seq 0 (no_bus M));
  Ok (match peak with [] => l | _ => peak end).

(** SC:336-343, genMax_rule. *)
Definition gen_off (g : nat) : res bool :=
  if gen_status A then do on <- at_ (gen_on M) g; Ok (Z.eqb on 0) else Ok false.
Definition gen_max (g k t : nat) : res constr :=
  do off <- gen_off g;
  if off then Ok (CEq (EV (Pgen g k t)) (EK 0))
  else
    do z <- at_ (gen_bus M) g;
    do n <- at_ (positions z (bus_i M)) 0;
    do mu <- at_ (mult A) n;
    do hi <- at_ (pmax M) g;
    Ok (CLe (EV (Pgen g k t)) (EK (mu * hi))).
(** SC:345-349, genMin_rule. *)
Definition gen_min (g k t : nat) : res constr :=
  do off <- gen_off g;
  if off then Ok (CEq (EV (Pgen g k t)) (EK 0))
  else do lo <- at_ (pmin M) g; Ok (CLe (EK lo) (EV (Pgen g k t))).
(** SC:469-470, pwcost_rule. *)
Definition pw_cost (pieces : list (list (Q * Q))) (g k p t : nat) : res constr :=
  do ps <- at_ pieces g;
  do sl <- at_ ps p;
  Ok (CLe (EAdd (EMul (fst sl) (EV (Pgen g k t))) (EK (snd sl))) (EV (Cgen g k t))).

(** SC:363-368: a branch takes no part when it is switched off by the case or the contingency. *)
Definition branch_out (b k : nat) : res bool :=
  do stat <- (if line_status A then do st <- at_ (br_status M) b; Ok (Z.eqb st 0) else Ok false);
  do row <- at_ (cont A) k;
  do c <- at_ row b;
  Ok (Z.eqb c 0 || stat).
(** SC:355-371, DCPF_rule. *)
Definition dcpf (b k t : nat) : res constr :=
  do x <- at_ (br_x M) b;
  if Qeq_bool (m_base M) 0 then Err ZeroDivisionError
  else
    let bx := (x / m_base M)%Q in
    do fz <- at_ (f_bus M) b; do f <- index_of fz (bus_i M);
    do tz <- at_ (t_bus M) b; do n <- index_of tz (bus_i M);
    do out <- branch_out b k;
    if out then Ok CSkip
    else if Qeq_bool bx 0 then Err ZeroDivisionError
    else Ok (CEq (EV (Pbra b k t)) (EMul (/ bx) (ESub (EV (Ang f k t)) (EV (Ang n k t))))).
(** SC:375-380, slackBus_rule: the last bus of type 3. *)
Definition slack (k t : nat) : res constr :=
  do r <- foldM (fun acc b => do ty <- at_ (bus_type M) b; Ok (if Z.eqb ty 3 then Some b else acc)) (seq 0 (no_bus M)) None;
  match r with Some b => Ok (CEq (EV (Ang b k t)) (EK 0)) | None => Err UnboundLocalError end.

(** SC:403-418, braCapacity_rule. *)
Definition capacity (b k t : nat) : res constr :=
  do out <- branch_out b k;
  if out then Ok (CEq (EV (Pbra b k t)) (EK 0))
  else
    do ra <- at_ (rate_a M) b;
    if Qeq_bool ra 0 then Ok CSkip
    else do pv <- at_ (prev A) b; Ok (CLe (EV (Pbra b k t)) (EAdd (EAdd (EV (ICbra b t)) (EK pv)) (EK ra))).
(** SC:422-439, braCapacityN_rule, which leaves the previous investments out. *)
Definition capacity_n (b k t : nat) : res constr :=
  do out <- branch_out b k;
  if out then Ok (CEq (EV (Pbra b k t)) (EK 0))
  else
    do ra <- at_ (rate_a M) b;
    if Qeq_bool ra 0 then Ok CSkip
    else Ok (CLe (EMul (-1) (EV (Pbra b k t))) (EAdd (EAdd (EV (ICbra b t)) (EK 0)) (EK ra))).

(** SC:447-454, nodeBalance_rule, with the connections of SC:602-610: KeyError for an entry of T_BUS
    beyond the branches. *)
Definition balance (pd qd : list Q) (n k t : nat) : res constr :=
  do z <- at_ (bus_i M) n;
  do _ <- (if existsb (fun b => no_branch M <=? b) (positions z (t_bus M)) then Err KeyError else Ok tt);
  do mu <- at_ (mult A) n;
  do p <- at_ pd n;
  do q <- at_ qd n;
  do a <- at_ (additions A) n;
  Ok (CEq (EAdd (esum (map (fun g => EV (Pgen g k t)) (positions z (gen_bus M))))
                (esum (map (fun b => EV (Pbra b k t)) (positions z (t_bus M)))))
          (EAdd (ESub (EAdd (EAdd (esum (map (fun b => EV (Pbra b k t)) (positions z (f_bus M)))) (EK (mu * p))) (EK (mu * q)))
                      (EV (Plc n k t))) (EK a))).
(** SC:463-465, loadcurtail_rule. *)
Definition curtail (pd : list Q) (n k t : nat) : res constr :=
  do mu <- at_ (mult A) n;
  do p <- at_ pd n;
  Ok (CLe (EV (Plc n k t)) (EK (mu * Qabs p))).

(** The loops of pyomo over its index sets. *)
Definition over2 (n k : nat) (f : nat -> nat -> res constr) : res (list constr) :=
  mapM (fun i => f (fst i) (snd i)) (list_prod (seq 0 n) (seq 0 k)).
Definition over3 (n k t : nat) (f : nat -> nat -> nat -> res constr) : res (list constr) :=
  mapM (fun i => f (fst (fst i)) (snd (fst i)) (snd i)) (list_prod (list_prod (seq 0 n) (seq 0 k)) (seq 0 t)).
Definition over4 (n k p t : nat) (f : nat -> nat -> nat -> nat -> res constr) : res (list constr) :=
  mapM (fun i => f (fst (fst (fst i))) (snd (fst (fst i))) (snd (fst i)) (snd i))
    (list_prod (list_prod (list_prod (seq 0 n) (seq 0 k)) (seq 0 p)) (seq 0 t)).

(** SC:480-507, addConstraints, after SC:650-682. *)
Definition constraints : res (list constr) :=
  do _ <- read_parameters;
  do pieces <- gen_cost;
  do pd <- demand (peak_p A) (bus_pd M);
  do qd <- demand (peak_q A) (bus_qd M);
  let nk := List.length (cont A) in
  let nt := no_time A in
  do c1 <- over3 (no_gen M) nk nt gen_max;
  do c2 <- over3 (no_gen M) nk nt gen_min;
  do c3 <- over4 (no_gen M) nk 3 nt (pw_cost pieces);
  do c4 <- over3 (no_branch M) nk nt dcpf;
  do c5 <- over2 nk nt slack;
  do c6 <- over3 (no_branch M) nk nt capacity;
  do c7 <- over3 (no_branch M) nk nt capacity_n;
  do c8 <- over3 (no_bus M) nk nt (balance pd qd);
  do c9 <- over3 (no_bus M) nk nt (curtail pd);
  Ok (c1 ++ c2 ++ c3 ++ c4 ++ c5 ++ c6 ++ c7 ++ c8 ++ c9).

(** SC:630-642, OFrule: without contingency the variables Cgen[.,0,.] do not exist. *)
Definition objective : res expr :=
  if (List.length (cont A) =? 0) && negb (no_gen M =? 0) && negb (no_time A =? 0) then Err KeyError
  else
    Ok (EAdd (EAdd (EMul (cicost A) (esum (map (fun i => EV (ICbra (fst i) (snd i))) (list_prod (seq 0 (no_branch M)) (seq 0 (no_time A))))))
                   (esum (map (fun i => EV (Cgen (fst i) 0 (snd i))) (list_prod (seq 0 (no_gen M)) (seq 0 (no_time A))))))
             (EMul (penalty A) (esum (map (fun i => EV (Plc (fst (fst i)) (snd (fst i)) (snd i)))
                (list_prod (list_prod (seq 0 (no_bus M)) (seq 0 (List.length (cont A)))) (seq 0 (no_time A))))))).

(** SC:314-330: the domains of the variables. *)
Variable two_pi : Q.
Definition in_domain (s : var -> Q) : Prop :=
  let nk := List.length (cont A) in
  (forall g k t, g < no_gen M -> k < nk -> t < no_time A -> (0 <= s (Pgen g k t))%Q /\ (0 <= s (Cgen g k t))%Q) /\
  (forall b t, b < no_branch M -> t < no_time A -> (0 <= s (ICbra b t))%Q) /\
  (forall n k t, n < no_bus M -> k < nk -> t < no_time A ->
     (- two_pi <= s (Ang n k t))%Q /\ (s (Ang n k t) <= two_pi)%Q /\ (0 <= s (Plc n k t))%Q).

(** An answer of the solver to a model that was built. *)
Definition feasible (s : var -> Q) : Prop :=
  in_domain s /\ exists cs, constraints = Ok cs /\ Forall (sat s) cs.

(** SC:693-708: the list of interventions, the investment of every branch, and the vector of the
    first time point. *)
Fixpoint qmax_of (x : Q) (l : list Q) : Q :=
  match l with [] => x | y :: r => qmax_of (if Qle_bool y x then x else y) r end.
Definition results (s : var -> Q) : res (list Z * list Q * list Q) :=
  do mx <- mapM (fun b => match map (fun t => s (ICbra b t)) (seq 0 (no_time A)) with
                          | [] => Err ValueError | x :: r => Ok (qmax_of x r) end) (seq 0 (no_branch M));
  let z := map Qceiling (filter (fun q => negb (Qle_bool q 0)) mx) in
  Ok (fold_right (fix ins (a : Z) (l : list Z) : list Z :=
        match l with [] => [a] | x :: r => if Z.leb a x then a :: l else x :: ins a r end) [] z,
      mx, map (fun b => s (ICbra b 0)) (seq 0 (no_branch M))).
End Model.
