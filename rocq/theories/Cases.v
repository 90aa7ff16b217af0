(** Model of the investment-planning entry point in pyensys/cases.py (CA), of the loop around the
    screening model in pyensys/Optimisers/screening_model_CLI.py (SC) and of
    pyensys/Optimisers/scenarios_multipliers.py (SM). *)
From Coq Require Import List String Ascii Bool Arith ZArith QArith Qround Qabs.
From Verif Require Import Base Graph GraphData Reader.
Import ListNotations.
Open Scope nat_scope.
Open Scope list_scope.

(** Element of a list at a natural index. *)
Definition at_ {A} (l : list A) (i : nat) : res A := match nth_error l i with Some a => Ok a | None => Err IndexError end.

(** a > b on numbers. *)
Definition qgt (a b : Q) : bool := negb (Qle_bool a b).

(** ** Growth multipliers *)

(** CA:961-999, growth and demand-response data: one table per scenario name, each from year to
    value, in insertion order.  Simplification: years are numbers, where the code uses their
    decimal text and int(). *)
Definition yearly := list (string * list (Z * Q)).
Definition value_of (d : yearly) (k : string) (y : Z) : res Q :=
  match find (fun e => String.eqb (fst e) k) d with
  | None => Err KeyError
  | Some (_, t) => match find (fun e => Z.eqb (fst e) y) t with Some (_, v) => Ok v | None => Err KeyError end
  end.

(** CA:979-983: [n] times append the running value, then decrease it. *)
Fixpoint descend (n : nat) (a step : Q) : list Q :=
  match n with O => [] | S m => a :: descend m (a - step)%Q step end.

(** [l[-1]]. *)
Definition last_of {A} (l : list A) : res A := py_index l (-1).

(** CA:966-997, the loop over the years after the first; [prev] is multiplier[yr] and [y] is
    yrs[yr].  Only the branch Option_Growth = 1 (CA:970-983): the option is a constant. *)
Fixpoint stages (growth dsr : yearly) (k0 : string) (k1 : res string) (yr : nat) (y : Z) (prev : list Q) (rest : list Z)
  : res (list (list Q) * list (list Q)) :=
  match rest with
  | [] => Ok ([], [])
  | y' :: rest' =>
    let aux := (inject_Z (y' - y) / 100)%Q in
    do m0 <- py_index prev 0; do g0 <- value_of growth k0 y';
    let aux1 := (m0 * (1 + g0 * aux))%Q in
    do m1 <- last_of prev; do k1 <- k1; do g1 <- value_of growth k1 y';
    let aux2 := (m1 * (1 + g1 * aux))%Q in
    let parts := inject_Z (2 ^ Z.of_nat (S yr) - 1) in
    let aux3 := ((aux1 - aux2) / parts)%Q in
    do d0 <- value_of dsr k0 y';
    let dsrax1 := (1 - d0)%Q in
    do d1 <- value_of dsr k1 y';
    let dsrax2 := ((dsrax1 + d1 - 1) / parts)%Q in
    let mul := descend (2 ^ S yr) aux1 aux3 in
    do r <- stages growth dsr k0 (Ok k1) (S yr) y' mul rest';
    Ok (mul :: fst r, descend (2 ^ S yr) dsrax1 dsrax2 :: snd r)
  end.

(** CA:961-997: the years, the demand multipliers and the demand-response factors of the tree. *)
Definition growth_tree (growth dsr : yearly) : res (list Z * list (list Q) * list (list Q)) :=
  do first <- py_index growth 0;
  let k0 := fst first in
  let yrs := map fst (snd first) in
  do y0 <- py_index yrs 0;
  do g <- value_of growth k0 y0;
  let m := [(1 * (1 + g))%Q] in
  do d <- value_of dsr k0 y0;
  let k1 := do e <- py_index growth 1; Ok (fst e) in
  do r <- stages growth dsr k0 k1 0 y0 m (tl yrs);
  Ok (yrs, m :: fst r, [(1 - d)%Q] :: snd r).

(** SM:20-71, mean annual growth in percent: active and slow economy, 2030, 2040 and 2050. *)
Record mean_growth := mkMG { a30 : Q; a40 : Q; a50 : Q; s30 : Q; s40 : Q; s50 : Q }.
Definition country_growth (c : string) : res mean_growth :=
  if String.eqb c "PT" then Ok (mkMG (169 # 100) (229 # 100) (187 # 100) (66 # 100) (132 # 100) (116 # 100))
  else if String.eqb c "UK" then Ok (mkMG (189 # 100) (30 # 10) (25 # 10) (11 # 10) (20 # 10) (10 # 10))
  else if String.eqb c "HR" then Ok (mkMG (16 # 10) (11 # 10) (26 # 10) (135 # 100) (65 # 100) (7 # 10))
  else Err UnboundLocalError.

(** SM:73-97 and 141-145. *)
Definition mult_of (g : mean_growth) : list (list Q) :=
  let up x := (1 + x * 10 / 100)%Q in
  let m30_0 := up (a30 g) in
  let m30_1 := up (s30 g) in
  let m40_0 := (m30_0 * up (a40 g))%Q in
  let m40_3 := (m30_1 * up (s40 g))%Q in
  let range := (m40_0 - m40_3)%Q in
  let m40_1 := (m40_0 - range * 1 / 3)%Q in
  let m40_2 := (m40_0 - range * 2 / 3)%Q in
  let m50_0 := (m40_0 * up (a50 g))%Q in
  let m50_7 := (m40_1 * up (s50 g))%Q in
  let range := (m50_0 - m50_7)%Q in
  [[1%Q]; [m30_0; m30_1]; [m40_0; m40_1; m40_2; m40_3];
   m50_0 :: map (fun i => (m50_0 - range * inject_Z (Z.of_nat i + 1) / 7)%Q) (seq 0 6) ++ [m50_7]].

(** SM:6-152, get_mult. *)
Definition get_mult (country : string) : res (list (list Q)) := do g <- country_growth country; Ok (mult_of g).

(** ** Screening *)

(** CA:521-522, SC:782-783: the least size of a catalogue not below a value; min() of an empty
    list raises ValueError. *)
Definition least_size (cat : list Q) (v : Q) : res Q := qmin (filter (fun i => Qle_bool v i) cat).

(** CA:519-526, SC:780-787: lines and transformers have a catalogue each. *)
Definition round_up (cat : list Q * list Q) (tap v : Q) : res Q :=
  least_size (if Qeq_bool tap 0 then fst cat else snd cat) v.

(** SC:777-787, one cluster. *)
Definition round_cluster (cat : list Q * list Q) (taps vect : list Q) : res (list Q) :=
  mapM (fun tv => if qgt (snd tv) 0 then round_up cat (fst tv) (snd tv) else Ok (snd tv)) (combine taps vect).

Fixpoint qinsert (q : Q) (l : list Q) : list Q :=
  match l with [] => [q] | x :: r => if Qle_bool q x then q :: l else x :: qinsert q r end.
Definition qsort (l : list Q) : list Q := fold_right qinsert [] l.

Section Screening.
Context {M : Type}.
(** model_screening (SC:79-726, a pyomo model solved by glpk) is an argument: the reinforcement
    of each branch, recorded (maxICbra) and as a new list (interv_vect), given the position in
    the tree, previous investments and the multiplier.  Simplification: both lists and the
    list of taps have one entry per branch. *)
Variable screen : nat -> nat -> list Q -> M -> res (list Q * list Q).
Variable cat : list Q * list Q.
Variable taps : list Q.

(** SC:743-797: state = previous investments, last temp_prev_invest (unbound at first),
    interv_dict (one list per branch), interv_clust. *)
Definition scr_state := (list Q * option (list Q) * list (list Q) * list (list Q))%type.

Definition screen_scenario (xy : nat) (st : scr_state) (sc : nat * M) : res scr_state :=
  let '(prev, _, dict, clust) := st in
  do r <- screen xy (fst sc) prev (snd sc);
  do c <- round_cluster cat taps (snd r);
  Ok (prev, Some (fst r), map (fun dv => qsort (fst dv ++ [snd dv])) (combine dict (fst r)), clust ++ [c]).

Definition screen_year (st : scr_state) (year : nat * list M) : res scr_state :=
  do st <- foldM (screen_scenario (fst year)) (combine (seq 0 (List.length (snd year))) (snd year)) st;
  let '(prev, temp, dict, clust) := st in
  match temp with
  | None => Err UnboundLocalError
  | Some t => Ok (map (fun ab => (fst ab + snd ab)%Q) (combine t prev), temp, dict, clust)
  end.

(** SC:729-804, main_screening. *)
Definition main_screening (mult : list (list M)) : res (list (list Q) * list (list Q)) :=
  do st <- foldM screen_year (combine (seq 0 (List.length mult)) mult) (map (fun _ => 0%Q) taps, None, map (fun _ => []) taps, []);
  let '(_, _, dict, clust) := st in
  Ok (dict, clust).
End Screening.

(** CA:515-531: the sizes recorded for one branch. *)
Definition reduce_branch (cat : list Q * list Q) (tap : Q) (l : list Q) : res (list Q) :=
  if qgt (qsum l) 0 then do r <- mapM (round_up cat tap) l; Ok (qsort (qunique r)) else Ok [].

(** Equality of two lists of numbers. *)
Fixpoint qlist_eqb (a b : list Q) : bool :=
  match a, b with
  | [], [] => true
  | x :: a', y :: b' => Qeq_bool x y && qlist_eqb a' b'
  | _, _ => false
  end.

(** CA:548-557. *)
Definition dedupe (l : list (list Q)) : list (list Q) :=
  fold_left (fun acc c => if existsb (qlist_eqb c) acc then acc else acc ++ [c]) l [].

(** CA:564-570: the loop over the columns. *)
Fixpoint exceeds (cols : list nat) (a b : list Q) : res bool :=
  match cols with
  | [] => Ok false
  | x :: r => do p <- at_ a x; do q <- at_ b x; if qgt p q then Ok true else exceeds r a b
  end.

Fixpoint put {A} (l : list A) (i : nat) (v : A) : list A :=
  match l, i with
  | [], _ => []
  | _ :: r, O => v :: r
  | x :: r, S j => x :: put r j v
  end.

(** CA:564-574. *)
Definition exchange (ncols : nat) (l : list (list Q)) (ij : nat * nat) : res (list (list Q)) :=
  do a <- at_ l (fst ij);
  do b <- at_ l (snd ij);
  do g <- exceeds (seq 0 ncols) a b;
  Ok (if g then put (put l (fst ij) b) (snd ij) a else l).

(** CA:562-563. *)
Definition index_pairs (n : nat) : list (nat * nat) :=
  flat_map (fun i => map (fun j => (i, j)) (seq (S i) (n - S i))) (seq 0 n).

(** CA:560-574. *)
Definition order_clusters (l : list (list Q)) : res (list (list Q)) :=
  do first <- at_ l 0;
  foldM (exchange (List.length first)) (index_pairs (List.length l)) l.

(** CA:588-590 and 712-714: index of a size in the catalogue. *)
Fixpoint catalogue_index (cat : list Q) (v : Q) : res nat :=
  match cat with
  | [] => Err IndexError
  | c :: r => if Qeq_bool v c then Ok 0 else do i <- catalogue_index r v; Ok (S i)
  end.

(** CA:584-591: the cost of one cluster. *)
Definition cluster_cost (cat cost : list Q) (ncols : nat) (c : list Q) : res Q :=
  foldM (fun acc x => do v <- at_ c x;
                      if qgt v 0 then do i <- catalogue_index cat v; do k <- at_ cost i; Ok (acc + k)%Q else Ok acc)
    (seq 0 ncols) 0%Q.

(** numpy.linspace(start, stop, num). *)
Definition linspace (start stop : Q) (num : nat) : list Q :=
  map (fun i => (start + inject_Z (Z.of_nat i) * ((stop - start) / inject_Z (Z.of_nat (num - 1))))%Q) (seq 0 num).

(** CA:600-606: [aux1] and the position chosen so far; [None] is numpy.inf. *)
Definition consider (ideal : Q) (st : option Q * nat) (c : nat * (Q * bool)) : option Q * nat :=
  let '(x2, (cost, free)) := c in
  if free then
    let aux2 := Qabs (ideal - cost) in
    match fst st with
    | None => (Some cost, x2)
    | Some aux1 => if qgt (Qabs (ideal - aux1)) aux2 then (Some cost, x2) else st
    end
  else st.

(** The initial entry of clust_list is True (CA:597), which is 1 as an index. *)
Definition closest (ideal : Q) (costs : list Q) (free : list bool) : nat :=
  snd (fold_left (consider ideal) (combine (seq 0 (List.length costs)) (combine costs free)) (None, 1)).

(** CA:599-607. *)
Fixpoint choose (ideals costs : list Q) (free : list bool) : list nat :=
  match ideals with
  | [] => []
  | i :: r => let x := closest i costs free in x :: choose r costs (put free x false)
  end.

Fixpoint ninsert (n : nat) (l : list nat) : list nat :=
  match l with [] => [n] | x :: r => if n <=? x then n :: l else x :: ninsert n r end.
Definition nsort (l : list nat) : list nat := fold_right ninsert [] l.

(** CA:583-609.  Simplification: Max_clusters is a natural number. *)
Definition reduce_clusters (cat cost : list Q) (ncols limit : nat) (l : list (list Q)) : res (list (list Q)) :=
  do costs <- mapM (cluster_cost cat cost ncols) l;
  do top <- py_index costs (Z.of_nat (List.length l) - 1);
  match limit with
  | O => Err ZeroDivisionError
  | _ =>
    let ideals := linspace (top / inject_Z (Z.of_nat limit)) top limit in
    mapM (at_ l) (nsort (choose ideals costs (map (fun _ => true) l)))
  end.

(** CA:619-627: a cluster with a positive entry. *)
Fixpoint has_positive (cols : list nat) (c : list Q) : res bool :=
  match cols with
  | [] => Ok false
  | x :: r => do v <- at_ c x; if qgt v 0 then Ok true else has_positive r c
  end.

(** CA:618-628. *)
Definition non_empty (ncols : nat) (l : list (list Q)) : res (list (list Q)) :=
  do fs <- mapM (has_positive (seq 0 ncols)) l;
  Ok (map snd (filter fst (combine fs l))).

(** CA:548-628, from the clusters of the screening model to the clusters offered to the planner.
    The option Option_Cluster is the constant 1, so CA:610-613 is not reachable. *)
Definition final_clusters (cat cost : list Q) (limit : nat) (interv_clust : list (list Q)) : res (list (list Q)) :=
  let l := dedupe interv_clust in
  do first <- at_ l 0;
  do o <- order_clusters l;
  if limit <? List.length o then reduce_clusters cat cost (List.length first) limit o
  else non_empty (List.length first) o.

(** ** Planner input *)

(** A row of the bus table (CA:697-699): scenario, year, bus, active and reactive power. *)
Record brow := mkB { br_scenario : Z; br_year : Z; br_bus : nat; br_p : Q; br_q : Q }.

(** CA:679-684. *)
Definition demand_buses (pd : list Q) : list nat :=
  map fst (filter (fun e => negb (Qeq_bool (snd e) 0)) (combine (seq 0 (List.length pd)) pd)).

(** CA:695.  The quotient and product by powers of two are exact in floating point. *)
Definition tree_position (n : nat) (s : Z) (y : nat) : Z :=
  (Qceiling (inject_Z (s + 1) / inject_Z (2 ^ (Z.of_nat n - 1)) * inject_Z (2 ^ Z.of_nat y)) - 1)%Z.

(** CA:686-699.  [scenarios] is the list given by the user. *)
Definition scenario_rows (pd qd : list Q) (yrs : list Z) (multiplier : list (list Q)) (scenarios : list Z) : res (list brow) :=
  let n := List.length yrs in
  do lastm <- py_index multiplier (Z.of_nat n - 1);
  let scenarios := match scenarios with [] => map Z.of_nat (seq 0 (List.length lastm)) | _ => scenarios end in
  do rows <- mapM (fun sy =>
      let pos := tree_position n (fst sy) (fst (snd sy)) in
      mapM (fun b =>
          do p <- at_ pd b;
          do m <- at_ multiplier (fst (snd sy));
          do f <- py_index m pos;
          do q <- at_ qd b;
          Ok (mkB (fst sy + 1) (snd (snd sy)) b (p * f) (q * f)))
        (demand_buses pd))
    (flat_map (fun s => map (fun y => (s, y)) (combine (seq 0 n) yrs)) scenarios);
  Ok (List.concat rows).

(** CA:705-725, one investment option: cost, branches and capacities.  The installation time
    is always 0. *)
Record option_row := mkOpt { op_cost : Q; op_elements : list nat; op_capacity : list Q }.
Definition investment_option (cat cost lengths : list Q) (oversize nbra : nat) (c : list Q) : res option_row :=
  foldM (fun acc b =>
      do v <- at_ c b;
      if qgt v 0 then
        do x <- catalogue_index cat v;
        let x := x + oversize in
        do k <- at_ cost x;
        do len <- at_ lengths b;
        do s <- at_ cat x;
        Ok (mkOpt (op_cost acc + k * len) (op_elements acc ++ [b + 1]) (op_capacity acc ++ [s]))
      else Ok acc)
    (seq 0 nbra) (mkOpt 0 [] []).

(** CA:702-725. *)
Definition investment_options (cat cost lengths : list Q) (oversize : nat) (l : list (list Q)) : res (list option_row) :=
  do first <- at_ l 0;
  mapM (investment_option cat cost lengths oversize (List.length first)) l.

(** CA:1013-1019. *)
Definition line_lengths (n : nat) (given : list Q) : list Q :=
  match given with
  | [] => repeat 1%Q n
  | x :: _ => given ++ repeat x (n - List.length given)
  end.

(** CA:730-741, kwargs2ListF on a text.  Simplification: ASCII text, where isdigit() only
    accepts 0-9. *)
Definition text_to_list (s : list ascii) : list Q := map (fun a => inject_Z (digit_value a)) (filter is_digit s).

(** ** Results *)

(** CA:885-903, save_in_jsonW_2: for the two reported scenarios, branch investments and cost of
    each year, and the total cost.  Simplification: the years are distinct keys. *)
Record report := mkReport { rp_years : list (Z * (list Q * Q)); rp_total : Q }.
Definition report_of (nodes : list nat) (lines : list (list Q)) (costs : list Q) (yrs : list Z) : res report :=
  foldM (fun acc iy =>
      do n <- at_ nodes (fst iy);
      do l <- at_ lines n;
      do c <- at_ costs n;
      Ok (mkReport (rp_years acc ++ [(snd iy, (l, c))]) c))
    (combine (seq 0 (List.length yrs)) yrs) (mkReport [] 0).
Definition save_results (lines : list (list Q)) (costs : list Q) (yrs : list Z) : res (report * report) :=
  do a <- report_of [0; 1; 3; 7] lines costs yrs;
  do s <- report_of [0; 2; 6; 14] lines costs yrs;
  Ok (a, s).

(** A row of solution[0] (CA:763-824): scenario, year and lines of the cluster. *)
Record srow := mkS { sr_scenario : Z; sr_year : Z; sr_lines : list Z }.

(** CA:763-780: bounds, and the positions of the rows of the first and of the last scenario. *)
Definition first_last_step (st : (Z * Z) * (list nat * list nat)) (row : nat * srow) : (Z * Z) * (list nat * list nat) :=
  let '((lo, hi), (p0, p1)) := st in
  let scen := sr_scenario (snd row) in
  let '(lo, p0) := if (scen <? lo)%Z then (scen, []) else (lo, p0) in
  let '(hi, p1) := if (hi <? scen)%Z then (scen, []) else (hi, p1) in
  let p0 := if (lo =? scen)%Z then p0 ++ [fst row] else p0 in
  let p1 := if (hi =? scen)%Z then p1 ++ [fst row] else p1 in
  ((lo, hi), (p0, p1)).

(** CA:763-784. *)
Definition first_last (rows : list srow) : list nat * list nat :=
  let '((lo, hi), (p0, p1)) := fold_left first_last_step (combine (seq 0 (List.length rows)) rows) ((1000%Z, 0%Z), ([], [])) in
  (p0, if (lo =? hi)%Z then [] else p1).

(** CA:832-838: the comparison of two clusters of the same size; [false] ends the search. *)
Fixpoint keep_searching (lines cluster : list Z) : bool :=
  match lines, cluster with
  | x :: a, y :: b => if Z.eqb x y then keep_searching a b else false
  | _, _ => false
  end.

(** CA:826-838: the loop over the clusters. *)
Fixpoint find_cluster (lines : list Z) (clusters : list (list Z)) : res nat :=
  match clusters with
  | [] => Err IndexError
  | c :: r =>
    let go_on := if Nat.eqb (List.length lines) (List.length c) then keep_searching lines c else true in
    if go_on then do i <- find_cluster lines r; Ok (S i) else Ok 0
  end.

(** CA:747-760: the keys of the scenarios in the saved dictionary. *)
Definition saved_keys : list string := ["Scenario 1 (Active economy)"; "Scenario 2 (Slow economy)"]%string.

(** CA:818-842: writing one row of the solution; the table of investments is addressed by
    [txt], year and line.  [known] tells whether the year is a key of the scenario.  Only the
    failures are modelled: the result is unit. *)
Definition save_row (known : Z -> bool) (nlines : nat) (positions : list (list Z)) (capacity : list (list Q)) (txt : string) (row : srow) : res unit :=
  do c <- find_cluster (sr_lines row) positions;
  foldM (fun _ i =>
      do l <- at_ positions c;
      do ax <- at_ l i;
      do k <- at_ capacity c;
      do v <- at_ k i;
      if existsb (String.eqb txt) saved_keys then
        if known (sr_year row) then do _ <- py_index (repeat 0%Q nlines) ax; Ok tt else Err KeyError
      else Err KeyError)
    (seq 0 (List.length (sr_lines row))) tt.

(** CA:818-842, save_in_jsonW. *)
Definition save_interventions (known : Z -> bool) (nlines : nat) (positions : list (list Z)) (capacity : list (list Q)) (rows : list srow) : res unit :=
  let (p0, p1) := first_last rows in
  let write txt p := foldM (fun _ i => do r <- at_ rows i; save_row known nlines positions capacity txt r) p tt in
  do _ <- write "Scenario 1"%string p0;
  write "Scenario 2"%string p1.
