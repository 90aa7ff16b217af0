(** Model of pyensys/Optimisers/clusters_verification_function.py (CV), of the parts of
    pyensys/Optimisers/process_data.py (PD) without pyomo objects, and of the flow of
    attest_invest in pyensys/cases.py (CA). *)
From Coq Require Import List String Bool Arith ZArith QArith Qpower.
From Verif Require Import Base Graph GraphData Reader Cases.
Import ListNotations.
Open Scope nat_scope.
Open Scope list_scope.

(** ** The network used for verification *)

(** The columns of the pandapower network that CV reads or writes.  Simplification: the rows of a
    table are labelled 0, 1, ... in order, as from_mpc creates them. *)
Record vline := mkVL { vl_from : nat; vl_max : Q }.
Record vload := mkVD { vd_bus : nat; vd_p : Q; vd_q : Q }.
Record vunit := mkVU { vu_bus : nat; vu_min_p : Q; vu_max_p : Q; vu_min_q : Q; vu_max_q : Q }.
Record vcost := mkVC { vc_et : string; vc_element : nat; vc_cost : Q }.
Record vnet := mkVN { v_kv : list Q; v_lines : list vline; v_trafo : list Q; v_loads : list vload;
                      v_ext : list vunit; v_gen : list vunit; v_cost : list vcost }.

Definition with_lines (n : vnet) l := mkVN (v_kv n) l (v_trafo n) (v_loads n) (v_ext n) (v_gen n) (v_cost n).
Definition with_trafo (n : vnet) t := mkVN (v_kv n) (v_lines n) t (v_loads n) (v_ext n) (v_gen n) (v_cost n).
Definition with_loads (n : vnet) l := mkVN (v_kv n) (v_lines n) (v_trafo n) l (v_ext n) (v_gen n) (v_cost n).
Definition with_units (n : vnet) e g c := mkVN (v_kv n) (v_lines n) (v_trafo n) (v_loads n) e g c.

(** CV:127-128. *)
Definition scale_loads (n : vnet) (f : Q) : vnet :=
  with_loads n (map (fun d => mkVD (vd_bus d) (vd_p d * f) (vd_q d * f)) (v_loads n)).

(** CV:130-132: additional load, by bus. *)
Definition add_loads (n : vnet) (additions : list Q) : res vnet :=
  do ls <- mapM (fun d => match nth_error additions (vd_bus d) with
                          | Some a => Ok (mkVD (vd_bus d) (vd_p d + a) (vd_q d))
                          | None => Err KeyError
                          end) (v_loads n);
  Ok (with_loads n ls).

(** CV:172-193: the first cost of each element number is kept. *)
Definition first_costs (l : list vcost) : list vcost :=
  fst (fold_left (fun st c => let '(kept, seen) := st in
         if existsb (Nat.eqb (vc_element c)) seen then (kept, seen) else (kept ++ [c], seen ++ [vc_element c])) l ([], [])).

(** CV:140-193: external grids become generators. *)
Definition as_gen (c : vcost) : vcost := mkVC "gen" (vc_element c) (vc_cost c).
Definition replace_ext_grid (n : vnet) : vnet :=
  if List.length (v_ext n) =? 1 then with_units n [] (v_gen n ++ v_ext n) (map as_gen (v_cost n))
  else with_units n [] (v_gen n ++ v_ext n)
         (first_costs (match v_ext n with [] => v_cost n | _ => map as_gen (v_cost n) end)).

(** CV:87-193: the network of a node of the tree, before reinforcements.  [additions] is the
    result of reading the spreadsheet of the year (CV:95-111), [base] that of from_mpc. *)
Definition node_net (base : vnet) (use_update : bool) (additions : nat -> res (list Q)) (year : nat) (m : list Q) : res vnet :=
  do adds <- (if use_update && negb (year =? 0) then
                do _ <- at_ [2020; 2030; 2040; 2050] year; additions year
              else Ok (repeat 0%Q (List.length (v_kv base))));
  do f <- at_ m 0;
  let n := scale_loads base f in
  do n <- (if use_update then add_loads n adds else Ok n);
  Ok (replace_ext_grid n).

(** CV:213-215, 223-224: [None] is an exception.  Simplification: the voltage is not zero. *)
Definition add_line (n : vnet) (k : nat) (c : Q) : option vnet :=
  match nth_error (v_lines n) k with
  | None => None
  | Some l => match nth_error (v_kv n) (vl_from l) with
              | None => None
              | Some v => Some (with_lines n (put (v_lines n) k (mkVL (vl_from l) (vl_max l + c * 10 ^ 6 / (v * 10 ^ 3) / 10 ^ 3)%Q)))
              end
  end.
(** CV:229. *)
Definition add_trafo (n : vnet) (k : nat) (c : Q) : option vnet :=
  match nth_error (v_trafo n) k with
  | None => None
  | Some s => Some (with_trafo n (put (v_trafo n) k (s + c)%Q))
  end.

(** CV:209-230: the flag is false if an exception was raised; what was added before remains. *)
Fixpoint upgrade_lines (n : vnet) (k : nat) (c : list Q) : vnet * bool :=
  match c with
  | [] => (n, true)
  | x :: r => match add_line n k x with None => (n, false) | Some n' => upgrade_lines n' (S k) r end
  end.
Fixpoint upgrade_both (n : vnet) (lk tk : nat) (taps c : list Q) : vnet * bool :=
  match c with
  | [] => (n, true)
  | x :: r =>
    match taps with
    | [] => (n, false)
    | t :: taps' =>
      if Qeq_bool t 0 then match add_line n lk x with None => (n, false) | Some n' => upgrade_both n' (S lk) tk taps' r end
      else match add_trafo n tk x with None => (n, false) | Some n' => upgrade_both n' lk (S tk) taps' r end
    end
  end.
Definition upgrade (taps : list Q) (n : vnet) (c : list Q) : vnet * bool :=
  match v_trafo n with [] => upgrade_lines n 0 c | _ => upgrade_both n 0 0 taps c end.

Section Verify.
(** runopp: whether it finishes without an exception.  Simplification: it does not change the
    columns above. *)
Variable opf : vnet -> bool.
Variable taps : list Q.

(** CV:199-247, one cluster: state = network and cluster found. *)
Definition attempt (st : vnet * option nat) (ic : nat * list Q) : vnet * option nat :=
  match snd st with
  | Some _ => st
  | None => let (n, ok) := upgrade taps (fst st) (snd ic) in (n, if ok && opf n then Some (fst ic) else None)
  end.

(** CV:196-247. *)
Definition node_solution (n : vnet) (clusters : list (list Q)) : option nat :=
  snd (fold_left attempt (combine (seq 0 (List.length clusters)) clusters) (n, None)).

(** CV:77-79, 240-241: lines and cost of every node; [None] is the initial [0]. *)
Definition ver_state := (list (list Q) * list (option Q) * bool)%type.
Definition verify_node (nets : nat -> list Q -> res vnet) (clusters : list (list Q)) (costs : list Q) (st : ver_state) (node : nat * (nat * list Q)) : res ver_state :=
  let '(lines, invest, flag) := st in
  do n <- nets (fst (snd node)) (snd (snd node));
  match node_solution n clusters with
  | None => Ok (lines, invest, true)
  | Some i =>
    do c <- at_ clusters i;
    do k <- at_ costs i;
    if fst node <? List.length lines then Ok (put lines (fst node) c, put invest (fst node) (Some k), flag) else Err IndexError
  end.

(** CV:84-85: the nodes in order, with their year. *)
Definition tree_nodes (mult_bus : list (list (list Q))) : list (nat * list Q) :=
  flat_map (fun ym => map (fun m => (fst ym, m)) (snd ym)) (combine (seq 0 (List.length mult_bus)) mult_bus).

(** CV:40-249.  [argsort] is numpy.argsort.  The operation costs are never changed. *)
Definition verify (argsort : list Q -> list nat) (base : vnet) (use_update : bool) (additions : nat -> res (list Q))
    (mult_bus : list (list (list Q))) (clusters : list (list Q)) : res ver_state :=
  do first <- at_ clusters 0;
  let clusters := clusters ++ [repeat 0%Q (List.length first)] in
  let costs := map (fun c => (qsum c * 60000)%Q) clusters in
  let order := argsort costs in
  do sorted <- mapM (at_ clusters) order;
  do sorted_costs <- mapM (at_ costs) order;
  let count := 2 ^ List.length mult_bus - 1 in
  let nodes := tree_nodes mult_bus in
  foldM (verify_node (node_net base use_update additions) sorted sorted_costs)
    (combine (seq 0 (List.length nodes)) nodes)
    (repeat (repeat 0%Q (List.length first)) count, repeat None count, false).
End Verify.

(** ** Auxiliary data *)

(** PD:152-175. *)
Definition mult_for_bus (given : list (list (list Q))) (multiplier flex : list (list Q)) (nbus : nat) : res (list (list (list Q))) :=
  match given with
  | [] => mapM (fun ym => mapM (fun sm => do f <- at_ flex (fst ym); do g <- at_ f (fst sm); Ok (repeat (snd sm * g)%Q nbus))
                            (combine (seq 0 (List.length (snd ym))) (snd ym)))
            (combine (seq 0 (List.length multiplier)) multiplier)
  | _ => Ok given
  end.

(** PD:122-133: branch capacities and first cost coefficients. *)
Definition first_coefficient (costs : list (list Q)) (g : nat) : res Q := do row <- at_ costs g; at_ row 0.
Definition record_values (nbranch ngen : nat) (rates : list Q) (costs : list (list Q)) : res (list Q * list Q) :=
  do b <- mapM (at_ rates) (seq 0 nbranch);
  do g <- mapM (first_coefficient costs) (seq 0 ngen);
  Ok (b, g).

(** COST[g][0] = v. *)
Definition set_first (costs : list (list Q)) (g : nat) (v : Q) : res (list (list Q)) :=
  do row <- at_ costs g;
  match row with [] => Err IndexError | _ => Ok (put costs g (put row 0 v)) end.

(** PD:136-149. *)
Definition replace_gen_cost (ngen : nat) (costs : list (list Q)) (gen_cost : list Q) (action : Z) : res (list (list Q)) :=
  if Z.eqb action 0 then foldM (fun cs g => set_first cs g (1 # 10)) (seq 0 ngen) costs
  else foldM (fun cs g => do v <- at_ gen_cost g; set_first cs g v) (seq 0 ngen) costs.

(** Division of floats. *)
Definition fdiv (a b : Q) : res Q := if Qeq_bool b 0 then Err ZeroDivisionError else Ok (a / b)%Q.

(** PD:181-194. *)
Definition get_factors (d : Q) (years : nat) : res (list Q * list Q) :=
  do df <- mapM (fun y => fdiv 1 ((1 - d) ^ Z.of_nat y)) (seq 0 years);
  do crf <- mapM (fun xy => if xy =? 0 then Ok 1%Q
                            else let p := ((1 + d) ^ Z.of_nat (xy * 10))%Q in fdiv (d * p) (p - 1)) (seq 0 years);
  Ok (df, crf).

(** ** The planning run *)

(** What is written to the output file. *)
Inductive outcome :=
| NothingToBuild                     (* CA:1021-1028 *)
| NoFeasiblePlan                     (* CA:1067-1071 *)
| Saved (active slow : report).      (* CA:1091 *)

(** Costs in the report; [None] is not reachable without NoFeasiblePlan, and would be the list [0]. *)
Definition cost_or_zero (o : option Q) : Q := match o with Some q => q | None => 0%Q end.

(** The files through which CV:32-37 gets the clusters and the bus multipliers: written by CA:632-635
    and by PD:170-173.  Simplification: what is read is what was written. *)
Record files := mkFiles { fi_clusters : list (list Q); fi_mult : list (list (list Q)) }.

(** What stays the same during a run: the OPF, the taps, argsort, the network read by from_mpc, the
    load update, the catalogue, its costs, the line lengths, oversizing, the demand, the years,
    the multipliers and the scenarios. *)
Record setting := mkSetting { se_opf : vnet -> bool; se_taps : list Q; se_argsort : list Q -> list nat; se_base : vnet;
  se_update : bool; se_additions : nat -> res (list Q); se_cat : list Q; se_cost : list Q; se_lengths : list Q; se_oversize : nat;
  se_pd : list Q; se_qd : list Q; se_yrs : list Z; se_multiplier : list (list Q); se_flex : list (list Q); se_scenarios : list Z }.

(** CA:1021-1091, after screening.  Simplification: case names and output paths are left out. *)
Definition planning_run (s : setting) (clusters : list (list Q)) (f : files) : res outcome :=
  match clusters with
  | [] => Ok NothingToBuild
  | _ =>
    do _ <- scenario_rows (se_pd s) (se_qd s) (se_yrs s) (se_multiplier s) (se_scenarios s);
    do _ <- investment_options (se_cat s) (se_cost s) (se_lengths s) (se_oversize s) clusters;
    do r <- verify (se_opf s) (se_taps s) (se_argsort s) (se_base s) (se_update s) (se_additions s) (fi_mult f) (fi_clusters f);
    let '(lines, invest, failed) := r in
    if failed then Ok NoFeasiblePlan
    else do ro <- save_results lines (map cost_or_zero invest) (se_yrs s); Ok (Saved (fst ro) (snd ro))
  end.

(** CA:1000-1012: the clusters come from the screening model (whose result is [screened]), with at most
    [limit] of them kept, or from the user; [old] is what the files hold from earlier runs. *)
Definition attest_run (s : setting) (limit : nat) (screened : list (list Q)) (given : option (list (list Q))) (old : files) : res outcome :=
  match given with
  | None =>
    do mb <- mult_for_bus [] (se_multiplier s) (se_flex s) (List.length (se_pd s));
    do c <- final_clusters (se_cat s) (se_cost s) limit screened;
    planning_run s c (mkFiles c mb)
  | Some c => planning_run s c old
  end.
