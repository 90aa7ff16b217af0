(** Model of pyensys/Optimisers/input_output_function.py (IO), of the functions of
    pyensys/Optimisers/process_data.py (PD) that record the values of pyomo variables, and of the
    script pyensys/Optimisers/clusters_verification.py (CS).

    Simplification: the converter (see Converter.v), printing and writing files are left out. *)
From Coq Require Import List String Bool Arith ZArith QArith Qabs.
From Verif Require Import Base Container Graph GraphData Cases Network.
Import ListNotations.
Open Scope string_scope.
Open Scope nat_scope.
Open Scope list_scope.

(** ** Catalogues *)

(** The entries of intervention.json. *)
Record interventions := mkIv { iv_lines : list Q; iv_trafos : list Q; iv_line_cost : list Q; iv_trafo_cost : list Q }.
(** Capacities and costs of one kind of branch. *)
Record catalogue := mkCat { ct_sizes : list Q; ct_costs : list Q }.
(** IO:79-80 and the like: [20 * i for i in sizes]. *)
Definition linear_costs (sizes : list Q) : catalogue := mkCat sizes (map (fun i => 20 * i)%Q sizes).
(** IO:79, 85. *)
Definition given_lines : list Q := [10; 50; 100; 200; 500; 800]%Q.
Definition given_trafos : list Q := [560; 880; 1200; 2400; 5600]%Q.
(** IO:102, 106. *)
Definition default_lines : list Q :=
  [45 # 1000; 75 # 1000; 1125 # 10000; 15 # 100; 225 # 1000; 3 # 10; 1 # 2; 3 # 4; 1; 2; 5; 10; 20; 30; 40; 50; 60; 80; 100; 250; 500]%Q.
Definition default_trafos : list Q := [3 # 1000; 6 # 1000; 9 # 1000; 15 # 1000; 3 # 100]%Q ++ default_lines.
(** IO:59-107: lines and transformers; [None]: there is no intervention.json. *)
Definition read_catalogues (f : option interventions) : catalogue * catalogue :=
  match f with
  | Some iv =>
    (if List.length (iv_lines iv) =? List.length (iv_line_cost iv) then mkCat (iv_lines iv) (iv_line_cost iv) else linear_costs given_lines,
     if List.length (iv_trafos iv) =? List.length (iv_trafo_cost iv) then mkCat (iv_trafos iv) (iv_trafo_cost iv) else linear_costs given_trafos)
  | None => (linear_costs default_lines, linear_costs default_trafos)
  end.

(** ** Reduced lists of interventions *)

(** [[i for i, x in enumerate(l) if x == a]] *)
Fixpoint qpositions_from (i : nat) (a : Q) (l : list Q) : list nat :=
  match l with [] => [] | x :: r => if Qeq_bool x a then i :: qpositions_from (S i) a r else qpositions_from (S i) a r end.
(** IO:146-153: the cost of a size. *)
Definition price (c : catalogue) (a : Q) : res Q :=
  do i <- at_ (qpositions_from 0 a (ct_sizes c)) 0; at_ (ct_costs c) i.
(** The catalogue of a branch: a line has the tap 0. *)
Definition catalogue_of (cs : catalogue * catalogue) (tap : Q) : catalogue := if Qeq_bool tap 0 then fst cs else snd cs.
(** IO:122-127: all sizes for every branch. *)
Definition all_sizes (n : nat) (taps : list Q) (cs : catalogue * catalogue) : res (@items (list Q)) :=
  mapM (fun b => do t <- at_ taps b; Ok (str_nat b, ct_sizes (catalogue_of cs t))) (seq 0 n).
(** IO:110-158.  [found]: os.path.exists finds the file from the working directory; [file]: json.load of the
    file beside the module, an error when it is not there.  [n] is NoBranch. *)
Definition screen_options (found : bool) (file : res (@items (list Q))) (n : nat) (taps : list Q) (cs : catalogue * catalogue)
  : res (@items (list Q) * list (list Q)) :=
  do s <- (if found then file else all_sizes n taps cs);
  do costs <- mapM (fun b =>
      match d_get (str_nat b) s with
      | None => Err KeyError
      | Some l => mapM (fun a => do t <- at_ taps b; price (catalogue_of cs t) a) l
      end) (seq 0 n);
  Ok (s, costs).

(** ** The report *)

Record year_entry := mkYE { ye_label : nat; ye_operation : Q; ye_branch : list Q; ye_flex : list Q }.
Record scenario_entry := mkSE { sn_total : Q; sn_branch : Q; sn_flex : Q; sn_operation : Q; sn_years : list year_entry }.
(** Per year and scenario. *)
Definition table2 (A : Type) := list (list A).
Definition at2 {A} (t : table2 A) (y s : nat) : res A := do r <- at_ t y; at_ r s.
Definition set2 {A} (t : table2 A) (y s : nat) (a : A) : table2 A :=
  match nth_error t y with Some r => set_nth y (set_nth s a r) t | None => t end.
(** IO:188 and the like: small values are set to 0. *)
Definition cleaned (l : list Q) : list Q := map (fun x => if Qle_bool (Qabs x) (1 # 10000)%Q then 0%Q else x) l.

Section Report.
(** NoYear, the paths, the yearly operation costs, the investments in branches and their total cost, the cost
    of flexibility and sum_CO. *)
Variables (years : nat) (path_sce : table2 nat) (sum_co : Q) (yearly_co : table2 Q) (ci : table2 (list Q)) (sum_ci : Q) (cflex : table2 Q).

(** IO:183-195 and the like, one year of a path; the table of flexibility is the state. *)
Definition report_year (p : nat) (y : nat) (pflex : table2 (list Q)) : res (year_entry * table2 (list Q)) :=
  do path <- at_ path_sce p; do s <- at_ path y;
  do l <- at2 pflex y s;
  let pflex' := set2 pflex y s (cleaned l) in
  do label <- at_ [2020; 2030; 2040; 2050] y;
  do op <- (if Qeq_bool sum_co 0 then Ok 0%Q else at2 yearly_co y s);
  do br <- at2 ci y s;
  do fl <- at2 pflex' y s;
  Ok (mkYE label op br fl, pflex').
(** IO:178-197 and the like, one path. *)
Definition report_path (p : nat) (pflex : table2 (list Q)) : res (scenario_entry * table2 (list Q)) :=
  do cs <- mapM (fun y => do path <- at_ path_sce p; do s <- at_ path y; at2 cflex y s) (seq 0 years);
  do ys <- foldM (fun st y => do e <- report_year p y (snd st); Ok (fst st ++ [fst e], snd e)) (seq 0 years) ([], pflex);
  Ok (mkSE (sum_ci + qsum cs)%Q sum_ci (qsum cs) (if Qeq_bool sum_co 0 then 0%Q else sum_co) (fst ys), snd ys).
(** IO:172-273.  [n] is NoPath; a path -1 is the last one. *)
Definition last_path (n : nat) : res nat :=
  match n with
  | S m => Ok m
  | O => match List.length path_sce with S m => Ok m | O => Err IndexError end
  end.
Definition report (n : nat) (all : bool) (pflex : table2 (list Q)) : res (@items scenario_entry * table2 (list Q)) :=
  do ps <- (if all then Ok (seq 0 n)
            else match years with O => Ok [0; 0] (* no path is looked up *) | _ => do l <- last_path n; Ok [0; l] end);
  do r <- foldM (fun st p =>
      let '(i, out, pf) := st in
      do e <- report_path p pf;
      Ok (S i, d_set ("Scenario " ++ str_nat (S i))%string (fst e) out, snd e)) ps (0, [], pflex);
  Ok (snd (fst r), snd r).
End Report.

(** ** Time series *)

(** A sheet of hourly data: the values of the column of buses, which is the first, and the others. *)
Definition sheet := list (Z * list Q).
Record hourly := mkHourly { h_pd : table2 Q; h_qd : table2 Q; h_up : table2 Q; h_dn : table2 Q;
                            h_peak_pd : list Q; h_peak_qd : list Q; h_peak_up : list Q; h_peak_dn : list Q }.
Fixpoint zpositions_from (i : nat) (z : Z) (l : list Z) : list nat :=
  match l with [] => [] | x :: r => if Z.eqb x z then i :: zpositions_from (S i) z r else zpositions_from (S i) z r end.
Definition day : list Q := repeat 0%Q 24.
Definition row_of (t : sheet) (i : nat) : res (list Q) := do r <- at_ t i; Ok (snd r).
(** IO:311-368: one bus; [ib] is its position. *)
Definition hourly_bus (bus_i : list Z) (pd qd up dn : sheet) (hour : nat) (h : hourly) (ib : nat) : res hourly :=
  do b <- at_ bus_i ib;
  match zpositions_from 0 b (map fst pd) with
  | i :: _ =>
    do p <- row_of pd i; do q <- row_of qd i;
    let ps := h_pd h ++ [p] in let qs := h_qd h ++ [q] in
    do pp <- at2 ps ib hour; do pq <- at2 ps ib hour;
    do u <- row_of up i; do d <- row_of dn i;
    let us := h_up h ++ [u] in let ds := h_dn h ++ [d] in
    do pu <- at2 us ib hour; do pdn <- at2 ds ib hour;
    Ok (mkHourly ps qs us ds (h_peak_pd h ++ [pp]) (h_peak_qd h ++ [pq]) (h_peak_up h ++ [pu]) (h_peak_dn h ++ [pdn]))
  | [] => Ok (mkHourly (h_pd h ++ [day]) (h_qd h ++ [day]) (h_up h ++ [day]) (h_dn h ++ [day])
                (h_peak_pd h ++ [0%Q]) (h_peak_qd h ++ [0%Q]) (h_peak_up h ++ [0%Q]) (h_peak_dn h ++ [0%Q]))
  end.
(** IO:283-372, get_time_series_data; [n] is NoBus. *)
Definition time_series (n : nat) (bus_i : list Z) (pd qd up dn : sheet) (hour : nat) : res hourly :=
  foldM (hourly_bus bus_i pd qd up dn hour) (seq 0 n) (mkHourly [] [] [] [] [] [] [] []).
(** IO:379-413, get_peak_data. *)
Definition peak_data (n : nat) (bus_i : list Z) (pd : sheet) (hour : nat) : res (list Q) :=
  do r <- foldM (fun st ib =>
      do b <- at_ bus_i ib;
      match zpositions_from 0 b (map fst pd) with
      | i :: _ => do p <- row_of pd i; let ps := fst st ++ [p] in do pp <- at2 ps ib hour; Ok (ps, snd st ++ [pp])
      | [] => Ok (fst st ++ [day], snd st ++ [0%Q])
      end) (seq 0 n) ([], []);
  Ok (snd r).

(** ** Recorded values *)

(** PD:17-64, record_bra_from_pyo_result and record_bus_from_pyo_result: per year and scenario the peak of every
    element, or the values per season, day and hour.  [v] is the value of the variable; the sets of the model
    are ranges. *)
Definition record_peak (years n_sce n : nat) (v : nat -> nat -> nat -> nat -> nat -> nat -> Q) : list (list (list Q)) :=
  map (fun y => map (fun s => map (fun b => v b y s 0 0 0) (seq 0 n)) (seq 0 (n_sce ^ y))) (seq 0 years).
Definition record_all (years n_sce n seasons days hours : nat) (v : nat -> nat -> nat -> nat -> nat -> nat -> Q)
  : list (list (list (list (list (list Q))))) :=
  map (fun y => map (fun s => map (fun e => map (fun d => map (fun t => map (fun b => v b y s e d t) (seq 0 n))
    (seq 0 hours)) (seq 0 days)) (seq 0 seasons)) (seq 0 (n_sce ^ y))) (seq 0 years).
(** PD:66-83, record_invest_from_pyo_result: the capacity chosen for every branch; [built b i y s] is the variable of the
    i-th intervention of branch b. *)
Definition record_invest (years n_sce n : nat) (s_ci : @items (list Q)) (built : nat -> nat -> nat -> nat -> Q) : res (table2 (list Q)) :=
  mapM (fun y => mapM (fun s => mapM (fun b =>
    match d_get (str_nat b) s_ci with
    | None => Err KeyError
    | Some l => Ok (qsum (map (fun il => snd il * built b (fst il) y s)%Q (combine (seq 0 (List.length l)) l)))
    end) (seq 0 n)) (seq 0 (n_sce ^ y))) (seq 0 years).
(** PD:99-112, initial_value. *)
Definition initial_value (years n_sce n : nat) (v : Q) : list (list (list Q)) :=
  map (fun y => map (fun s => repeat v n) (seq 0 (n_sce ^ y))) (seq 0 years).

(** ** The verification script *)

Section Script.
(** [opf y s caps]: runopp succeeds on the network of scenario [s] of year [y] with these line capacities.
    Simplification: the loads of the network depend on the node only (CS:78-79), and the new generator
    (CS:86-91) is part of [opf]. *)
Variable opf : nat -> nat -> list Q -> bool.
(** CS:100-101: line by line; the lines before a missing one are upgraded. *)
Definition kiloamp (c : Q) : Q := (c * 10 ^ 6 / (11 * 10 ^ 3) / 10 ^ 3)%Q.
Fixpoint upgrade_script (caps cluster : list Q) : list Q * bool :=
  match cluster, caps with
  | [], _ => (caps, true)
  | _ :: _, [] => ([], false)
  | c :: r, a :: caps' => let (l, ok) := upgrade_script caps' r in ((a + kiloamp c)%Q :: l, ok)
  end.
(** CS:94-118: the clusters until one works, always on the same network. *)
Fixpoint try_clusters (y s : nat) (caps : list Q) (clusters : list (list Q * Q)) : option (list Q * Q) :=
  match clusters with
  | [] => None
  | c :: r => let (caps', ok) := upgrade_script caps (fst c) in
              if ok && opf y s caps' then Some c else try_clusters y s caps' r
  end.
(** solutions[...][i] = v *)
Definition store {A} (l : list A) (i : nat) (a : A) : res (list A) := if i <? List.length l then Ok (set_nth i a l) else Err IndexError.
(** CS:33-122.  [argsort] is numpy.argsort; a cost [None] is the initial [[0]]; [base] are the line capacities
    of the file.  [sizes] are the numbers of scenarios per year. *)
Definition script (argsort : list Q -> list nat) (base : list Q) (sizes : list nat) (clusters : list (list Q))
  : res (list (list Q) * list (option Q)) :=
  do c0 <- at_ clusters 0;
  let cs := clusters ++ [repeat 0%Q (List.length c0)] in
  let costs := map (fun c => (qsum c * 60000)%Q) cs in
  let order := argsort costs in
  do sorted <- mapM (at_ cs) order;
  do scosts <- mapM (at_ costs) order;
  let nodes := fold_left (fun n y => n + 2 ^ y) (seq 0 (List.length sizes)) 0 in
  foldM (fun st ys =>
      let '(y, s) := ys in
      match try_clusters y s base (combine sorted scosts) with
      | Some c => do l <- store (fst st) (2 ^ y + s) (fst c); do i <- store (snd st) (2 ^ y + s) (Some (snd c)); Ok (l, i)
      | None => Ok st
      end)
    (flat_map (fun yn => map (pair (fst yn)) (seq 0 (snd yn))) (combine (seq 0 (List.length sizes)) sizes))
    (repeat (repeat 0%Q (List.length c0)) nodes, repeat None nodes).
End Script.
