(** Model of the reports and of the setters of pyensys/engines/main.py (MA): pyeneClass.get_... and set_..., on the joint
    model of Joint.v.

    Simplifications.
    - Those of Joint.v.  [f] is self.OFaux; [s] holds the values of the variables.
    - Times and scenarios that are asked for are numbers from 0.
    - The types of the loads are read when they are reported, not by initialise, and the case has none.
    - Profiles that are set are not empty; numpy gives nan for their mean.
    - The answers of the other solvers (MA:430-441) are left out. *)
From Coq Require Import List Bool Arith ZArith QArith Qround Qabs.
From Verif Require Import Base Cases Network InputOutput GraphData Linear Devices Joint.
From Verif Require EnergyTree Hydro Power.
Import ListNotations.
Open Scope nat_scope.
Open Scope list_scope.

(** The keywords 'times' and 'scens', and 'snapshot'. *)
Record options := mkOptions { o_times : option (list nat); o_snapshot : bool; o_scens : option (list nat) }.
(** A load is urban (0), rural (1), or has the whole list of the settings as its type (DV:667-672). *)
Inductive load_type := TNumber (n : nat) | TList.
(** DV:667-678 and 413-414; [n] is the number of buses. *)
Definition load_types (n : nat) (types : list nat) : res (list load_type) :=
  match types with
  | [] => Ok (repeat (TNumber 0) n)
  | [a] => Ok (repeat (if a =? 1 then TList else TNumber 0) n)
  | _ => if n <? List.length types then Err IndexError else Ok (map TNumber types ++ repeat (TNumber 0) (n - List.length types))
  end.
(** values[...] += q for a list of two values. *)
Definition add_to (values : Q * Q) (t : load_type) (q : Q) : res (Q * Q) :=
  match t with
  | TNumber 0 => Ok (fst values + q, snd values)%Q
  | TNumber 1 => Ok (fst values, snd values + q)%Q
  | TNumber _ => Err IndexError
  | TList => Err TypeError
  end.
(** The keywords of get_AllGeneration. *)
Inductive group := AllUnits | Machines | Farms | Plants.
(** int(q) *)
Definition truncate (q : Q) : Z := if Qle_bool 0 q then Qfloor q else Qceiling q.

Section Reports.
Variables (J : settings) (K : joint) (f : list Q) (s : var -> Q).
Notation W := (q_power K).
Notation M := (q_model K).
Definition value (v : var) : res Q := if declared K v then Ok (s v) else Err KeyError.

(** MA:637-658, get_timeAndScenario *)
Definition asked_times (o : options) : list nat := match o_times o with Some l => l | None => times K end.
Definition asked_scens (o : options) : list nat := match o_scens o with Some l => l | None => seq 0 (q_number K) end.
Definition time_weights (o : options) : list Q := if o_snapshot o then repeat 1%Q (List.length (times K)) else Power.m_weights M.
Definition scen_weights (o : options) : list Q := if o_snapshot o then repeat 1%Q (q_number K) else f.
(** The sums over scenarios and times (MA:404-410 and others). *)
Definition total (o : options) (g : nat -> nat -> res Q) : res Q :=
  do r <- foldM (fun v h =>
      do a <- foldM (fun a t => do q <- g h t; do w <- at_ (time_weights o) t; Ok (a + q * w)%Q) (asked_times o) 0%Q;
      do k <- at_ (scen_weights o) h; Ok (v + a * k)%Q) (asked_scens o) 0%Q;
  Ok (r * base K)%Q.
(** for x in l: value += g(x) *)
Definition add_all {A} (g : A -> res Q) (l : list A) : res Q := foldM (fun v x => do q <- g x; Ok (v + q)%Q) l 0%Q.

(** MA:397-412, get_Demand *)
Definition get_demand (bus : nat) (o : options) : res Q :=
  total o (fun h t =>
    do i <- slot (List.length (Power.m_load M)) bus;
    do load <- at_ (Power.m_load M) i; do r <- at_ (Power.m_offset M) i; do z <- at_ r h;
    do d <- py_index (Power.w_demand W) (Z.of_nat t + z); Ok (load * d)%Q).
(** MA:310-325, get_AllDemand; [buses] is its keyword. *)
Definition asked_buses (buses : option (list nat)) : list nat := match buses with Some l => l | None => seq 0 (Power.n_bus W) end.
Definition all_demand (buses : option (list nat)) (o : options) : res (Q * (Q * Q)) :=
  foldM (fun st n =>
      do a <- get_demand (n + 1) o; do ts <- load_types (Power.n_bus W) (j_types J); do t <- at_ ts n; do vs <- add_to (snd st) t a;
      Ok (fst st + a, vs)%Q) (asked_buses buses) (0, (0, 0))%Q.
(** MA:414-429, get_DemandCurtailment; the bus counts from 0. *)
Definition get_curtailment (n : nat) (o : options) : res Q :=
  do p <- at_ (Power.m_fea M) n;
  if fst p =? 0 then Ok 0%Q
  else if Power.w_feas W then total o (fun h t => value (JNet (Power.NFea (Power.con_fea M h + snd p) t)))
  else Ok 0%Q.
(** MA:327-343, get_AllDemandCurtailment *)
Definition all_curtailment (buses : option (list nat)) (o : options) : res (Q * (Q * Q)) :=
  if Power.w_feas W then
    do vs <- foldM (fun vs n =>
        do a <- get_curtailment n o; do ts <- load_types (Power.n_bus W) (j_types J); do t <- at_ ts n; add_to vs t a) (asked_buses buses) (0, 0)%Q;
    Ok (fst vs + snd vs, vs)%Q
  else Ok (0, (0, 0))%Q.
(** MA:445-459, get_Generation; the index is that of vNGen. *)
Definition get_generation (g : nat) (o : options) : res Q := total o (fun h t => value (JNet (Power.NGen (Power.con_gen W h + g) t))).
(** MA:345-362, get_AllGeneration; DV:1319-1362 *)
Definition numbers_of (k : group) : list nat :=
  match k with
  | AllUnits => seq 0 (Power.n_gen W)
  | Machines => seq 0 (Power.n_conv W)
  | Plants => seq (Power.n_conv W) (Power.n_hyd W)
  | Farms => seq (Power.n_conv W + Power.n_hyd W) (Power.n_ren W)
  end.
Definition all_generation (k : group) (o : options) : res Q := add_all (fun g => get_generation g o) (numbers_of k).
(** MA:461-465 and 364-370, get_Hydro and get_AllHydro *)
Definition get_hydro (index : nat) : res Q := if index =? 0 then Err KeyError else value (JOut 1 (index - 1)).
Definition all_hydro : res Q := add_all (fun x => value (JOut 1 x)) (seq 0 (vectors K)).
(** MA:494-524, get_Loss: it stops the program. *)
Definition get_loss (b : nat) (o : options) : res Q :=
  do _ <- (if Power.w_flag W && Power.w_losses W then total o (fun h t => value (JNet (Power.NLoss (Power.con_loss W h + b) t))) else Ok 0%Q);
  Err SystemExit.
(** MA:372-379, get_AllLoss *)
Definition all_loss (o : options) : res Q := if Power.w_losses W then add_all (fun b => get_loss b o) (seq 0 (Power.n_bra W)) else Ok 0%Q.
(** MA:602-615 and 381-387, get_Pump and get_AllPumps *)
Definition get_pump (index : nat) (o : options) : res Q := total o (fun h t => value (JNet (Power.NPump (Power.con_pump W h + index) t))).
Definition all_pumps (o : options) : res Q := add_all (fun p => get_pump (p + 1) o) (seq 0 (Power.n_pump W)).
(** MA:617-635 and 389-395, get_RES and get_AllRES: what the farms could generate and do not. *)
Definition get_res (index : nat) (o : options) : res Q :=
  total o (fun h t =>
    do r <- slot (Power.n_ren W) index; do q <- Power.farm_max W M r t h;
    do v <- value (JNet (Power.NGen (Power.con_gen W h + Power.farm_gen W r) t)); Ok (q - v)%Q).
Definition all_res (o : options) : res Q := add_all (fun r => get_res (r + 1) o) (seq 0 (Power.n_ren W)).
(** MA:531-549, get_NetDemand: the demand is a pair, which cannot be added. *)
Record flags := mkFlags { f_0 : bool; f_1 : bool; f_2 : bool; f_3 : bool; f_4 : bool }.
Definition net_demand (F : flags) (o : options) : res Q :=
  do _ <- (if f_0 F then do _ <- all_demand None o; Err TypeError else Ok tt);
  do a <- (if f_1 F then all_pumps o else Ok 0%Q);
  do b <- (if f_2 F then all_loss o else Ok 0%Q);
  do c <- (if f_3 F then do p <- all_curtailment None o; Ok (fst p) else Ok 0%Q);
  do d <- (if f_4 F then all_res o else Ok 0%Q);
  Ok (a + b + c + d)%Q.
(** Sums of MA:551-600 over scenarios, without the weights of the times. *)
Definition parts (o : options) (g : nat -> nat -> res Q) : res Q :=
  add_all (fun h => do a <- add_all (g h) (asked_times o); do k <- at_ (scen_weights o) h; Ok (a * k)%Q) (asked_scens o).
(** MA:551-559, get_OFpart *)
Definition of_part (g : nat) (o : options) : res Q := parts o (fun h t => value (JNet (Power.NGCost (Power.con_gen W h + g) t))).
(** MA:561-600, get_OFparts *)
Definition of_parts (F : flags) (o : options) : res Q :=
  do a <- (if f_0 F then add_all (fun g => of_part g o) (numbers_of Machines) else Ok 0%Q);
  do b <- (if f_1 F then add_all (fun g => of_part g o) (numbers_of Farms) else Ok 0%Q);
  do c <- (if f_2 F then add_all (fun g => of_part g o) (numbers_of Plants) else Ok 0%Q);
  do d <- (if f_3 F then
             add_all (fun h =>
               do a <- add_all (fun p => do r <- at_ (Power.w_pumps W) p;
                                         do b <- add_all (fun t => value (JNet (Power.NPump (Power.con_pump W h + p + 1) t))) (asked_times o);
                                         Ok (Power.pu_value r * base K * b)%Q) (seq 0 (Power.n_pump W));
               do k <- at_ (scen_weights o) h; Ok (a * k)%Q) (asked_scens o)
           else Ok 0%Q);
  do e <- (if f_4 F then
             parts o (fun h t => do c <- add_all (fun i => value (JNet (Power.NFea (Power.con_fea M h + i) t))) (seq 0 (Power.m_nofea M)); Ok (c * j_penalty J)%Q)
           else Ok 0%Q);
  Ok (a + b + c - d + e)%Q.

(** m.dual.get(m.cSoCBalance[1, x]); None without a dual. *)
Variable dual : nat -> option Q.
(** The index of cSoCBalance (pyeneE.py:365). *)
Definition dual_at (index : nat) : res (option Q) := if (index =? 0) || negb (index - 1 <? vectors K) then Err KeyError else Ok (dual (index - 1)).
(** MA:482-492, get_HydroMarginal *)
Definition get_marginal (index : nat) : res Z := do d <- dual_at index; Ok (match d with None => 0%Z | Some q => (-1 * truncate q)%Z end).
(** MA:467-480, get_HydroFlag *)
Definition get_hydro_flag (index : nat) : res bool :=
  do d <- dual_at index;
  match d with
  | None => Ok false
  | Some q => if Qeq_bool (base K) 0 then Err ZeroDivisionError else Ok (negb (Qle_bool (inject_Z (-1 * truncate q)) (j_penalty J / base K)))
  end.
(** MA:525-529, get_MeanHydroMarginal *)
Definition mean_marginal : res Q :=
  do v <- add_all (fun x => do z <- get_marginal (x + 1); Ok (inject_Z z)) (seq 0 (vectors K));
  if vectors K =? 0 then Err ZeroDivisionError else Ok (v / inject_Z (Z.of_nat (vectors K)))%Q.
End Reports.

(** ** Setters *)

Definition mean (l : list Q) : Q := (qsum l / inject_Z (Z.of_nat (List.length l)))%Q.
(** l[a:b] *)
Definition part_of (a b : nat) (l : list Q) : list Q := firstn (b - a) (skipn a l).
(** MA:272-283, CheckProfile *)
Definition check_profile (time : nat) (value : list Q) : res (list Q) :=
  if List.length value =? time then Ok value
  else if time =? 1 then Ok [mean value]
  else if time =? 2 then Ok [((qsum (part_of 0 15 value) + qsum (part_of 20 24 value)) / 19)%Q; mean (part_of 15 20 value)]
  else Err RuntimeError.
(** l[a:a+n] = value for a numpy array and [n] values; a single value fits an empty slice. *)
Definition assign_slice (a : nat) (value l : list Q) : res (list Q) :=
  if a + List.length value <=? List.length l then Ok (firstn a l ++ value ++ skipn (a + List.length value) l)
  else match value with [_] => Ok l | _ => Err ValueError end.
(** l[(index-1)*n:index*n] = value; the slice of index 0 is empty. *)
Definition assign_profile (index : nat) (value l : list Q) : res (list Q) :=
  match index with
  | O => match value with [_] => Ok l | _ => Err ValueError end
  | S i => assign_slice (i * List.length value) value l
  end.
Definition with_power (K : joint) (W : Power.power) (M : Power.model) : joint :=
  mkJoint (q_energy K) (q_first K) (q_number K) W M (q_water K) (q_hin K) (q_down K) (q_hout K) (q_pout K).
(** The network with other branches, demand and renewable generation. *)
Definition with_data (W : Power.power) (branches : list branch) (d r : list Q) : Power.power :=
  Power.mkPower (Power.w_base W) (Power.w_buses W) branches (Power.w_flag W) (Power.w_losses W) (Power.w_feas W) (Power.w_secflag W)
    (Power.w_security W) (Power.w_loss W) (Power.w_anc W) (Power.w_uc W) (Power.w_time W) (Power.w_pieces W) (Power.w_points W) (Power.w_conv W)
    (Power.w_column W) (Power.w_machines W) (Power.w_hyd W) (Power.w_plants W) (Power.w_farms W) (Power.w_unc W) (Power.w_pumps W) (Power.w_stores W)
    (Power.w_scen W) (Power.w_links W) (Power.w_nodem W) d (Power.w_nores W) (Power.w_links_res W) r (Power.w_weights W) (Power.w_cool W) (Power.w_noh W).
(** MA:1094-1103, set_Demand *)
Definition set_demand (K : joint) (index : nat) (value : list Q) : res joint :=
  let W := q_power K in
  if index <=? Power.w_nodem W then
    do v <- check_profile (Power.w_time W) value;
    do d <- assign_profile index v (Power.w_demand W);
    Ok (with_power K (with_data W (Power.w_branches W) d (Power.w_profile W)) (q_model K))
  else Ok K.
(** MA:1169-1197, set_RES, with farms; [rows] are Overwrite['RESX'] with Overwrite['RESL'], [series] is Overwrite['RES']. *)
Definition overwritten (rows : list (nat * nat)) (series : list (list Q)) (index : nat) (value : list Q) : res (list Q) :=
  match find (fun r => fst r =? index) rows with Some r => at_ series (snd r) | None => Ok value end.
Definition set_res (rows : list (nat * nat)) (series : list (list Q)) (K : joint) (index : nat) (value : list Q) : res joint :=
  let W := q_power K in
  do value <- overwritten rows series index value;
  if index <=? Power.w_nores W then
    do v <- check_profile (Power.w_time W) value;
    do r <- assign_profile index v (Power.w_profile W);
    do r <- foldM (fun r iq => do i <- match index with O => slot (List.length r) 0 | S k => Ok (k * Power.w_time W + fst iq) end; store r i (snd iq / base K)%Q)
              (combine (seq 0 (List.length v)) v) r;
    Ok (with_power K (with_data W (Power.w_branches W) (Power.w_demand W) r) (q_model K))
  else Ok K.

(** A flag or a capacity. *)
Inductive capacity := CFlag (b : bool) | CNumber (q : Q).
Definition with_fleet (M : Power.model) (F : fleet) : Power.model :=
  Power.mkModel (Power.m_grid M) (Power.m_cases M) F (Power.m_chords M) (Power.m_pump M) (Power.m_fea M) (Power.m_nofea M) (Power.m_load M) (Power.m_offset M)
    (Power.m_roffset M) (Power.m_stor M) (Power.m_prev M) (Power.m_weights M) (Power.m_serv M) (Power.m_lanc M) (Power.m_lres M) (Power.m_derate M).
Definition with_max (u : unit_) (q : Q) : unit_ :=
  mkUnit (un_kind u) (un_bus u) q (un_min u) (un_ramp u) (un_base u) (un_bin u) (un_mutv u) (un_mdtv u) (un_mut u) (un_mdt u) (un_lines u).
(** MA:1105-1125, set_GenCoFlag, with DV:1364-1367, 1549-1552; capacities are on the base since initialise (DV:1510). *)
Definition set_capacity (K : joint) (index : nat) (c : capacity) : res joint :=
  let F := Power.m_fleet (q_model K) in
  do i <- slot (List.length (fl_units F)) index;
  do u <- at_ (fl_units F) i;
  do q <- match c with
          | CFlag true => if Qeq_bool (base K) 0 then Err ZeroDivisionError else Ok (un_max u / base K)%Q
          | CFlag false => Ok 0%Q
          | CNumber q => if Qeq_bool (base K) 0 then Err ZeroDivisionError else Ok (q / base K)%Q
          end;
  Ok (with_power K (q_power K) (with_fleet (q_model K) (mkFleet (fl_at F) (set_nth i (with_max u q) (fl_units F)) (fl_bin F) (fl_mdt F) (fl_mut F)))).

(** The parameters of a line: 'BR_R', 'BR_X', 'BR_B' (which no constraint uses) or its capacity. *)
Inductive line_data := LRes | LReact | LSus | LRate.
Definition set_branch (k : line_data) (q : Q) (b : branch) : branch :=
  match k with
  | LRes => mkBranch (br_from b) (br_to b) q (br_x b) (br_rate b) (br_loss b) (br_status b)
  | LReact => mkBranch (br_from b) (br_to b) (br_r b) q (br_rate b) (br_loss b) (br_status b)
  | LSus => b
  | LRate => mkBranch (br_from b) (br_to b) (br_r b) (br_x b) q (br_loss b) (br_status b)
  end.
(** MA:1139-1157, set_LineCapacity; the capacity that is stored is on the base, like the one of the constraints
    (Power.limit_rule divides it). *)
Definition set_lines (K : joint) (k : line_data) (index : list nat) (q : Q) : res joint :=
  let W := q_power K in
  do _ <- match k with LRate => if Qeq_bool (base K) 0 then Err ZeroDivisionError else Ok tt | _ => Ok tt end;
  do l <- foldM (fun l b => do r <- at_ l b; store l b (set_branch k q r)) index (Power.w_branches W);
  Ok (with_power K (with_data W l (Power.w_demand W) (Power.w_profile W)) (q_model K)).
(** MA:1159-1162, set_LineCapacityAll *)
Definition set_all_lines (K : joint) (k : line_data) (q : Q) : res joint := set_lines K k (seq 0 (Power.n_bra (q_power K))) q.

(** MA:1219-1231, set_element_status; [marks] are the values of data['BR_STATUS'] or data['GEN'], which the pyomo model does
    not read. *)
Definition set_status (marks : list bool) (id : option nat) (status : bool) : res (list bool) :=
  match id with
  | None | Some O => Err ValueError
  | Some i => store marks i status
  end.
