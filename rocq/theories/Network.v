(** Model of the network the OPF sees: pyensys/wrappers/PandaPowerManager.py ("PM"),
    pyensys/wrappers/PandaPowerWrapper.py ("PW") and the methods of
    pyensys/Optimisers/RecursiveFunction.py ("RF") and
    pyensys/Optimisers/NonAnticipativeRecursiveFunction.py ("NA") that prepare an OPF run.

    Simplifications common to the whole file.
    - Floats are rationals.  numpy divides by zero without raising (inf or nan), the model
      follows the convention x/0 = 0 of Q; the theorems assume positive voltages and ratings.
    - 3**0.5 is the argument [s3].
    - Row labels of a table are distinct, as pandapower keeps them.
    - dtypes are not tracked.  Printing is dropped. *)
From Coq Require Import List String Bool ZArith QArith Qround.
From Verif Require Import Base Container Planner Graph GraphData.
Import ListNotations.
Open Scope string_scope.
Open Scope nat_scope.
Open Scope list_scope.

(* ------------------------------------------------------------------ *)
(** ** tables *)

(** A cell of a pandas table: float, integer, bool, string, or NaN. *)
Inductive val := VQ (q : Q) | VZ (z : Z) | VB (b : bool) | VS (s : string) | VNaN.

(** A pandas DataFrame with its row labels, its columns and its cells.  Only the cells whose
    label is in [t_index] and whose column is in [t_cols] belong to the table. *)
Record table := mkTable { t_index : list Z; t_cols : list string; t_cell : Z -> string -> val }.

Definition has_label (t : table) (l : Z) : bool := existsb (Z.eqb l) (t_index t).
Definition has_col (t : table) (c : string) : bool := existsb (String.eqb c) (t_cols t).

(** [df.at[l, c]]: KeyError for a missing label or column. *)
Definition at_get (t : table) (l : Z) (c : string) : res val :=
  if has_label t l && has_col t c then Ok (t_cell t l c) else Err KeyError.

(** [df.at[l, c] = v]: a missing label or column is added, filled with NaN elsewhere. *)
Definition at_set (t : table) (l : Z) (c : string) (v : val) : table :=
  mkTable (if has_label t l then t_index t else t_index t ++ [l])
          (if has_col t c then t_cols t else t_cols t ++ [c])
          (fun l' c' => if Z.eqb l' l && String.eqb c' c then v
                        else if has_label t l' && has_col t c' then t_cell t l' c' else VNaN).

(** [==] between a cell and a scalar. *)
Definition val_eqb (a b : val) : bool :=
  match a, b with
  | VQ x, VQ y => Qeq_bool x y
  | VZ x, VZ y => Z.eqb x y
  | VQ x, VZ y | VZ y, VQ x => Qeq_bool x (inject_Z y)
  | VB x, VB y => Bool.eqb x y
  | VS x, VS y => String.eqb x y
  | _, _ => false
  end.

(** [df[df[c] == v].index]: KeyError for a missing column. *)
Definition labels_where (t : table) (c : string) (v : val) : res (list Z) :=
  if has_col t c then Ok (filter (fun l => val_eqb (t_cell t l c) v) (t_index t)) else Err KeyError.

(** The number held by a cell; [None] is NaN.  Arithmetic on a string raises TypeError. *)
Definition num (v : val) : res (option Q) :=
  match v with
  | VQ q => Ok (Some q)
  | VZ z => Ok (Some (inject_Z z))
  | VB b => Ok (Some (if b then 1 else 0)%Q)
  | VNaN => Ok None
  | VS _ => Err TypeError
  end.

Definition arith (f : Q -> Q -> Q) (a b : val) : res val :=
  do x <- num a; do y <- num b;
  Ok (match x, y with Some p, Some q => VQ (f p q) | _, _ => VNaN end).

(* ------------------------------------------------------------------ *)
(** ** the network *)

(** A ConstControl of the table [controller] (PW:53-58): element, variable and the profile it
    plays back. *)
Record controller := mkCtl { k_elem : string; k_var : string; k_data : list (list Q) }.

(** A pandapower network: a dictionary of tables, and its controllers. *)
Record network := mkNet { n_tables : @items table; n_ctrl : list controller }.

(** [network[name]] (KeyError) and [network.name] (AttributeError). *)
Definition sub (n : network) (name : string) : res table :=
  match d_get name (n_tables n) with Some t => Ok t | None => Err KeyError end.
Definition attr (n : network) (name : string) : res table :=
  match d_get name (n_tables n) with Some t => Ok t | None => Err AttributeError end.

Definition put (n : network) (name : string) (t : table) : network :=
  mkNet (d_set name t (n_tables n)) (n_ctrl n).

(** [network[name].at[l, c] = v]. *)
Definition net_set (n : network) (name : string) (l : Z) (c : string) (v : val) : res network :=
  do t <- sub n name; Ok (put n name (at_set t l c v)).

(* ------------------------------------------------------------------ *)
(** ** updates *)

(** UpdateParameterData.parameter_position (PandapowerDataClasses.py:43): a Python int, a
    list of ints (a cluster of lines), or a scalar that is no Python int, such as the
    numpy.int64 returned by [index[0]] (PM:244, 253). *)
Inductive pos := PInt (z : Z) | PList (l : list Z) | PScalar (z : Z).

(** UpdateParameterData.capacity_to_be_added_MW: a number, a list, or the default ''. *)
Inductive cap := CNum (q : Q) | CList (l : list Q) | CEmpty.

(** PandapowerDataClasses.py:39-46, UpdateParameterData. *)
Record update := mkUpdate {
  u_type : string; u_name : string; u_pos : pos; u_value : val; u_cap : cap }.

(** The rating in kA of a capacity in MW: capacity*1e6/(volt_bus*1e3)/(3**0.5)/1e3. *)
Definition kiloamps (s3 c v : Q) : Q := (c * 1000000 / (v * 1000) / s3 / 1000)%Q.

(** The label a cell denotes when used as [series[cell]]; NaN and strings are no label. *)
Definition label_of (v : val) : res Z :=
  match v with VZ z => Ok z | _ => Err KeyError end.

(** PM:152 and 196: the voltage of the bus the line starts from. *)
Definition line_voltage (n : network) (l : Z) : res val :=
  do buses <- attr n "bus";
  if has_col buses "vn_kv" then
    do lines <- attr n "line";
    if has_col lines "from_bus" then
      do fb <- at_get lines l "from_bus";
      do b <- label_of fb;
      at_get buses b "vn_kv"
    else Err AttributeError
  else Err KeyError.

(** [network[comp].at[l, c] *= factor]. *)
Definition scale_cell (comp : string) (l : Z) (c : string) (factor : val) (n : network) : res network :=
  do t <- sub n comp; do x <- at_get t l c; do y <- arith Qmult x factor; net_set n comp l c y.

(** PM:149-170 and 193-224: one line reinforced.  [svc] is the table whose in_service is set:
    the component type for a single position (PM:149), 'line' for a cluster (PM:193).
    [cp] is the capacity, or the exception its evaluation raises. *)
Definition reinforce (s3 : Q) (svc comp : string) (l : Z) (cp : res Q) (n : network) : res network :=
  do n1 <- net_set n svc l "in_service" (VB true);
  do volt <- line_voltage n1 l;
  do t <- sub n1 comp;
  do i1 <- at_get t l "max_i_ka";
  do c <- cp;
  do extra <- arith (fun c v => kiloamps s3 c v) (VQ c) volt;
  do i2 <- arith Qplus i1 extra;
  do n2 <- net_set n1 comp l "max_i_ka" i2;
  do factor <- arith Qdiv i1 i2;
  do n3 <- scale_cell comp l "r_ohm_per_km" factor n2;
  scale_cell comp l "x_ohm_per_km" factor n3.

(** PM:158: [capacity * 1e6]; a list or a string times a float raises TypeError. *)
Definition single_capacity (c : cap) : res Q :=
  match c with CNum q => Ok q | _ => Err TypeError end.

(** PM:204: [capacity[iii]]. *)
Definition cluster_capacity (c : cap) (i : nat) : res Q :=
  match c with
  | CNum _ => Err TypeError
  | CList l => match nth_error l i with Some q => Ok q | None => Err IndexError end
  | CEmpty => Err IndexError
  end.

(** PM:129-134: the first load of the bus.  A comparison with a list raises ValueError
    (simplification: it does unless the lengths agree). *)
Definition set_load (u : update) (n : network) : res network :=
  do t <- sub n (u_type u);
  match u_pos u with
  | PList _ => Err ValueError
  | PInt z | PScalar z =>
      do ls <- labels_where t "bus" (VZ z);
      match ls with
      | [] => Err IndexError
      | l :: _ => net_set n (u_type u) l (u_name u) (u_value u)
      end
  end.

(** PM:129-233, the body of the loop.  [len] of a scalar raises TypeError (PM:191). *)
Definition apply_update (s3 : Q) (n : network) (u : update) : res network :=
  if String.eqb (u_type u) "load" then set_load u n
  else match u_pos u with
       | PInt z => reinforce s3 (u_type u) (u_type u) z (single_capacity (u_cap u)) n
       | PScalar _ => Err TypeError
       | PList ps =>
           foldM (fun n ip => reinforce s3 "line" (u_type u) (snd ip - 1)%Z (cluster_capacity (u_cap u) (fst ip)) n)
                 (combine (seq 0 (List.length ps)) ps) n
       end.

(** PM:120-233, update_multiple_parameters.  [orig] is what PM:122-123 rebuild: the network of
    the .mat file with its controllers and flexibility generators, the same at every call
    because [_parameters] does not change. *)
Definition update_multiple_parameters (s3 : Q) (orig : network) (us : list update) (initialise : bool)
    (n : network) : res network :=
  foldM (apply_update s3) us (if initialise then orig else n).

(* ------------------------------------------------------------------ *)
(** ** flexibility generators *)

(** The label pandapower gives a new row: the largest label plus one. *)
Definition next_label (t : table) : Z := fold_right (fun l m => Z.max (l + 1) m) 0%Z (t_index t).

Definition add_row (t : table) (cells : @items val) : Z * table :=
  let l := next_label t in
  (l, fold_left (fun t cv => at_set t l (fst cv) (snd cv)) cells t).

(** PW:95-97 and 99-100. *)
Definition sgen_cells (b : Z) : @items val :=
  [("bus", VZ b); ("p_mw", VQ 0); ("controllable", VB true); ("min_p_mw", VQ 0); ("max_p_mw", VQ 0);
   ("min_q_mvar", VQ 0); ("max_q_mvar", VQ 0)].
Definition poly_cells (i : Z) : @items val :=
  [("element", VZ i); ("et", VS "sgen"); ("cp0_eur", VQ 0); ("cp1_eur_per_mw", VQ 0); ("cp2_eur_per_mw2", VQ 0);
   ("cq0_eur", VQ 0); ("cq1_eur_per_mvar", VQ 0); ("cq2_eur_per_mvar2", VQ 0)].

(** PM:27-34, create_static_generators_for_flexibility.  [frames] is
    optimisation_profiles_dataframes. *)
Definition create_flexibility (frames : @items frame) (n : network) : res network :=
  match d_get "flexible units" frames with
  | None => Ok n
  | Some f =>
      foldM (fun n b =>
        do sg <- sub n "sgen";
        let '(i, sg') := add_row sg (sgen_cells b) in
        let n1 := put n "sgen" sg' in
        do pc <- sub n1 "poly_cost";
        Ok (put n1 "poly_cost" (snd (add_row pc (poly_cells i))))) (unique (map fr_bus (f_rows f))) n
  end.

(* ------------------------------------------------------------------ *)
(** ** controllers *)

(** A profile of pandapower_profiles_data: element type, variable, data (ReaderDataClasses.py,
    PandaPowerProfileData). *)
Record pprofile := mkPP { pp_elem : string; pp_var : string; pp_data : list (list Q) }.

Fixpoint find_position {A} (f : A -> bool) (i : Z) (l : list A) : Z :=
  match l with
  | [] => (-1)%Z
  | a :: r => if f a then i else find_position f (i + 1) r
  end.

(** PM:42-50 with PW:49-58: one controller per profile. *)
Definition add_controllers (ps : list pprofile) (n : network) : network :=
  mkNet (n_tables n) (n_ctrl n ++ map (fun p => mkCtl (pp_elem p) (pp_var p) (pp_data p)) ps).

(** RF:310-315, _get_profile_position_to_update. *)
Definition profile_position (ps : list pprofile) (c : cluster) : Z :=
  find_position (fun p => String.eqb (cl_type c) (pp_elem p) && String.eqb (cl_var c) (pp_var p)) 0 ps.

(** RF:305-308, _create_new_pandapower_profile. *)
Definition new_profile (ps : list pprofile) (c : cluster) : res pprofile :=
  do p <- py_index ps (profile_position ps c);
  Ok (mkPP (pp_elem p) (pp_var p) (map (map (fun x => x * cl_centroid c)%Q) (pp_data p))).

(** PW:82-90, get_row_to_update. *)
Definition controller_row (ks : list controller) (p : pprofile) : Z :=
  find_position (fun k => String.eqb (k_elem k) (pp_elem p) && String.eqb (k_var k) (pp_var p)) 0 ks.

Fixpoint set_nth {A} (i : nat) (a : A) (l : list A) : list A :=
  match l, i with
  | [], _ => []
  | _ :: r, O => a :: r
  | x :: r, S i' => x :: set_nth i' a r
  end.

(** PW:78-80, update_network_controller: [iat[-1, 0]] is the last row. *)
Definition update_controller (n : network) (p : pprofile) : res network :=
  let i := controller_row (n_ctrl n) p in
  do k <- py_index (n_ctrl n) i;
  let j := if (i <? 0)%Z then (List.length (n_ctrl n) - 1)%nat else Z.to_nat i in
  Ok (mkNet (n_tables n) (set_nth j (mkCtl (k_elem k) (k_var k) (pp_data p)) (n_ctrl n))).

(** RF:256-258 with RF:298-303 and PM:102-109. *)
Definition update_controllers (ps : list pprofile) (cs : list cluster) (n : network) : res network :=
  do news <- mapM (new_profile ps) cs;
  foldM update_controller news n.

(* ------------------------------------------------------------------ *)
(** ** the parameters of a node *)

(** RF:123-129 with RF:412-421: two updates per bus.  The columns "p_mw" and "q_mvar" are
    always there (CG:277-282), in the order of [bus_columns]. *)
Definition load_updates (r : trow) : list update :=
  map (fun cv => mkUpdate "load" (fst cv) (PInt (tb_bus r)) (VQ (snd cv)) CEmpty)
      (combine bus_columns (tb_vals r)).

Definition parameters_for_buses (tables : @items (list trow)) : res (list update) :=
  match d_get "buses" tables with
  | None => Err KeyError
  | Some rows => Ok (flat_map load_updates rows)
  end.

(** PM:243-244, _get_index_of_element_based_on_parameter. *)
Definition index_by (n : network) (elem c : string) (v : val) : res Z :=
  do t <- sub n elem;
  do ls <- labels_where t c v;
  match ls with [] => Err IndexError | l :: _ => Ok l end.

(** PM:246-253, _get_index_of_element_based_on_multiple_parameters, with
    ["element", "et"] (RF:441-442). *)
Definition poly_index (n : network) (i : Z) : res Z :=
  do t <- sub n "poly_cost";
  do ls <- labels_where t "element" (VZ i);
  if has_col t "et" then
    match filter (fun l => val_eqb (t_cell t l "et") (VS "sgen")) ls with
    | [] => Err IndexError
    | l :: _ => Ok l
    end
  else Err KeyError.

(** RF:423-467, _parameters_for_flexible_units.  All the columns are there (CG:299-316), in
    the order of [flexible_columns]: four limits, then six costs. *)
Definition flexible_updates (n : network) (r : trow) : res (list update) :=
  do i <- index_by n "sgen" "bus" (VZ (tb_bus r));
  do j <- poly_index n i;
  let cells := combine flexible_columns (tb_vals r) in
  Ok (map (fun cv => mkUpdate "sgen" (fst cv) (PScalar i) (VQ (snd cv)) CEmpty) (firstn 4 cells) ++
      map (fun cv => mkUpdate "poly_cost" (fst cv) (PScalar j) (VQ (snd cv)) CEmpty) (skipn 4 cells)).

Definition parameters_for_flexible (n : network) (tables : @items (list trow)) : res (list update) :=
  match d_get "flexible units" tables with
  | None => Ok []
  | Some rows => do us <- mapM (flexible_updates n) rows; Ok (List.concat us)
  end.

(** RF:407-410, _update_parameters_in_opf. *)
Definition update_parameters (s3 : Q) (orig : network) (tables : @items (list trow)) (n : network) : res network :=
  do bs <- parameters_for_buses tables;
  do fs <- parameters_for_flexible n tables;
  update_multiple_parameters s3 orig (bs ++ fs) false n.

(* ------------------------------------------------------------------ *)
(** ** preparing and running an OPF *)

Definition position_of (v : pyval) : pos :=
  match v with
  | One q => if Qeq_bool q (inject_Z (Qfloor q)) then PInt (Qfloor q) else PScalar (Qfloor q)
  | Many l => PList (map Qfloor l)
  end.
Definition capacity_of (v : pyval) : cap := match v with One q => CNum q | Many l => CList l end.

(** RF:107-120, _create_data_to_update_status_of_parameter. *)
Definition status_update (b : BV) : update :=
  mkUpdate (bv_type b) "in_service" (position_of (bv_pos b)) (VB true) (capacity_of (bv_cap b)).

(** What does not change while planning: sqrt 3, the network PM:122-123 rebuild,
    original_pp_profiles_data, inter_temporal, and whether there are data frames (RF:161-162). *)
Record setting := mkSetting {
  st_s3 : Q; st_orig : network; st_profiles : list pprofile; st_inter : bool; st_replace : bool }.

(** RF:231-234: the part of _operational_check after the interventions, for a node with
    clusters [cs] (nodes_data) and tables [ts] (map_node_to_data_power_system). *)
Definition node_updates (S : setting) (cs : list cluster) (ts : @items (list trow)) (n : network) : res network :=
  do n1 <- (if st_inter S then update_controllers (st_profiles S) cs n else Ok n);
  if st_replace S then update_parameters (st_s3 S) (st_orig S) ts n1 else Ok n1.

(** NA:386-389, _update_status_elements_opf of the non-anticipative planner. *)
Definition status_na (S : setting) (ready : list BV) (n : network) : res network :=
  update_multiple_parameters (st_s3 S) (st_orig S) (map status_update ready) true n.

(** RF:229-234 for the non-anticipative planner: the network given to the OPF. *)
Definition prepare_na (S : setting) (cs : list cluster) (ts : @items (list trow)) (ready : list BV)
    (n : network) : res network :=
  do n1 <- status_na S ready n; node_updates S cs ts n1.

(** RF:244-254: an item of candidate_interventions is a container of interventions, an item
    of new_interventions an intervention. *)
Definition status_group (S : setting) (g : list BV) (n : network) : res network :=
  update_multiple_parameters (st_s3 S) (st_orig S) (map status_update g) true n.

(** RF:237-242, _update_status_elements_opf of the base planner. *)
Definition status_rf (S : setting) (candidate : @items (@items BV)) (news : @items BV) (n : network) : res network :=
  match news with
  | [] => Ok n
  | _ => do n1 <- status_group S (flat_map (fun it => map snd (snd it)) candidate) n;
         status_group S (map snd news) n1
  end.

(** RF:229-234 for the base planner. *)
Definition prepare_rf (S : setting) (cs : list cluster) (ts : @items (list trow))
    (candidate : @items (@items BV)) (news : @items BV) (n : network) : res network :=
  do n1 <- status_rf S candidate news n; node_updates S cs ts n1.

(** One evaluation: the node's data and the interventions in service. *)
Record evaluation := mkEval { ev_clusters : list cluster; ev_tables : @items (list trow); ev_ready : list BV }.

(** A run of the non-anticipative planner seen from the network: every evaluation prepares
    the network and hands it to the OPF, which leaves it changed in any way ([opf]: PW:105-149
    adds a generator, drops the external grid and writes results). *)
Definition evaluate (S : setting) (opf : network -> network) (n : network) (e : evaluation) : res network :=
  do p <- prepare_na S (ev_clusters e) (ev_tables e) (ev_ready e) n; Ok (opf p).
Definition run (S : setting) (opf : network -> network) (es : list evaluation) : res network :=
  foldM (evaluate S opf) es (st_orig S).
