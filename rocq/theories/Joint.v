(** Model of pyensys/engines/main.py (MA): pyeneClass, which joins the energy tree (EnergyTree.v), the electricity network
    (Power.v) and the rivers (Hydro.v) into one pyomo model, changes its parameters and reports its answers.

    Simplifications.
    - Those of the three models.  The seasonal settings (conf) are read once.
    - HM.hydropower and HM.pumps have the same length for every column; HM.pumps['Head'] and ['Efficiency'] are [j_lifts].
    - Division of an expression by 0 raises ZeroDivisionError.
    - pyeneN (MA:787-791) is not used by any constraint and is left out, as are the runs with the other solvers. *)
From Coq Require Import List Bool Arith ZArith QArith.
From Verif Require Import Base Cases Network InputOutput GraphData Linear Devices.
From Verif Require EnergyTree Hydro Power.
Import ListNotations.
Open Scope nat_scope.
Open Scope list_scope.

(** ** The energy tree for a given number of vectors *)

(** pyeneE.py:445-455: inputs and outputs of a level. *)
Definition cleared (vectors : nat) (l : EnergyTree.level) : EnergyTree.level :=
  let n := EnergyTree.lv_names l in
  let z := if n =? 1 then EnergyTree.Vec (repeat 0%Q vectors)
           else if vectors =? 1 then EnergyTree.Vec (repeat 0%Q n) else EnergyTree.Mat (repeat (repeat 0%Q n) vectors) in
  EnergyTree.mkLevel n (EnergyTree.lv_weights l) z z (EnergyTree.lv_unc l).
(** pyeneE.py:435-466 with settings['Fix'] = (True,), which counts as set (MA:709). *)
Definition energy_of (vectors : nat) (data : list EnergyTree.level) : res EnergyTree.energy :=
  do m <- EnergyTree.measure data;
  let sz := EnergyTree.mkSizes (EnergyTree.sz_periods m) (EnergyTree.sz_len m) (EnergyTree.sz_sum m) (EnergyTree.sz_scenarios m) vectors (EnergyTree.sz_nodes m) in
  do p <- EnergyTree.process sz (map (cleared vectors) data);
  let unc := map EnergyTree.lv_unc data in
  do t <- EnergyTree.connect sz unc;
  do f <- EnergyTree.parameters sz t p;
  do lk <- EnergyTree.link sz t unc;
  Ok (EnergyTree.mkEnergy sz t lk (fst (fst f)) (snd (fst f)) (snd f)).

(** MA:98-111, _Calculate_OFaux; [leaves] is the number of network models.  State: weights, OFaux, xp. *)
Definition spread (w : list Q) (xn : nat) (a : nat * nat) : res (list Q) :=
  foldM (fun w xb => do q <- at_ w xb; do k <- at_ w xn; store w xb (q * k)%Q) (seq (fst a) (snd a + 1 - fst a)) w.
Definition scenario_weights (leaves : nat) (e : EnergyTree.energy) : res (list Q) :=
  do st <- foldM (fun (st : list Q * list Q * nat) xn =>
      let '(w, f, xp) := st in
      do a <- at_ (EnergyTree.tr_after (EnergyTree.en_tree e)) xn;
      if fst a =? 0 then do q <- at_ w xn; do f <- store f xp q; Ok (w, f, S xp)
      else do w <- spread w xn a; Ok (w, f, xp))
    (seq 0 (EnergyTree.lk_bal (EnergyTree.en_links e) + 1)) (EnergyTree.en_weight e, repeat 1%Q leaves, 0);
  Ok (snd (fst st)).

(** ** Initialisation *)

(** The settings of the three models; [j_types] is NM.settings['Load_Type']. *)
Record settings := mkSettings {
  j_data : list EnergyTree.level; j_power : Power.power; j_water : option Hydro.settings; j_lifts : list (Q * Q); j_types : list nat; j_penalty : Q }.
(** What initialise leaves in self; the tables of water are empty without hydrology. *)
Record joint := mkJoint {
  q_energy : EnergyTree.energy; q_first : nat; q_number : nat; q_power : Power.power; q_model : Power.model; q_water : option Hydro.hydro;
  q_hin : list (nat * nat); q_down : list nat; q_hout : list (nat * nat); q_pout : list (nat * nat) }.

(** MA:710-716 *)
Definition vectors_of (J : settings) : nat :=
  match j_water J with Some E => List.length (Hydro.e_in E) | None => Power.n_hyd (j_power J) end.
(** MA:722-724, 779-785: the nodes of the last level: the first and their number. *)
Definition last_level (e : EnergyTree.energy) : res (nat * nat) :=
  do p <- at_ (EnergyTree.tr_time (EnergyTree.en_tree e)) (EnergyTree.sz_periods (EnergyTree.en_sizes e)); Ok (fst p, 1 + snd p - fst p).
(** MA:732-738: profiles of demand, ones where none is given. *)
Definition fill_demand (size : nat) (given : list Q) : res (list Q) :=
  if size <? List.length given then Err IndexError else Ok (given ++ repeat 1%Q (size - List.length given)).
(** MA:726-746 *)
Definition network_of (W : Power.power) (scen number : nat) : res Power.power :=
  do d <- (if 0 <? scen then fill_demand (Power.w_time W * scen) (Power.w_demand W) else Ok (Power.w_demand W));
  let r := if 0 <? Power.n_ren W then repeat 0%Q (Power.w_time W * Power.w_nores W) else Power.w_profile W in
  Ok (Power.mkPower (Power.w_base W) (Power.w_buses W) (Power.w_branches W) (Power.w_flag W) (Power.w_losses W) (Power.w_feas W) (Power.w_secflag W)
        (Power.w_security W) (Power.w_loss W) (Power.w_anc W) (Power.w_uc W) (Power.w_time W) (Power.w_pieces W) (Power.w_points W) (Power.w_conv W)
        (Power.w_column W) (Power.w_machines W) (Power.w_hyd W) (Power.w_plants W) (Power.w_farms W) (Power.w_unc W) (Power.w_pumps W) (Power.w_stores W)
        scen (Power.w_links W) scen d (Power.w_nores W) (Power.w_links_res W) r (Power.w_weights W) (Power.w_cool W) number).
(** MA:793-808 *)
Definition water_of (E : Hydro.settings) (W : Power.power) (M : Power.model) (number : nat) : res Hydro.settings :=
  do w <- at_ (Power.m_weights M) 0;
  Ok (Hydro.mkSettings (Hydro.e_rivers E) (Hydro.e_parts E) (Hydro.e_ramps E) (Hydro.e_in E) (Hydro.e_out E) (Hydro.e_pump_from E) (Hydro.e_pump_to E)
        (Hydro.e_units E) (Hydro.e_storage E) (map (fun h => (h, 0)) (seq 0 number)) (map (fun h => (h, 1)) (seq 0 number)) number (Power.w_time W)
        (Hydro.e_feas E) (Hydro.e_seconds E * w)%Q (Hydro.e_m E) (Hydro.e_penalty E) [] (Hydro.e_incn E) (Hydro.e_incs E) (Hydro.e_series1 E) (Hydro.e_series E)).

(** MA:826-829: the position of a node among the inputs, searched from the last vector backwards and then, with negative
    positions, from the last input. *)
Definition seek (vectors : nat) (inputs : list nat) (node : nat) : res nat :=
  match find (fun i => nth i inputs 0 =? node) (rev (seq 0 vectors) ++ rev (seq 0 (List.length inputs))) with
  | Some i => Ok i
  | None => Err IndexError
  end.
(** MA:819-830, pyeneHin *)
Definition pump_inputs (vectors : nat) (inputs pump_to : list nat) (pumps : nat) : res (list (nat * nat)) :=
  foldM (fun t x => do n <- at_ pump_to x; if n =? 0 then Ok t else do i <- seek vectors inputs n; Ok (set_nth i (1, x) t))
    (seq 0 pumps) (repeat (0, 0) (List.length inputs)).
(** MA:832-843, LLHydDown: the plants with rivers that leave their node. *)
Definition plants_above (us : list Hydro.unit_) (plants : nat) (Y : Hydro.hydro) : res (list nat) :=
  foldM (fun l x =>
      do u <- at_ us x; do i <- slot (List.length (Hydro.a_out (Hydro.y_adj Y))) (Hydro.u_node u); do a <- at_ (Hydro.a_out (Hydro.y_adj Y)) i;
      Ok (if 0 <? fst a then l ++ [x] else l)) (seq 0 plants) [].
(** connections['NodeSeqOut'][node-1] (pyeneH.py:826-830) *)
Definition out_no (Y : Hydro.hydro) (node : nat) : res nat :=
  do i <- slot (List.length (Hydro.y_lout Y)) node; do a <- at_ (Hydro.y_lout Y) i; Ok (if fst a =? 0 then 0 else S (snd a)).
(** MA:846-864, LLHydOut; s['LLHydOut'] has a row for every output and is written once per plant. *)
Definition plants_out (us : list Hydro.unit_) (plants : nat) (above : list nat) (Y : Hydro.hydro) : res (list (nat * nat)) :=
  let n := List.length (Hydro.y_out Y) in
  do t <- foldM (fun (st : list (nat * nat) * nat) x =>
      do u <- at_ us x; do o <- out_no Y (Hydro.u_node u);
      if o =? 0 then Ok st else if snd st <? n then Ok (set_nth (o - 1) (1, x) (fst st), S (snd st)) else Err IndexError)
    (seq 0 plants) (repeat (0, 0) n, 0);
  foldM (fun t x => do u <- at_ us x; do o <- out_no Y (Hydro.u_node u); do i <- slot n o; Ok (set_nth i (0, 0) t)) above (fst t).
(** MA:865-871, LLHPumpOut *)
Definition pumps_out (pump_from : list nat) (pumps : nat) (Y : Hydro.hydro) : res (list (nat * nat)) :=
  foldM (fun t x => do n <- at_ pump_from x; do o <- out_no Y n; if o =? 0 then Ok t else Ok (set_nth (o - 1) (1, x) t))
    (seq 0 pumps) (repeat (0, 0) (List.length (Hydro.y_out Y))).

Section Initialise.
(** RM.get_CF, and d ** (5/3), x ** 0.5, d ** (2/3). *)
Variable cf : list Q -> nat -> res (list Q).
Variables (pow53 root pow23 : Q -> Q).

(** MA:700-871 without a path. *)
Definition initialise (J : settings) : res joint :=
  do e <- energy_of (vectors_of J) (j_data J);
  do l <- last_level e;
  do W <- network_of (j_power J) (EnergyTree.sz_scenarios (EnergyTree.en_sizes e)) (snd l);
  do M <- Power.initialise cf W;
  match j_water J with
  | None => Ok (mkJoint e (fst l) (snd l) W M None [] [] [] [])
  | Some E =>
    do E' <- water_of E W M (snd l);
    do Y <- Hydro.initialise pow53 root pow23 E';
    do hin <- pump_inputs (vectors_of J) (Hydro.y_in Y) (Hydro.e_pump_to E) (Power.n_pump W);
    do up <- plants_above (Hydro.e_units E) (Power.n_hyd W) Y;
    do ho <- plants_out (Hydro.e_units E) (Power.n_hyd W) up Y;
    do po <- pumps_out (Hydro.e_pump_from E) (Power.n_pump W) Y;
    Ok (mkJoint e (fst l) (snd l) W M (Some Y) hin up ho po)
  end.
End Initialise.

(** ** The pyomo model *)

(** vEOut, and the variables of the network and of the rivers. *)
Inductive var := JOut (n v : nat) | JNet (v : Power.var) | JWater (v : Hydro.var).
Notation expr := (Linear.expr var).
Notation constr := (Linear.constr var).

Section Model.
Variables (J : settings) (K : joint).
Definition nodes : nat := EnergyTree.sz_nodes (EnergyTree.en_sizes (q_energy K)).
Definition vectors : nat := EnergyTree.sz_vectors (EnergyTree.en_sizes (q_energy K)).
Definition base : Q := Power.w_base (q_power K).
Definition times : list nat := seq 0 (Power.w_time (q_power K)).
(** MA:189-195: vEOut becomes a variable. *)
Definition declared (v : var) : bool :=
  match v with
  | JOut n v => (n <? nodes) && (v <? vectors)
  | JNet v => Power.declared (q_power K) (q_model K) v
  | JWater v => match q_water K with Some Y => Hydro.declared Y v | None => match v with Hydro.HPenalty => true | _ => false end end
  end.
Definition get (v : var) : res expr := if declared v then Ok (EV v) else Err KeyError.

(** MA:166-182: EffHydro and EffPump. *)
Definition unit_factor (head eff : Q) : Q := (head * eff * (981 # 100) / 1000)%Q.
Definition plant_factors (E : Hydro.settings) : res (list Q) :=
  mapM (fun x => do u <- at_ (Hydro.e_units E) x; Ok (unit_factor (Hydro.u_head u) (Hydro.u_eff u))) (seq 0 (Power.n_hyd (q_power K))).
Definition pump_factors : res (list Q) :=
  mapM (fun x => do u <- at_ (j_lifts J) x; Ok (unit_factor (fst u) (snd u))) (seq 0 (Power.n_pump (q_power K))).

(** Gen.get_vNGenH(xg) *)
Definition hydro_no (g : nat) : res nat := if g <? Power.n_hyd (q_power K) then Ok (Power.n_conv (q_power K) + g) else Err IndexError.
Definition hydro_gen (h g t : nat) : res expr := do i <- hydro_no g; get (JNet (Power.NGen (Power.con_gen (q_power K) h + i) t)).
Definition pump_var (i t : nat) : res expr := get (JNet (Power.NPump i t)).
Definition divide (e : expr) (q : Q) : res expr := if Qeq_bool q 0 then Err ZeroDivisionError else Ok (EMul (/ q)%Q e).

(** MA:219-223 with pyeneN.py:654-658; the nodes of the last level are numbered from [q_first]. *)
Definition energy_link (h v : nat) : res (option constr) :=
  do o <- get (JOut (q_first K + h) v);
  do l <- mapM (fun t => do w <- at_ (Power.m_weights (q_model K)) t; do g <- hydro_gen h v t; Ok (EMul w g)) times;
  Ok (Some (CEq o (EMul base (esum l)))).

Section Water.
Variables (Y : Hydro.hydro) (eh ep : list Q).
Definition n_in : nat := List.length (Hydro.y_in Y).
(** m.vNPump[...]*Base/EffPump[p], as often as the table says. *)
Definition pumped (i t : nat) (p : nat * nat) : res expr :=
  do l <- mapM (fun _ => do v <- pump_var i t; do q <- at_ ep (snd p); divide (EMul base v) q) (seq 0 (fst p)); Ok (esum l).
(** pyeneN.py:660-663 *)
Definition used (h t g : nat) : res expr := do q <- at_ eh g; do v <- hydro_gen h g t; divide (EMul base v) q.

(** MA:225-235 *)
Definition inflow (h v : nat) : res (option constr) :=
  do p <- at_ (q_hin K) v;
  let xp := snd p + h * (Power.n_pump (q_power K) + 1) in
  do o <- get (JOut (q_first K + h) v);
  do l <- mapM (fun t => do i <- get (JWater (Hydro.HIn (n_in * h + v) t)); do d <- pumped xp t p; do w <- at_ (Power.m_weights (q_model K)) t;
                         Ok (EMul w (ESub i d))) times;
  do q <- at_ eh v;
  Ok (Some (CEq o (EMul q (esum l)))).
(** MA:237-244 *)
Definition pump_inflow (h v t : nat) : res (option constr) :=
  do i <- get (JWater (Hydro.HIn (n_in * h + v) t));
  do p <- at_ (q_hin K) v;
  do d <- pumped (snd p + h * (Power.n_pump (q_power K) + 1) + 1) t p;
  Ok (Some (CEq i d)).
(** MA:246-256 *)
Definition river_use (E : Hydro.settings) (h v t : nat) : res (option constr) :=
  do b <- at_ (q_down K) v;
  do u <- at_ (Hydro.e_units E) b;
  do g <- used h t b;
  do n <- slot (List.length (Hydro.a_out (Hydro.y_adj Y))) (Hydro.u_node u);
  do a <- at_ (Hydro.a_out (Hydro.y_adj Y)) n;
  do l <- mapM (fun d => do r <- Hydro.nth_river (Hydro.a_list (Hydro.y_adj Y)) a d; get (JWater (Hydro.HUp (Hydro.con_river Y h + r) t))) (seq 0 (fst a));
  Ok (Some (CLe g (esum l))).
(** MA:258-270 *)
Definition output_use (h n t : nat) : res (option constr) :=
  do b <- at_ (q_hout K) n;
  do p <- at_ (q_pout K) n;
  do o <- get (JWater (Hydro.HOut (n + h * List.length (Hydro.y_out Y)) t));
  do l <- mapM (fun _ => used h t (snd b)) (seq 0 (fst b));
  do d <- pumped (1 + snd p + h * (1 + Power.n_pump (q_power K))) t p;
  Ok (Some (CLe (EAdd (esum l) d) o)).
End Water.

(** MA:134-164, addCon *)
Definition links : res (list constr) :=
  let hs := seq 0 (q_number K) in
  match j_water J, q_water K with
  | Some E, Some Y =>
    do eh <- plant_factors E;
    do ep <- pump_factors;
    if Power.n_hyd (q_power K) =? 0 then Ok []
    else
      do a <- family (fun p => inflow Y eh ep (fst p) (snd p)) (list_prod hs (seq 0 vectors));
      do b <- family (fun p => pump_inflow Y ep (fst (fst p)) (snd (fst p)) (snd p)) (list_prod (list_prod hs (seq vectors (n_in Y - vectors))) times);
      do c <- family (fun p => river_use Y eh E (fst (fst p)) (snd (fst p)) (snd p)) (list_prod (list_prod hs (seq 0 (List.length (q_down K)))) times);
      do d <- family (fun p => output_use Y eh ep (fst (fst p)) (snd (fst p)) (snd p)) (list_prod (list_prod hs (seq 0 (List.length (Hydro.y_out Y)))) times);
      Ok (a ++ b ++ c ++ d)
  | _, _ =>
    if Power.n_hyd (q_power K) =? 0 then Ok []
    else family (fun p => energy_link (fst p) (snd p)) (list_prod hs (seq 0 vectors))
  end.

(** An answer, with the states [v] of the energy tree for every vector; [inputs] is EM.Weight['In']. *)
Definition input_of (inputs : list (list Q)) (v n : nat) : Q := nth v (nth n inputs []) 0%Q.
Definition weight_of (n : nat) : Q := nth n (EnergyTree.en_weight (q_energy K)) 0%Q.
Definition answer (inputs : list (list Q)) (v : nat -> EnergyTree.soc) (s : var -> Q) : Prop :=
  (forall x, x < vectors -> EnergyTree.feasible weight_of (input_of inputs x) (fun n => s (JOut n x)) (EnergyTree.en_links (q_energy K)) (v x)) /\
  (forall n x, n < nodes -> x < vectors -> (0 <= s (JOut n x))%Q) /\
  Power.answer (q_power K) (q_model K) (fun x => s (JNet x)) /\
  match q_water K with Some Y => Hydro.answer Y (fun x => s (JWater x)) | None => (0 <= s (JWater Hydro.HPenalty))%Q end /\
  exists cs, links = Ok cs /\ Forall (sat s) cs.

(** MA:912-927, OF_rule; [f] is OFaux. *)
Definition objective (f : list Q) (s : var -> Q) : Q :=
  let W := q_power K in let M := q_model K in let w t := nth t (Power.m_weights M) 0%Q in
  (qsum (map (fun h =>
      (qsum (map (fun t => (qsum (map (fun g => s (JNet (Power.NGCost (Power.con_gen W h + g) t))) (seq 0 (Power.n_gen W)))
                            + qsum (map (fun i => s (JNet (Power.NFea (Power.con_fea M h + i) t))) (seq 0 (Power.m_nofea M))) * j_penalty J) * w t) times)
       - qsum (map (fun ip => Power.pu_value (snd ip) * base * qsum (map (fun t => s (JNet (Power.NPump (Power.con_pump W h + fst ip + 1) t)) * w t) times))
           (combine (seq 0 (Power.n_pump W)) (Power.w_pumps W)))) * nth h f 0) (seq 0 (q_number K)))
   + s (JWater Hydro.HPenalty))%Q.
End Model.

(** MA:1127-1132, set_Hydro: [plants] is NM.hydropower['Number']; with one plant all inputs of node 1 are set. *)
Definition set_hydro (plants : nat) (inputs : list (list Q)) (index : nat) (value : Q) : res (list (list Q)) :=
  do r <- at_ inputs 1;
  if plants =? 1 then Ok (set_nth 1 (repeat value (List.length r)) inputs)
  else do i <- slot (List.length r) index; Ok (set_nth 1 (set_nth i value r) inputs).
