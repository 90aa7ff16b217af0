(** Model of pyensys/engines/pyeneD.py (DV): buses, branches and generators of the electricity network, from the
    tables of the case to the numbers that the constraints use.

    Simplifications.
    - Numbers are rational, bus numbers natural; baseMVA is not 0 (division by it is never an error here).
    - The columns of a table have the same length; a row is a record.
    - Differences of points of a cost curve that are 0 give infinite slopes in numpy; here the slope is 0.
    - Load types, voltages, reactive power, taps, susceptances and reliability data are left out: no constraint
      uses them. *)
From Coq Require Import List Bool Arith ZArith QArith Qround.
From Verif Require Import Base Cases Network InputOutput Linear.
Import ListNotations.
Open Scope nat_scope.
Open Scope list_scope.

(** a[node-1]: row of a node in an array of [size] rows; node 0 is the last row. *)
Definition slot (size node : nat) : res nat :=
  match node with
  | O => match size with O => Err IndexError | S s => Ok s end
  | S i => if i <? size then Ok i else Err IndexError
  end.
(** l[i].append(a) *)
Definition push {A} (i : nat) (a : A) (t : list (list A)) : res (list (list A)) := do l <- at_ t i; Ok (set_nth i (l ++ [a]) t).

(** ** The network *)

(** A row of mpc['bus']: BUS_I, Loss_Fix (0 if absent) and PD (DV:30-55, pyeneN.py:1125-1128). *)
Record bus := mkBus { b_number : nat; b_loss : Q; b_pd : Q }.
(** A row of mpc['branch'] (DV:69-85). *)
Record branch := mkBranch { br_from : nat; br_to : nat; br_r : Q; br_x : Q; br_rate : Q; br_loss : Q; br_status : bool }.

(** DV:574-584, findBusPosition *)
Fixpoint find_bus (numbers : list nat) (bus : nat) : res nat :=
  match numbers with
  | [] => Err IndexError
  | b :: r => if b =? bus then Ok 0 else do i <- find_bus r bus; Ok (S i)
  end.
(** Positions of the ends of every branch, branches that leave and that arrive at every bus, and for every security
    case (the intact network first) the number of the flow of every branch, if it is in service. *)
Record grid := mkGrid { g_ends : list (nat * nat); g_from : list (list nat); g_to : list (list nat); g_n1 : list (list (option nat)) }.
(** DV:637-655 for one branch; the numbers for the intact network count the branches. *)
Definition link_branch (numbers : list nat) (st : list (nat * nat) * list (list nat) * list (list nat)) (ib : nat * branch) :=
  let '(ends, fr, to) := st in
  do f <- find_bus numbers (br_from (snd ib));
  do t <- find_bus numbers (br_to (snd ib));
  do fr <- push f (fst ib) fr;
  do to <- push t (fst ib) to;
  Ok (ends ++ [(f, t)], fr, to).
(** DV:627-633: the branches to trip; with SecurityFlag they are counted from 0. *)
Definition tripped (flag : bool) (security : list nat) (n : nat) : list nat := if flag then seq 0 n else security.
(** DV:688-692: one security case, from flow number [cou] on. *)
Definition case_row (n xs cou : nat) : list (option nat) * nat :=
  fold_left (fun st xb => if S xb =? xs then (fst st ++ [None], snd st) else (fst st ++ [Some (snd st)], S (snd st))) (seq 0 n) ([], cou).
Definition case_rows (n : nat) (cases : list nat) : list (list (option nat)) * nat :=
  fold_left (fun st xs => let r := case_row n xs (snd st) in (fst st ++ [fst r], snd r)) cases ([map Some (seq 0 n)], n).
(** DV:617-698, ElectricityNetwork.initialise *)
Definition build_grid (numbers : list nat) (brs : list branch) (flag : bool) (security : list nat) : res grid :=
  let n := List.length brs in
  let none := repeat [] (List.length numbers) in
  do st <- foldM (link_branch numbers) (combine (seq 0 n) brs) ([], none, none);
  let '(ends, fr, to) := st in
  Ok (mkGrid ends fr to (fst (case_rows n (tripped flag security n)))).
(** get_N1, get_Sec of a branch (DV:315-345). *)
Definition flow_no (G : grid) (xs xb : nat) : res (option nat) := do r <- at_ (g_n1 G) xs; at_ r xb.
(** get_Sec of a bus (DV:657-660, 684-685). *)
Definition volt_no (G : grid) (buses xs pos : nat) : res nat := if xs <? List.length (g_n1 G) then Ok (xs * buses + pos) else Err IndexError.
(** get_FlowF and get_FlowT (DV:590-607); [tab] is g_from or g_to. *)
Definition flows_at (G : grid) (tab : list (list nat)) (xn xs : nat) : res (list nat) :=
  do bs <- at_ tab xn; do l <- mapM (flow_no G xs) bs; Ok (somes l).

(** ** Cost curves *)

(** MODEL == 1, NCOST and COST (DV:116-119). *)
Record curve := mkCurve { cu_points : bool; cu_n : nat; cu_cost : list Q }.
(** DV:940-949 *)
Definition given_points (c : curve) : res (list (Q * Q)) :=
  mapM (fun x => do a <- at_ (cu_cost c) (2 * x); do b <- at_ (cu_cost c) (2 * x + 1); Ok (a, b)) (seq 0 (cu_n c)).
(** DV:970-974: the value of the polynomial; NCOST = 0 takes the last number. *)
Definition poly (c : curve) (x : Q) : res Q :=
  do k0 <- match cu_n c with O => last_of (cu_cost c) | S m => at_ (cu_cost c) m end;
  foldM (fun y k => do a <- at_ (cu_cost c) (cu_n c - 1 - k); Ok (y + a * x ^ Z.of_nat k)%Q) (seq 1 (cu_n c - 1)) k0.
(** DV:953-961; [pieces] is settings['Pieces'], [no] the number of the generator and [mx] its capacity. *)
Definition piece_length (pieces : list Q) (no : nat) (mx : Q) (c : curve) : res Q :=
  match pieces with
  | [] => do a <- at_ (cu_cost c) 0; Ok (if Qeq_bool a 0 then mx else (mx / 3)%Q)
  | [d] => Ok d
  | _ => at_ pieces no
  end.
(** DV:963-975 *)
Definition poly_points (pieces : list Q) (no : nat) (mx mn : Q) (c : curve) : res (list (Q * Q)) :=
  do d <- piece_length pieces no mx c;
  if Qeq_bool d 0 then Err ZeroDivisionError
  else
    let k := Qfloor (mx / d) in
    if (k <? 0)%Z then Err ValueError
    else mapM (fun i => let x := (mn + inject_Z (Z.of_nat i) * d)%Q in do y <- poly c x; Ok (x, y)) (seq 0 (S (Z.to_nat k))).
(** DV:977-984: slope (per unit of power on the base) and constant of the line through two neighbours. *)
Definition line (base : Q) (p q : Q * Q) : Q * Q :=
  let m := ((snd q - snd p) / (fst q - fst p))%Q in ((m * base)%Q, (snd p - fst p * m)%Q).
Fixpoint lines (base : Q) (pts : list (Q * Q)) : list (Q * Q) :=
  match pts with
  | p :: r => match r with q :: _ => line base p q :: lines base r | [] => [] end
  | [] => []
  end.
(** DV:936-986, set_CostCurve *)
Definition cost_lines (base : Q) (pieces : list Q) (no : nat) (mx mn : Q) (c : curve) : res (list (Q * Q)) :=
  do p <- (if cu_points c then match cu_n c with O => Err ValueError | S _ => given_points c end else poly_points pieces no mx mn c);
  Ok (lines base p).

(** ** Generators *)

Inductive kind := Conv | Hyd | Ren.
(** self.conventional of pyeneN.py:68-76 *)
Record conv_settings := mkConv {
  cv_number : option nat; cv_anc : list bool; cv_base : list Q; cv_ramp : list (option Q); cv_res : list bool; cv_mut : list (option nat); cv_mdt : list (option nat) }.
(** self.hydropower of pyeneN.py:78-88, except the columns of [plant]. *)
Record hydro_settings := mkHyd { hs_anc : list bool; hs_base : list Q; hs_ramp : list (option Q); hs_res : list bool }.
(** A row of mpc['gen'] and mpc['gencost']. *)
Record machine := mkMachine { ma_bus : nat; ma_max : Q; ma_min : Q; ma_curve : curve }.
(** A row of the columns of self.hydropower; Min is 0 if it is not given (DV:189-192). *)
Record plant := mkPlant { pl_bus : nat; pl_max : Q; pl_min : Q; pl_cost : Q }.
(** A row of self.RES. *)
Record farm := mkFarm { fa_bus : nat; fa_max : Q; fa_cost : Q }.

(** What the device classes take from their configuration (DV:1006-1041, 1045-1072, 1097-1121). *)
Record gen := mkGen {
  ge_kind : kind; ge_bus : nat; ge_max : Q; ge_min : Q; ge_ramp : option Q; ge_base : Q; ge_mut : option nat; ge_mdt : option nat; ge_curve : curve }.
(** One value for all or one for each (DV:151-157, 178-183). *)
Definition pick {A} (l : list A) (no : nat) : res A := match l with [a] => Ok a | _ => at_ l no end.
(** DV:122-137; [column] is mpc['gen']['Ramp'], if there is one. *)
Definition pick_ramp (l : list (option Q)) (column : option (list Q)) (no : nat) : res (option Q) :=
  match l with
  | [] => match column with Some c => do a <- at_ c no; Ok (Some a) | None => Ok None end
  | [a] => Ok a
  | _ => if no <=? List.length l then at_ l no else Ok None
  end.
(** DV:140-148 *)
Definition pick_time (l : list (option nat)) (no : nat) : res (option nat) :=
  match l with [] => Ok None | [a] => Ok a | _ => at_ l no end.
(** DV:106-157 *)
Definition conv_gen (S : conv_settings) (column : option (list Q)) (im : nat * machine) : res gen :=
  let '(no, r) := im in
  do ramp <- pick_ramp (cv_ramp S) column no;
  do mut <- pick_time (cv_mut S) no;
  do mdt <- pick_time (cv_mdt S) no;
  do _ <- pick (cv_anc S) no;
  do base <- pick (cv_base S) no;
  do _ <- pick (cv_res S) no;
  Ok (mkGen Conv (ma_bus r) (ma_max r) (ma_min r) ramp base mut mdt (ma_curve r)).
(** DV:175-199 *)
Definition hydro_gen (S : hydro_settings) (ip : nat * plant) : res gen :=
  let '(no, r) := ip in
  do _ <- pick (hs_anc S) no;
  do base <- pick (hs_base S) no;
  do ramp <- pick (hs_ramp S) no;
  do _ <- pick (hs_res S) no;
  Ok (mkGen Hyd (pl_bus r) (pl_max r) (pl_min r) ramp base None None (mkCurve true 2 [0; 0; 1; pl_cost r]%Q)).
(** DV:216-226 *)
Definition res_gen (r : farm) : gen := mkGen Ren (fa_bus r) (fa_max r) 0 None 0 None None (mkCurve true 2 [0; 0; 1; fa_cost r]%Q).
(** DV:1536-1547, Generators.MPCconfigure; also the order in which the generators are numbered (DV:1484-1530). *)
Definition all_gens (CS : conv_settings) (column : option (list Q)) (ms : list machine) (HS : hydro_settings) (ps : list plant) (fs : list farm) : res (list gen) :=
  do a <- mapM (conv_gen CS column) (combine (seq 0 (List.length ms)) ms);
  do b <- mapM (hydro_gen HS) (combine (seq 0 (List.length ps)) ps);
  Ok (a ++ b ++ map res_gen fs).

(** A generator after initialise; its number vNGen is its position.  [un_bin], [un_mutv] and [un_mdtv] are the positions
    of its other variables. *)
Record unit_ := mkUnit {
  un_kind : kind; un_bus : nat; un_max : Q; un_min : Q; un_ramp : Q; un_base : Q;
  un_bin : option nat; un_mutv : option nat; un_mdtv : option nat; un_mut : nat; un_mdt : nat; un_lines : list (Q * Q) }.
(** DV:896-904, on the base; renewable units have no ramp (DV:1187-1189). *)
Definition ramp_of (ramp : option Q) (mx : Q) : Q :=
  match ramp with
  | None => (mx + 1)%Q
  | Some r => if Qle_bool r 0 || Qle_bool 1 r then (mx + 1)%Q else (mx * r)%Q
  end.
Definition positive (q : Q) : bool := negb (Qle_bool q 0).
(** The generators of every bus, the units, and the numbers of binaries, minimum down times and minimum up times. *)
Record fleet := mkFleet { fl_at : list (list nat); fl_units : list unit_; fl_bin : nat; fl_mdt : nat; fl_mut : nat }.
(** DV:906-934 *)
Definition next_if (b : bool) (n : nat) : option nat * nat := if b then (Some n, S n) else (None, n).
Definition given {A} (o : option A) : bool := match o with Some _ => true | None => false end.
Definition or0 (o : option nat) : nat := match o with Some n => n | None => 0 end.
(** DV:1493-1530 for one generator. *)
Definition init_gen (numbers : list nat) (base : Q) (pieces : list Q) (F : fleet) (g : gen) : res fleet :=
  let no := List.length (fl_units F) in
  do xb <- find_bus numbers (ge_bus g);
  do tab <- push xb no (fl_at F);
  let conv := match ge_kind g with Ren => false | _ => true end in
  let bin := conv && positive (ge_max g) && positive (ge_min g) in
  let b := next_if bin (fl_bin F) in
  let d := next_if (bin && given (ge_mdt g)) (fl_mdt F) in
  let u := next_if (bin && given (ge_mut g)) (fl_mut F) in
  do ls <- cost_lines base pieces no (ge_max g) (ge_min g) (ge_curve g);
  let mx := (ge_max g / base)%Q in
  Ok (mkFleet tab
        (fl_units F ++ [mkUnit (ge_kind g) xb mx (ge_min g / base)%Q (ramp_of (ge_ramp g) mx) (ge_base g) (fst b) (fst u) (fst d) (or0 (ge_mut g)) (or0 (ge_mdt g)) ls])
        (snd b) (snd d) (snd u)).
(** DV:1469-1533, the rest of Generators.initialise *)
Definition build_fleet (numbers : list nat) (base : Q) (pieces : list Q) (gs : list gen) : res fleet :=
  foldM (init_gen numbers base pieces) gs (mkFleet (repeat [] (List.length numbers)) [] 0 0 0).
(** get_NoPieces (DV:1521-1524, 1393) *)
Definition most_pieces (us : list unit_) : nat := fold_left (fun m u => Nat.max m (List.length (un_lines u))) us 0.

(** ** Cooling water *)

(** RM.cooling (pyeneR.py:43-59): temp_w, Gen2Temp and GenType.  Simplification: the temperatures have the same
    length. *)
Record cooling := mkCooling { co_temps : list (list Q); co_link : list nat; co_type : list nat }.
(** An array of [n] zeros that starts with [l]. *)
Definition fill (n : nat) (l : list nat) : res (list nat) := if List.length l <=? n then Ok (l ++ repeat 0 (n - List.length l)) else Err IndexError.
Section Cooling.
(** RM.get_CF(temp_w, index) *)
Variable cf : list Q -> nat -> res (list Q).
(** DV:1444-1460 for one generator: Gen2Der and the profiles (type, temperature). *)
Definition same_case (types der : list nat) (x1 x2 : nat) : bool := (nth x1 types 0 =? nth x2 types 0) && (nth x1 der 0 =? nth x2 der 0).
Definition cool_step (types : list nat) (st : list nat * list (nat * nat)) (x1 : nat) : list nat * list (nat * nat) :=
  let '(der, profs) := st in
  match find (same_case types der x1) (seq 0 x1) with
  | Some x2 => (set_nth x1 x2 der, profs)
  | None => (set_nth x1 (List.length profs) der, profs ++ [(nth x1 types 0, nth x1 der 0)])
  end.
(** DV:1413-1467: Gen2Der and Derate for [n] conventional generators. *)
Definition derating (C : cooling) (n : nat) : res (list nat * list (list Q)) :=
  do der <- fill n (co_link C);
  do _ <- at_ (co_temps C) 0;
  match co_type C with
  | [] => do rows <- mapM (fun t => cf t 0) (co_temps C); Ok (der, rows)
  | _ =>
    do types <- fill n (co_type C);
    let '(der, profs) := fold_left (cool_step types) (seq 0 n) (der, []) in
    do rows <- mapM (fun tp => do t <- at_ (co_temps C) (snd tp); cf t (fst tp)) profs;
    Ok (der, rows)
  end.
End Cooling.
