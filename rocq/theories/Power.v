(** Model of pyensys/engines/pyeneN.py (NM): ENetworkClass, the electricity network and its generators over time, from
    the settings to the pyomo constraints and objective.  An answer is any assignment of the variables.

    Simplifications.
    - Those of Devices.v.  Weights of time steps are not 0.
    - The columns of pumps and of storage have the same length; a row is a record.
    - The numbers of the variables of a scenario (connections, NM:36-50) are those of main.py:752-776; with one scenario they
      are the defaults.
    - A constraint without variables is kept; pyomo refuses it.
    - LLESec1 (NM:1034-1056) is only checked for its size; nothing uses it.
    - Printing is left out, except the allocation of losses. *)
From Coq Require Import List Bool Arith ZArith QArith Qabs.
From Verif Require Import Base Cases Network InputOutput GraphData Linear Devices.
Import ListNotations.
Open Scope nat_scope.
Open Scope list_scope.

(** ** Settings *)

(** A row of self.pumps (NM:90-95) and of self.Storage (NM:104-109). *)
Record pump := mkPump { pu_bus : nat; pu_max : Q; pu_value : Q }.
Record store_ := mkStore { st_bus : nat; st_max : Q; st_eff : Q }.
(** The configuration (NM:18-118) with the case that Read loads; [w_noh] is the length of connections['set']. *)
Record power := mkPower {
  w_base : Q; w_buses : list bus; w_branches : list branch;
  w_flag : bool; w_losses : bool; w_feas : bool; w_secflag : bool; w_security : list nat; w_loss : option Q; w_anc : option Q; w_uc : bool;
  w_time : nat; w_pieces : list Q; w_points : list Q;
  w_conv : conv_settings; w_column : option (list Q); w_machines : list machine; w_hyd : hydro_settings; w_plants : list plant;
  w_farms : list farm; w_unc : list (option Q); w_pumps : list pump; w_stores : list store_;
  w_scen : nat; w_links : option (list nat); w_nodem : nat; w_demand : list Q; w_nores : nat; w_links_res : option (list nat); w_profile : list Q;
  w_weights : option (list Q); w_cool : option cooling; w_noh : nat }.

(** What initialise leaves in self. *)
Record model := mkModel {
  m_grid : grid; m_cases : nat; m_fleet : fleet; m_chords : list (Q * Q); m_pump : list nat; m_fea : list (nat * nat); m_nofea : nat;
  m_load : list Q; m_offset : list (list Z); m_roffset : list (list Z); m_stor : list (list nat); m_prev : list nat; m_weights : list Q;
  m_serv : nat; m_lanc : nat; m_lres : nat; m_derate : option (list nat * list (list Q)) }.

Definition numbers (W : power) : list nat := map b_number (w_buses W).
Definition n_bus (W : power) : nat := List.length (w_buses W).
Definition n_bra (W : power) : nat := List.length (w_branches W).
Definition n_conv (W : power) : nat := List.length (w_machines W).
Definition n_hyd (W : power) : nat := List.length (w_plants W).
Definition n_ren (W : power) : nat := List.length (w_farms W).
Definition n_gen (W : power) : nat := n_conv W + n_hyd W + n_ren W.
Definition n_pump (W : power) : nat := List.length (w_pumps W).
Definition n_stor (W : power) : nat := List.length (w_stores W).

(** ** Tables *)

(** NM:1028-1031: Security; the branches counted from 1. *)
Definition security (W : power) : list nat :=
  match w_security W with [] => if w_secflag W then seq 1 (n_bra W) else [] | l => l end.
(** NM:1034-1056: a row for every branch of every case must fit in NoSec1 rows. *)
Definition check_security (n : nat) (sec : list nat) : res unit :=
  let rows := fold_left (fun c xs => c + List.length (filter (fun xb => negb (S xb =? xs)) (seq 0 n))) sec n in
  if n * (1 + List.length sec) <? List.length sec then Err ValueError
  else if rows <=? n * (1 + List.length sec) - List.length sec then Ok tt else Err IndexError.
(** NM:1061-1083: Loss_Con1 (constant) and Loss_Con2 (slope) between neighbours of Loss_Param. *)
Definition chord (a b : Q) : res (Q * Q) :=
  if Qeq_bool (b - a) 0 then Err ZeroDivisionError
  else let m := ((b ^ 2 - a ^ 2) / (b - a))%Q in Ok ((a ^ 2 - a * m)%Q, m).
Fixpoint chords (l : list Q) : res (list (Q * Q)) :=
  match l with
  | [] => Err ValueError
  | a :: r => match r with [] => Ok [] | b :: _ => do c <- chord a b; do cs <- chords r; Ok (c :: cs) end
  end.
(** NM:1083-1087: per bus 0 or the number of its pump, from 1. *)
Definition pump_table (nb : nat) (ps : list pump) : res (list nat) :=
  foldM (fun t ip => do i <- slot nb (pu_bus (snd ip)); Ok (set_nth i (S (fst ip)) t)) (combine (seq 0 (List.length ps)) ps) (repeat 0 nb).
(** NM:1090-1102: LLFea1 and LLFea2, and NoFea. *)
Definition fea_table (bs : list bus) : list (nat * nat) * nat :=
  fold_left (fun st b => if positive (b_pd b) then (fst st ++ [(1, snd st)], S (snd st)) else (fst st ++ [(0, 0)], snd st)) bs ([], 0).
(** NM:992-997: busData. *)
Definition load_of (base : Q) (b : bus) : Q := ((b_loss b + b_pd b) / base)%Q.
(** NM:1132-1140, 1144-1160: default links, the same profile for all buses (generators) of a scenario. *)
Definition default_links (width scen : nat) : list nat := flat_map (fun h => repeat (S h) width) (seq 0 scen).
Definition links_of (width scen : nat) (l : option (list nat)) : list nat := match l with Some l => l | None => default_links width scen end.
Definition res_links (W : power) : list nat :=
  if w_nores W =? 1 then repeat 1 (w_scen W * n_ren W) else links_of (n_ren W) (w_scen W) (w_links_res W).
(** NM:1000-1019: the position of the first value of the profile, per bus (generator) and scenario. *)
Definition offset (time link : nat) : Z := ((Z.of_nat link - 1) * Z.of_nat time)%Z.
Definition offsets (width scen time : nat) (links : list nat) : res (list (list Z)) :=
  mapM (fun xn => mapM (fun xs => do l <- at_ links (xs * width + xn); Ok (offset time l)) (seq 0 scen)) (seq 0 width).
(** NM:681-689: LLStor. *)
Definition stor_table (nb scen : nat) (ss : list store_) : res (list (list nat)) :=
  foldM (fun t hi =>
      let '(xh, (x, s)) := hi in
      do i <- slot nb (st_bus s); do r <- at_ t i; do r <- store r xh (xh * List.length ss + S x); Ok (set_nth i r t))
    (list_prod (seq 0 scen) (combine (seq 0 (List.length ss)) ss)) (repeat (repeat 0 scen) nb).
(** NM:691-694: LLTime. *)
Definition previous (time : nat) : res (list nat) := match time with O => Err IndexError | S t => Ok (t :: seq 0 t) end.
(** NM:702-765: NoSer and the lengths of GAncillary and GRES; [number] is conventional['Number'].  A list of flags counts as
    set unless it is empty. *)
Definition is_set {A} (l : list A) : bool := match l with [] => false | _ => true end.
Definition ancillary (W : power) : res (nat * nat) :=
  match w_anc W with
  | None => Ok (0, 0)
  | Some _ =>
    if is_set (cv_anc (w_conv W)) then
      if is_set (hs_anc (w_hyd W)) then Ok (1, n_conv W + n_hyd W)
      else match cv_number (w_conv W) with
           | None => Err (match n_conv W with O => ValueError | _ => IndexError end)
           | Some k => if n_conv W <=? k then Ok (1, k) else Err IndexError
           end
    else if is_set (hs_anc (w_hyd W)) then Ok (1, n_hyd W) else Ok (0, 0)
  end.
Definition support (W : power) : res (nat * nat) :=
  if n_ren W =? 0 then Ok (0, 0)
  else
    do u <- at_ (w_unc W) 0;
    match u with
    | None => Ok (0, 0)
    | Some _ =>
      if is_set (cv_res (w_conv W)) then Ok (1, if is_set (hs_res (w_hyd W)) then n_conv W + n_hyd W else n_conv W)
      else if is_set (hs_res (w_hyd W)) then Ok (1, n_hyd W) else Ok (0, 0)
    end.

Section Power.
(** RM.get_CF *)
Variable cf : list Q -> nat -> res (list Q).

(** NM:665-765, initialise, with Read (1099-1160), ProcessENet (1021-1097) and ProcessEDem (990-1019). *)
Definition initialise (W : power) : res model :=
  do gs <- all_gens (w_conv W) (w_column W) (w_machines W) (w_hyd W) (w_plants W) (w_farms W);
  do G <- build_grid (numbers W) (w_branches W) (w_secflag W) (w_security W);
  do _ <- check_security (n_bra W) (security W);
  do ch <- (if w_losses W then chords (w_points W) else Ok []);
  do pt <- pump_table (n_bus W) (w_pumps W);
  let fea := fea_table (w_buses W) in
  do off <- (if 0 <? w_nodem W then offsets (n_bus W) (w_scen W) (w_time W) (links_of (n_bus W) (w_scen W) (w_links W))
             else Ok (repeat (repeat 0%Z (w_scen W)) (n_bus W)));
  do roff <- offsets (n_ren W) (w_scen W) (w_time W) (res_links W);
  do der <- match w_cool W with None => Ok None | Some C => do d <- derating cf C (n_conv W); Ok (Some d) end;
  do F <- build_fleet (numbers W) (w_base W) (w_pieces W) gs;
  do st <- stor_table (n_bus W) (w_scen W) (w_stores W);
  do pv <- previous (w_time W);
  let ws := match w_weights W with Some l => l | None => repeat 1%Q (w_time W) end in
  do a <- ancillary W;
  do r <- support W;
  Ok (mkModel G (List.length (security W)) F ch pt (fst fea) (snd fea) (map (fun b => load_of (w_base W) b) (w_buses W)) off roff st pv ws
        (fst a + fst r) (snd a) (snd r) der).
End Power.

(** ** The pyomo model *)

Inductive var :=
| NFlow (i t : nat) | NVolt (i t : nat) | NLoss (i t : nat) | NPump (i t : nat) | NFea (i t : nat) | NGCost (i t : nat) | NGen (i t : nat) | NStore (i t : nat)
| NServ (i t : nat) | NBin (i t : nat) | NMut (i t : nat) | NMdt (i t : nat).
Notation expr := (Linear.expr var).
Notation constr := (Linear.constr var).

Section Model.
Variables (W : power) (M : model).
(** NM:678-680: NoBuses and NoBranch. *)
Definition all_volts : nat := n_bus W * (1 + m_cases M).
Definition all_flows : nat := n_bra W + (n_bra W - 1) * m_cases M.
Definition services : bool := 0 <? m_lanc M + m_lres M.
(** NM:343-382, addVars: the index sets. *)
Definition declared (v : var) : bool :=
  let ok n i t := (i <? w_noh W * n) && (t <? w_time W) in
  match v with
  | NFlow i t => w_flag W && ok all_flows i t
  | NVolt i t => w_flag W && ok all_volts i t
  | NLoss i t => w_flag W && w_losses W && ok (n_bra W) i t
  | NPump i t => ok (n_pump W + 1) i t
  | NFea i t => ok (m_nofea M) i t
  | NGCost i t => ok (n_gen W) i t
  | NGen i t => ok (n_gen W + 1) i t
  | NStore i t => (i <? w_noh W * n_stor W + 1) && (t <? w_time W)
  | NServ i t => services && ok (m_serv M) i t
  | NBin i t => w_uc W && ok (fl_bin (m_fleet M) + 1) i t
  | NMut i t => w_uc W && ok (fl_mut (m_fleet M) + 1) i t
  | NMdt i t => w_uc W && ok (fl_mdt (m_fleet M) + 1) i t
  end.
(** Their domains. *)
Definition domain (v : var) (q : Q) : Prop :=
  match v with
  | NFlow _ _ | NVolt _ _ => True
  | NBin _ _ => q == 0 \/ q == 1
  | NMut _ _ | NMdt _ _ => 0 <= q <= 1
  | _ => 0 <= q
  end%Q.
(** m.v[...] *)
Definition get (v : var) : res expr := if declared v then Ok (EV v) else Err KeyError.
Definition gets (vs : list var) : res expr := do l <- mapM get vs; Ok (esum l).
Definition keep (c : constr) : res (option constr) := Ok (Some c).
(** main.py:757-776: the first variable of scenario [h]. *)
Definition con_flow (h : nat) : nat := h * all_flows.
Definition con_volt (h : nat) : nat := h * all_volts.
Definition con_loss (h : nat) : nat := h * n_bra W.
Definition con_gen (h : nat) : nat := h * n_gen W.
Definition con_pump (h : nat) : nat := h * (n_pump W + 1).
Definition con_fea (h : nat) : nat := h * m_nofea M.
(** NM:173-180: p['daux'] and p['faux']. *)
Definition faux : nat := if w_feas W then 1 else 0.
Definition daux : nat := if w_nodem W =? 0 then 0 else 1.
Definition unit_at (g : nat) : res unit_ := at_ (fl_units (m_fleet M)) g.
Definition loss_factor : Q := match w_loss W with None => 1%Q | Some l => (1 + l)%Q end.
(** scenarios['Demand'][xt*daux+busScenario[xn][xh]] *)
Definition demand_at (n t h : nat) : res Q := do r <- at_ (m_offset M) n; do o <- at_ r h; py_index (w_demand W) (Z.of_nat (t * daux) + o).
Definition gen_sum (h t : nat) (l : list nat) : res expr := gets (map (fun x => NGen (con_gen h + x) t) l).
Definition all_gen (h t : nat) : res expr := gen_sum h t (seq 0 (n_gen W)).
(** sum(m.vNFea[xh, xt] for xf in range(faux)) *)
Definition dummy (h t : nat) : res expr := gets (map (fun _ => NFea h t) (seq 0 faux)).

(** DV:272-281 *)
Definition flow_rule (t b xs h : nat) : res (option constr) :=
  do br <- at_ (w_branches W) b;
  do o <- flow_no (m_grid M) xs b;
  match o with
  | None => Ok None
  | Some i =>
    do e <- at_ (g_ends (m_grid M)) b;
    do v1 <- volt_no (m_grid M) (n_bus W) xs (fst e);
    do v2 <- volt_no (m_grid M) (n_bus W) xs (snd e);
    do f <- get (NFlow (con_flow h + i) t);
    do a <- get (NVolt (con_volt h + v1) t);
    do c <- get (NVolt (con_volt h + v2) t);
    if Qeq_bool (br_x br) 0 then Err ZeroDivisionError else keep (CEq f (EMul (/ br_x br)%Q (ESub a c)))
  end.
(** DV:283-297; the rate was divided by the base (DV:655). *)
Definition limit_rule (low : bool) (t b xs h : nat) : res (option constr) :=
  do br <- at_ (w_branches W) b;
  do o <- flow_no (m_grid M) xs b;
  match o with
  | None => Ok None
  | Some i =>
    do f <- get (NFlow (con_flow h + i) t);
    let r := (br_rate br / w_base W)%Q in
    if low then keep (CLe (EK (- r)%Q) f) else keep (CLe f (EK r))
  end.
(** DV:258-270 *)
Definition loss_rule (neg : bool) (b l t h : nat) : res (option constr) :=
  do br <- at_ (w_branches W) b;
  do c <- at_ (m_chords M) l;
  do v <- get (NLoss (con_loss h + b) t);
  do f <- get (NFlow (con_flow h + b) t);
  let k := (if neg then - snd c else snd c)%Q in
  keep (CLe (EAdd (EK (br_loss br / w_base W)%Q) (EMul (br_r br) (EAdd (EK (fst c)) (EMul k f)))) v).
(** NM:404-454 *)
Definition store_change (i t : nat) (eff : Q) : res expr :=
  do p <- at_ (m_prev M) t; do w <- at_ (m_weights M) t;
  do a <- get (NStore i t); do b <- get (NStore i p); Ok (EMul (eff / w)%Q (ESub a b)).
Definition half_losses (n t h : nat) (tab : list (list nat)) (flows : list nat) : res expr :=
  if w_losses W then
    do bs <- at_ tab n; do l <- gets (map (fun b => NLoss (con_loss h + b) t) bs); Ok (EMul (1 # 2) l)
  else
    do ls <- mapM (fun i => do b <- at_ (w_branches W) i; Ok (br_loss b)) flows; Ok (EK ((1 # 2) * qsum ls / w_base W)%Q).
Definition balance_rule (n t xs h : nat) : res (option constr) :=
  do sr <- at_ (m_stor M) n;
  do si <- at_ sr h;
  do eff <- (if si =? 0 then Ok 0%Q else do s0 <- at_ sr 0; do s <- at_ (w_stores W) (s0 - 1); Ok (st_eff s));
  do fin <- flows_at (m_grid M) (g_to (m_grid M)) n xs;
  do fout <- flows_at (m_grid M) (g_from (m_grid M)) n xs;
  do lf <- half_losses n t h (g_from (m_grid M)) fout;
  do lt <- half_losses n t h (g_to (m_grid M)) fin;
  do gs <- at_ (fl_at (m_fleet M)) n;
  do g <- gen_sum h t gs;
  do i <- gets (map (fun x => NFlow (con_flow h + x) t) fin);
  do load <- at_ (m_load M) n;
  do d <- demand_at n t h;
  do sc <- store_change si t eff;
  do fe <- at_ (m_fea M) n;
  do c <- gets (map (fun _ => NFea (con_fea h + snd fe) t) (seq 0 (fst fe)));
  do pn <- at_ (m_pump M) n;
  do p <- get (NPump (con_pump h + pn) t);
  do o <- gets (map (fun x => NFlow (con_flow h + x) t) fout);
  let k := (if w_losses W then 1 else loss_factor)%Q in
  keep (CEq (ESub (EAdd g i) lt) (EAdd (EAdd (EAdd (ESub (ESub (EK (k * load * d)%Q) sc) c) p) o) lf)).
(** NM:456-469 *)
Definition balance0_rule (t xs h : nat) : res (option constr) :=
  do ds <- mapM (fun n => do load <- at_ (m_load M) n; do d <- demand_at n t h; Ok (load * d)%Q) (seq 0 (n_bus W));
  do p <- gets (map (fun x => NPump (h * (n_pump W + 1) + x + 1) t) (seq 0 (n_pump W)));
  do c <- dummy h t;
  do g <- all_gen h t;
  do ss <- mapM (fun x => do s <- at_ (w_stores W) x; store_change (h * (n_stor W + 1) + x + 1) t (st_eff s)) (seq 0 (n_stor W));
  keep (CEq (EAdd (EK (qsum ds * loss_factor)%Q) p) (ESub (EAdd c g) (esum ss))).
(** DV:718-725, 1123-1125, 1223-1227 *)
Definition baseload_rule (g t h : nat) : res (option constr) :=
  do u <- unit_at g;
  do w <- at_ (m_weights M) t;
  if match un_kind u with Ren => false | _ => positive (un_base u) end then
    do v <- get (NGen (con_gen h + g) t);
    do s <- gets (map (fun t2 => NGen (con_gen h + g) t2) (seq 0 (w_time W)));
    keep (CLe (EMul (un_base u * (w / qsum (m_weights M)))%Q s) v)
  else Ok None.
(** DV:1246-1264, derating of conventional generators: 1 without cooling. *)
Definition derate_of (u : unit_) (g t : nat) : res Q :=
  match un_kind u, m_derate M with
  | Conv, Some d => do i <- at_ (fst d) g; do r <- at_ (snd d) i; at_ r t
  | _, _ => Ok 1%Q
  end.
(** DV:750-781, 1127-1137 *)
Definition max_rule (g t h : nat) : res (option constr) :=
  do u <- unit_at g;
  match un_kind u with
  | Ren => Ok None
  | _ => do k <- derate_of u g t; do v <- get (NGen (con_gen h + g) t); keep (CLe v (EK (un_max u * k)%Q))
  end.
Definition min_rule (g t h : nat) : res (option constr) :=
  do u <- unit_at g;
  match un_kind u with
  | Ren => Ok None
  | _ => if positive (un_max u) then do v <- get (NGen (con_gen h + g) t); keep (CLe (EK (un_min u)) v) else Ok None
  end.
(** DV:754-769, 801-807: with unit commitment.  Without a binary the capacity is not derated. *)
Definition max_uc_rule (g t h : nat) : res (option constr) :=
  do u <- unit_at g;
  match un_kind u with
  | Ren => Ok None
  | _ =>
    do k <- derate_of u g t;
    do v <- get (NGen (con_gen h + g) t);
    match un_bin u with
    | None => keep (CLe v (EK (un_max u)))
    | Some b => do x <- get (NBin (con_gen h + b) t); keep (CLe v (EMul (un_max u * k)%Q x))
    end
  end.
Definition min_uc_rule (g t h : nat) : res (option constr) :=
  do u <- unit_at g;
  match un_kind u, un_bin u with
  | Ren, _ | _, None => Ok None
  | _, Some b => do v <- get (NGen (con_gen h + g) t); do x <- get (NBin (con_gen h + b) t); keep (CLe (EMul (un_min u) x) v)
  end.
(** NM:240-246: LLUC, [2 * time] numbers. *)
Fixpoint cycle (time k x : nat) : list nat :=
  match k with O => [] | S k' => x :: cycle time k' (if S x =? time then 0 else S x) end.
(** LL[xt-1:xt+k-1] *)
Definition window (time k t : nat) : list nat :=
  let l := cycle time (2 * time) 1 in
  match t with
  | O => skipn (2 * time - 1) (firstn (match k with O => 2 * time - 1 | S k' => k' end) l)
  | S x => firstn k (skipn x l)
  end.
(** DV:783-834; [up] is minimum up time.  The binaries are taken at the position of the other variable. *)
Definition turn_rule (up : bool) (g t h : nat) : res (option constr) :=
  do u <- unit_at g;
  match un_kind u, (if up then un_mutv u else un_mdtv u) with
  | Conv, Some i =>
    do p <- at_ (m_prev M) t;
    do v <- get (if up then NMut (con_gen h + i) t else NMdt (con_gen h + i) t);
    do a <- get (NBin (con_gen h + i) t);
    do b <- get (NBin (con_gen h + i) p);
    keep (CLe (if up then ESub a b else ESub b a) v)
  | _, _ => Ok None
  end.
Definition hold_rule (up : bool) (g t h : nat) : res (option constr) :=
  do u <- unit_at g;
  match un_kind u, (if up then un_mutv u else un_mdtv u) with
  | Conv, Some i =>
    let k := if up then un_mut u else un_mdt u in
    do v <- get (if up then NMut (con_gen h + i) t else NMdt (con_gen h + i) t);
    do l <- mapM (fun x => do b <- get (NBin (con_gen h + i) x); Ok (if up then b else ESub (EK 1) b)) (window (w_time W) k t);
    keep (CLe (EMul (inject_Z (Z.of_nat k)) v) (esum l))
  | _, _ => Ok None
  end.
(** DV:727-748 *)
Definition cost_rule (g c t h : nat) : res (option constr) :=
  do u <- unit_at g;
  do w <- at_ (m_weights M) t;
  if c <? List.length (un_lines u) then
    do l <- at_ (un_lines u) c;
    do x <- get (NGCost (con_gen h + g) t);
    do v <- get (NGen (con_gen h + g) t);
    keep (CLe (EAdd (EMul (fst l) v) (EK (snd l))) (EMul (/ w)%Q x))
  else Ok None.
(** NM:551-558 *)
Definition pump_max_rule (p t h : nat) : res (option constr) :=
  do v <- get (NPump (con_pump h + p + 1) t); do r <- at_ (w_pumps W) p; keep (CLe v (EK (pu_max r / w_base W)%Q)).
Definition pump_ini_rule (t h : nat) : res (option constr) := do v <- get (NPump (con_pump h) t); keep (CEq v (EK 0)).
(** NM:560-566 *)
Definition farm_max (r t h : nat) : res Q :=
  do row <- at_ (m_roffset M) r; do o <- at_ row h; do q <- py_index (w_profile W) (o + Z.of_nat t); do f <- at_ (w_farms W) r; Ok (q * fa_max f)%Q.
Definition farm_gen (r : nat) : nat := n_conv W + n_hyd W + r.
Definition res_rule (t r h : nat) : res (option constr) :=
  do v <- get (NGen (con_gen h + farm_gen r) t); do q <- farm_max r t h; keep (CLe v (EK q)).
(** NM:587-589 *)
Definition store0_rule (t : nat) : res (option constr) := do v <- get (NStore 0 t); keep (CEq v (EK 0)).
(** DV:836-850, 1159-1165; [up]: the rule called Up limits the fall. *)
Definition ramp_rule (up : bool) (g t h : nat) : res (option constr) :=
  do p <- at_ (m_prev M) t;
  do u <- unit_at g;
  match un_kind u with
  | Ren => Ok None
  | _ =>
    if negb (Qle_bool (un_max u) (un_ramp u)) then
      do a <- get (NGen (con_gen h + g) t); do b <- get (NGen (con_gen h + g) p);
      keep (CLe (if up then ESub b a else ESub a b) (EK (un_ramp u)))
    else Ok None
  end.
(** NM:568-585 *)
Definition services_rule (t h : nat) : res (option constr) :=
  do g <- all_gen h t; do s <- gets (map (fun x => NServ (h * m_serv M + x) t) (seq 0 (m_serv M))); keep (CLe s g).
Definition service_rule (i : nat) (t h : nat) : res (option constr) :=
  do g <- all_gen h t; do s <- get (NServ i t); keep (CLe s g).
(** NM:384-390 *)
Definition ancillary_rule (t h : nat) : res (option constr) :=
  do s <- get (NServ (h * m_serv M) t); do g <- all_gen h t; do c <- dummy h t;
  match w_anc W with None => Err TypeError | Some a => keep (CLe (ESub (EMul a g) c) s) end.
(** NM:601-620; [serv] adds the service. *)
Definition unc_rule (serv : bool) (t h : nat) : res (option constr) :=
  do g <- gen_sum h t (map farm_gen (seq 0 (n_ren W)));
  do qs <- mapM (fun r => farm_max r t h) (seq 0 (n_ren W));
  do o <- at_ (w_unc W) 0;
  do c <- dummy h t;
  match o with
  | None => Err TypeError
  | Some u =>
    let k := EAdd (EK (qsum qs * (1 - u))%Q) c in
    if serv then do s <- get (NServ (m_serv M * (h + 1) - 1) t); keep (CLe g (EAdd k s)) else keep (CLe g k)
  end.

(** NM:169-315, addCon: families of constraints in order. *)
Definition over2 (f : nat -> nat -> res (option constr)) (l1 l2 : list nat) : res (list constr) := family (fun p => f (fst p) (snd p)) (list_prod l1 l2).
Definition over3 (f : nat -> nat -> nat -> res (option constr)) (l1 l2 l3 : list nat) : res (list constr) :=
  family (fun p => f (fst (fst p)) (snd (fst p)) (snd p)) (list_prod (list_prod l1 l2) l3).
Definition over4 (f : nat -> nat -> nat -> nat -> res (option constr)) (l1 l2 l3 l4 : list nat) : res (list constr) :=
  family (fun p => f (fst (fst (fst p))) (snd (fst (fst p))) (snd (fst p)) (snd p)) (list_prod (list_prod (list_prod l1 l2) l3) l4).
Definition optional (b : bool) (r : res (list constr)) : res (list constr) := if b then r else Ok [].
Definition s_tim : list nat := seq 0 (w_time W).
Definition s_con : list nat := seq 0 (w_noh W).
Definition s_bra : list nat := seq 0 (n_bra W).
Definition s_bus : list nat := seq 0 (n_bus W).
Definition s_sec : list nat := seq 0 (m_cases M + 1).
Definition s_gen : list nat := seq 0 (n_gen W).
(** NM:185-211 *)
Definition network_constraints : res (list constr) :=
  do a <- over4 flow_rule s_tim s_bra s_sec s_con;
  do b <- over4 (limit_rule true) s_tim s_bra s_sec s_con;
  do c <- over4 (limit_rule false) s_tim s_bra s_sec s_con;
  do d <- optional (w_losses W) (over4 (loss_rule false) s_bra (seq 0 (List.length (m_chords M))) s_tim s_con);
  do e <- optional (w_losses W) (over4 (loss_rule true) s_bra (seq 0 (List.length (m_chords M))) s_tim s_con);
  do f <- over4 balance_rule s_bus s_tim s_sec s_con;
  Ok (a ++ b ++ c ++ d ++ e ++ f).
(** NM:231-265 *)
Definition unit_constraints : res (list constr) :=
  if w_uc W then
    do a <- over3 max_uc_rule s_gen s_tim s_con;
    do b <- over3 min_uc_rule s_gen s_tim s_con;
    do c <- over3 (turn_rule false) s_gen s_tim s_con;
    do d <- over3 (turn_rule true) s_gen s_tim s_con;
    do e <- over3 (hold_rule false) s_gen s_tim s_con;
    do f <- over3 (hold_rule true) s_gen s_tim s_con;
    Ok (a ++ b ++ c ++ d ++ e ++ f)
  else do a <- over3 max_rule s_gen s_tim s_con; do b <- over3 min_rule s_gen s_tim s_con; Ok (a ++ b).
(** NM:297-313 *)
Definition service_constraints : res (list constr) :=
  do a <- optional services (
    do a <- over2 services_rule s_tim s_con;
    do b <- optional (0 <? m_lanc M) (do x <- over2 (fun t h => service_rule (h * m_serv M) t h) s_tim s_con; do y <- over2 ancillary_rule s_tim s_con; Ok (x ++ y));
    do c <- optional (0 <? m_lres M) (do x <- over2 (fun t h => service_rule (m_serv M * (h + 1) - 1) t h) s_tim s_con; do y <- over2 (unc_rule true) s_tim s_con; Ok (x ++ y));
    Ok (a ++ b ++ c));
  do u <- (if (m_lres M =? 0) && (0 <? n_ren W) then do o <- at_ (w_unc W) 0; Ok (given o) else Ok false);
  do b <- optional u (over2 (unc_rule false) s_tim s_con);
  Ok (a ++ b).
(** With storage, m.sNSto does not exist (NM:284-288). *)
Definition constraints : res (list constr) :=
  do c1 <- (if w_flag W then network_constraints else over3 balance0_rule s_tim s_sec s_con);
  do c2 <- optional (positive (qsum (hs_base (w_hyd W)))) (over3 baseload_rule s_gen s_tim s_con);
  do c3 <- unit_constraints;
  do c4 <- over4 cost_rule s_gen (seq 0 (most_pieces (fl_units (m_fleet M)))) s_tim s_con;
  do c5 <- over3 pump_max_rule (seq 0 (n_pump W)) s_tim s_con;
  do c6 <- over2 pump_ini_rule s_tim s_con;
  do c7 <- over3 res_rule s_tim (seq 0 (n_ren W)) s_con;
  do _ <- (if 0 <? n_stor W then Err AttributeError else Ok tt);
  do c8 <- family store0_rule s_tim;
  do c9 <- over3 (ramp_rule true) s_gen s_tim s_con;
  do c10 <- over3 (ramp_rule false) s_gen s_tim s_con;
  do c11 <- service_constraints;
  Ok (c1 ++ c2 ++ c3 ++ c4 ++ c5 ++ c6 ++ c7 ++ c8 ++ c9 ++ c10 ++ c11).

(** An answer: all constraints hold and every variable is in its domain. *)
Definition answer (s : var -> Q) : Prop :=
  exists cs, constraints = Ok cs /\ Forall (sat s) cs /\ forall v, declared v = true -> domain v (s v).

(** NM:772-783, the objective of the first scenario. *)
Definition objective (s : var -> Q) : Q :=
  (qsum (map (fun t => (qsum (map (fun g => s (NGCost (con_gen 0 + g) t)) s_gen)
                        + qsum (map (fun f => s (NFea (con_fea 0 + f) t)) (seq 0 (m_nofea M))) * 1000000) * nth t (m_weights M) 0) s_tim)
   - qsum (map (fun ip => pu_value (snd ip) * w_base W * qsum (map (fun t => s (NPump (con_pump 0 + fst ip + 1) t) * nth t (m_weights M) 0) s_tim))
        (combine (seq 0 (n_pump W)) (w_pumps W))))%Q.

(** NM:936-988, printLosses with settings['Loss'] given: [full] are the losses to allocate (NM:956-975), [flow] and [fix] the
    flows and fixed losses of the branches at one time. *)
Definition allocate (full : Q) (flow fix_ : list Q) : list Q :=
  let total := qsum flow in
  if positive total then map (fun ff => (full * (Qabs (fst ff) / total) + snd ff)%Q) (combine flow fix_)
  else repeat 0%Q (List.length flow).
End Model.

(** NM:136-167, _getLL: the items of every list, [dt] being the list (from 1) of every item.  LL and LLnext hold numbers from 1, 0 is
    none. *)
Fixpoint last_item (fuel : nat) (next : list nat) (x : nat) : res nat :=
  do i <- slot (List.length next) x; do n <- at_ next i;
  if n =? 0 then Ok x else match fuel with O => Err OutOfFuel | S f => last_item f next n end.
Definition link_item (st : list nat * list nat) (id : nat * nat) : res (list nat * list nat) :=
  let '(ll, next) := st in
  do i <- slot (List.length ll) (snd id);
  do a <- at_ ll i;
  if a =? 0 then Ok (set_nth i (S (fst id)) ll, next)
  else do x <- last_item (List.length next) next a; do j <- slot (List.length next) x; Ok (ll, set_nth j (S (fst id)) next).
Fixpoint follow_items (fuel : nat) (next : list nat) (x : nat) (l1 : list nat) (pos : nat) : res (list nat * nat) :=
  if x =? 0 then Ok (l1, pos)
  else match fuel with
       | O => Err OutOfFuel
       | S f => do l1 <- store l1 pos x; do i <- slot (List.length next) x; do n <- at_ next i; follow_items f next n l1 (S pos)
       end.
Definition get_ll (lists : nat) (dt : list nat) : res (list nat * list (nat * nat)) :=
  let n := List.length dt in
  do st <- foldM link_item (combine (seq 0 n) dt) (repeat 0 lists, repeat 0 n);
  do r <- foldM (fun r x =>
      let '(l1, pos, l2) := r in
      if x =? 0 then Ok (l1, pos, l2 ++ [(0, 0)])
      else do f <- follow_items (S n) (snd st) x l1 pos; Ok (fst f, snd f, l2 ++ [(pos, snd f - 1)])) (fst st) (repeat 0 (S n), 1, []);
  Ok (fst (fst r), snd r).
