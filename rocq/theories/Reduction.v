(** Model of the reduction of a network to a voltage level, pyensys/engines/pyene_Analizer.py (AN),
    [PowerSystemReduction].  Recursion in Python is bounded by the interpreter's stack, which is not modelled. *)
From Coq Require Import List ZArith QArith Bool Lia Arith.
From Verif Require Import Base GraphData Network Cases Parameters Analyser.
Import ListNotations.
Open Scope list_scope.
Open Scope nat_scope.

(** AN:295-315: the entries of a supernode that are lists: its buses, its coupling buses, its lines and
    transformers (positions), and the elements that become artificial lines. *)
Record super := mkSuper { u_bus : list nat; u_coupling : list nat; u_lines : list nat; u_trafos : list nat; u_art : list series }.
Definition no_super : super := mkSuper [] [] [] [] [].
Definition u_els (k : skind) (u : super) : list nat := match k with Lines => u_lines u | Trafos => u_trafos u end.
Definition add_bus (p : nat) (u : super) : super := mkSuper (u_bus u ++ [p]) (u_coupling u) (u_lines u) (u_trafos u) (u_art u).
Definition add_coupling (p : nat) (u : super) : super := mkSuper (u_bus u) (u_coupling u ++ [p]) (u_lines u) (u_trafos u) (u_art u).
Definition add_art (s : series) (u : super) : super := mkSuper (u_bus u) (u_coupling u) (u_lines u) (u_trafos u) (u_art u ++ [s]).
Definition add_el (k : skind) (x : nat) (u : super) : super :=
  match k with
  | Lines => mkSuper (u_bus u) (u_coupling u) (u_lines u ++ [x]) (u_trafos u) (u_art u)
  | Trafos => mkSuper (u_bus u) (u_coupling u) (u_lines u) (u_trafos u ++ [x]) (u_art u)
  end.
(** AN:277-287: the flags of the buses, lines and transformers already seen. *)
Record flags := mkFlags { f_bus : list bool; f_lines : list bool; f_trafos : list bool }.
Definition f_els (k : skind) (f : flags) : list bool := match k with Lines => f_lines f | Trafos => f_trafos f end.
Definition flag_bus (p : nat) (f : flags) : flags := mkFlags (set_nth p true (f_bus f)) (f_lines f) (f_trafos f).
Definition flag_el (k : skind) (x : nat) (f : flags) : flags :=
  match k with
  | Lines => mkFlags (f_bus f) (set_nth x true (f_lines f)) (f_trafos f)
  | Trafos => mkFlags (f_bus f) (f_lines f) (set_nth x true (f_trafos f))
  end.
(** What the search hands on: the flags, the supernode, and whether there is one. *)
Record search := mkSearch { h_flags : flags; h_super : super; h_on : bool }.
Definition on_super (g : super -> super) (t : search) : search := mkSearch (h_flags t) (g (h_super t)) (h_on t).
Definition on_flags (g : flags -> flags) (t : search) : search := mkSearch (g (h_flags t)) (h_super t) (h_on t).

(** The voltage of a bus that is kept (AN:643-644, 650-653, 775-776, 782-783): at least the level asked for, and
    not that of the inner buses of three winding transformers. *)
Definition high (three vol : Q) (b : bus) : bool := Qle_bool vol (b_kv b) && negb (Qeq_bool (b_kv b) three).

(** AN:579-587 [__check_if_empty_list]: False, or nothing. *)
Definition check_empty (l : list nat) : option bool := match l with [] => None | _ => Some false end.
Definition truthy (o : option bool) : bool := match o with Some b => b | None => false end.
(** AN:793-802: the value left by the loop over the kinds; it starts as True and stays so for the key 'bus'. *)
Definition is_disconnected (b : bus) : bool :=
  let v := check_empty (r_lines (b_pos b)) in
  if truthy v then truthy (check_empty (r_trafos (b_pos b))) else truthy v.

Section Track.
Variables (three vol : Q) (N : net).
(** AN:629-658 [__check_ends_lines]; [track] is the recursive call. *)
Definition check_ends (track : nat -> search -> res search) (k : skind) (x p : nat) (ends : list nat) (t : search) : res search :=
  foldM (fun t e =>
    do b <- at_ (n_bus N) e;
    if e =? p then Ok t
    else
      do f <- at_ (f_bus (h_flags t)) e;
      if negb f then
        do t <- track e t;
        if high three vol b then do s <- at_ (els k N) x; Ok (on_super (add_art s) t) else Ok t
      else if high three vol b && negb (mem e (u_bus (h_super t))) then
        do s <- at_ (els k N) x; Ok (on_super (fun u => add_art s (add_coupling e u)) t)
      else Ok t) ends t.
(** AN:589-627 [__check_positions_branch_objects]. *)
Definition check_positions (track : nat -> search -> res search) (p : nat) (t : search) (k : skind) : res search :=
  match els k N with
  | [] => Ok t
  | _ =>
    do b <- at_ (n_bus N) p;
    foldM (fun t x =>
      do f <- at_ (f_els k (h_flags t)) x;
      if f then Ok t
      else
        do s <- at_ (els k N) x;
        if negb (mem p (s_pos s)) then Err AssertionError
        else
          do t <- check_ends track k x p (s_pos s) t;
          do f <- at_ (f_els k (h_flags t)) x;
          if f then Ok t else Ok (on_super (add_el k x) (on_flags (flag_el k x) t))) (sref k (b_pos b)) t
  end.
(** AN:760-813 [__voltage_track]. *)
Fixpoint track (fuel p : nat) (t : search) : res search :=
  match fuel with
  | O => Err OutOfFuel
  | S fuel =>
    do b <- at_ (n_bus N) p;
    if high three vol b then
      if h_on t then Ok (on_super (add_coupling p) (on_flags (flag_bus p) t)) else Ok (on_flags (flag_bus p) t)
    else
      do f <- at_ (f_bus (h_flags t)) p;
      if f then Ok t
      else
        let t := on_flags (flag_bus p) t in
        if is_disconnected b then Ok t
        else foldM (check_positions (track fuel) p) series_kinds (mkSearch (h_flags t) (add_bus p (h_super t)) true)
  end.
(** AN:288-324: every bus not yet seen starts a search; the second round of the loop finds nothing to do. *)
Definition find_supers : res (flags * list super) :=
  foldM (fun st p =>
    do f <- at_ (f_bus (fst st)) p;
    if f then Ok st
    else do t <- track (S (length (n_bus N))) p (mkSearch (fst st) no_super false);
         Ok (h_flags t, if h_on t then snd st ++ [h_super t] else snd st))
    (seq 0 (length (n_bus N)))
    (mkFlags (map (fun _ => false) (n_bus N)) (map (fun _ => false) (n_lines N)) (map (fun _ => false) (n_trafos N)), []).
End Track.

(** AN:685-758: what is kept of a supernode: the coupling buses, the zone, the demand and the losses of its buses and elements.  The
    additions one by one are one sum. *)
Record worth := mkWorth { w_coupling : list bus; w_buses : list bus; w_lines : list series; w_zone : nat; w_p : Q; w_q : Q; w_ntl : Q }.
Definition loss_of (s : series) : Q := match s_ntl s with Some q => q | None => 0 end.
Definition worth_of (N : net) (u : super) : res worth :=
  do B <- objects (n_bus N) (u_bus u);
  do C <- objects (n_bus N) (u_coupling u);
  do L <- objects (n_lines N) (u_lines u);
  do T <- objects (n_trafos N) (u_trafos u);
  do c <- at_ (u_coupling u) 0;
  do z <- at_ (n_bus N) c;
  Ok (mkWorth C B L (b_zone z) (qsum (map b_p B)) (qsum (map b_q B)) (qsum (map b_ntl B) + (qsum (map loss_of L) + qsum (map loss_of T)))%Q).
(** AN:716-726: the ends of the elements removed. *)
Definition removed_of (N : net) (k : skind) (U : list super) : res (list (nat * nat)) :=
  mapM (fun x => do s <- at_ (els k N) x; do a <- at_ (s_ends s) 0; do b <- at_ (s_ends s) 1; Ok (a, b)) (flat_map (u_els k) U).
(** AN:685-739 [__reduce_network_from_supernodes]: the supernodes are taken out. *)
Definition cut (N : net) (U : list super) : res (net * list worth * list (nat * nat)) :=
  do Ws <- mapM (worth_of N) U;
  let N1 := delete_buses (flat_map u_bus U) N in
  do r1 <- removed_of N1 Lines U;
  do r2 <- removed_of N1 Trafos U;
  Ok (delete_series Trafos (flat_map u_trafos U) (delete_series Lines (flat_map u_lines U) N1), Ws, r1 ++ r2).

(** AN:382-384, 396-398: the first power of ten above all numbers. *)
Fixpoint power_above (fuel top a : nat) : nat :=
  match fuel with O => a | S fuel => if a <=? top then power_above fuel top (a * 10) else a end.
Definition first_free (l : list nat) : nat := power_above (S (list_max l)) (list_max l) 1.

(** AN:234-249: an entry of the list of preserved branches. *)
Record entry := mkEntry { y_old : nat; y_from : nat; y_to : nat; y_new : nat; y_from' : nat; y_to' : nat }.
(** AN:402-434: the state of the loop over the supernodes: buses kept and generators, new buses, new lines, the next
    numbers, the lines that replace interconnections. *)
Record work := mkWork {
  k_bus : list bus; k_conv : list gen; k_res : list gen; k_hydro : list gen;
  k_nodes : list bus; k_new : list series; k_node : nat; k_line : nat; k_inter : list entry }.

(** AN:566-577 [__add_generators_to_artificial_node], one kind: the generators whose bus position is one of those of
    the supernode. *)
Definition moved (no : nat) (u : super) (l : list gen) : list gen := map (fun g => if mem (g_pos g) (u_bus u) then set_g_bus no g else g) l.
Definition moved_nos (no : nat) (u : super) (l : list gen) : list nat := map (fun _ => no) (filter (fun g => mem (g_pos g) (u_bus u)) l).
Definition gen_nos (no : nat) (u : super) (w : work) (r : refs) : refs :=
  mkRefs (r_lines r) (r_trafos r) (moved_nos no u (k_conv w)) (moved_nos no u (k_res w)) (moved_nos no u (k_hydro w)).
Definition move_gens (no : nat) (u : super) (w : work) : work :=
  mkWork (k_bus w) (moved no u (k_conv w)) (moved no u (k_res w)) (moved no u (k_hydro w)) (k_nodes w) (k_new w) (k_node w) (k_line w) (k_inter w).

(** AN:514-564 [__add_artificial_lines], one line per coupling bus, with the data of the element it replaces. *)
Definition new_lines (no line : nat) (u : super) (x : worth) : res (list (series * entry)) :=
  mapM (fun i =>
    do a <- at_ (u_art u) i; do c <- at_ (w_coupling x) i;
    do f <- at_ (s_ends a) 0; do t <- at_ (s_ends a) 1;
    Ok (mkSeries (line + i) 0 [b_no c; no] [] true (s_b a) (s_r a) (s_x a) (s_limit a) (s_ntl a), mkEntry (s_at a) f t 0 (b_no c) no))
    (seq 0 (length (u_coupling u))).
(** AN:407-434, 485-512: a supernode with several coupling buses becomes an artificial bus. *)
Definition add_node (u : super) (x : worth) (w : work) : res work :=
  let no := k_node w in
  do ls <- new_lines no (k_line w) u x;
  let nos := gen_nos no u w (mkRefs (map (fun l => s_no (fst l)) ls) [] [] [] []) in
  let w' := move_gens no u w in
  let b := mkBus no 0 0 (w_p x) (w_q x) (w_ntl x) (w_zone x) nos (mkRefs [] [] [] [] []) in
  Ok (mkWork (k_bus w') (k_conv w') (k_res w') (k_hydro w') (k_nodes w' ++ [b]) (k_new w' ++ map fst ls) (S no)
        (k_line w' + length ls) (k_inter w' ++ map snd ls)).
(** AN:435-459: a supernode with one coupling bus is added to that bus. *)
Definition add_demand (x : worth) (b : bus) : bus :=
  mkBus (b_no b) (b_at b) (b_kv b) (w_p x + b_p b) (w_q x + b_q b) (w_ntl x + b_ntl b) (b_zone b) (b_nos b) (b_pos b).
Definition set_bus (w : work) (B : list bus) : work :=
  mkWork B (k_conv w) (k_res w) (k_hydro w) (k_nodes w) (k_new w) (k_node w) (k_line w) (k_inter w).
Definition merge_node (u : super) (x : worth) (w : work) : res work :=
  foldM (fun w i =>
    do c <- at_ (w_coupling x) 0;
    do b <- at_ (k_bus w) i;
    if b_no b =? b_no c then
      let B := set_nth i (add_demand x b) (k_bus w) in
      do y <- at_ B (b_at b);
      let B := set_nth (b_at b) (set_bus_nos (gen_nos (b_no b) u w (b_nos y)) y) B in
      Ok (move_gens (b_no b) u (set_bus w B))
    else Ok w) (seq 0 (length (k_bus w))) w.
(** AN:406-459. *)
Definition place (w : work) (ux : super * worth) : res work :=
  if 1 <? length (u_coupling (fst ux)) then add_node (fst ux) (snd ux) w else merge_node (fst ux) (snd ux) w.

(** AN:461-477: the entries of the preserved lines and of the lines that replace interconnections. *)
Definition preserved (L : list series) (I : list entry) : res (list entry) :=
  do P <- mapM (fun il => do a <- at_ (s_ends (snd il)) 0; do b <- at_ (s_ends (snd il)) 1; Ok (mkEntry (s_at (snd il)) a b (fst il) a b))
    (combine (seq 0 (length L)) L);
  Ok (P ++ map (fun ie => mkEntry (y_old (snd ie)) (y_from (snd ie)) (y_to (snd ie)) (length L + fst ie) (y_from' (snd ie)) (y_to' (snd ie)))
    (combine (seq 0 (length I)) I)).

(** AN:368-483 [__add_artificial_elements].  [bus0] and [line0] are the first numbers if given. *)
Definition add_artificial (bus0 line0 : option nat) (N : net) (U : list super) (Ws : list worth) : res (net * list entry) :=
  do no <- match bus0, n_bus N with
           | Some n, _ => Ok n
           | None, [] => Err TypeError
           | None, B => Ok (first_free (map b_no B ++ flat_map (fun x => map b_no (w_buses x)) Ws))
           end;
  do line <- match line0, n_lines N with
             | Some n, _ => Ok n
             | None, [] => Err TypeError
             | None, L => Ok (first_free (map s_no L ++ flat_map (fun x => map s_no (w_lines x)) Ws))
             end;
  do w <- foldM place (combine U Ws) (mkWork (n_bus N) (n_conv N) (n_res N) (n_hydro N) [] [] no line []);
  match n_lines N with
  | [] => Err IndexError
  | L => do P <- preserved L (k_inter w);
         Ok (update_all (mkNet (k_bus w ++ k_nodes w) (L ++ k_new w) (n_trafos N) (k_conv w) (k_res w) (k_hydro w)), P)
  end.

(** AN:261-362 [network_reduction_voltage_no_characteristics]: the network, the supernodes, the branches removed and
    preserved. *)
Record reduced := mkReduced { d_net : net; d_supers : list super; d_removed : list (nat * nat); d_kept : list entry }.
Definition reduce (three vol : Q) (bus0 line0 : option nat) (N : net) : res reduced :=
  if negb (existsb (fun b => Qeq_bool vol (b_kv b)) (n_bus N)) then Err AssertionError
  else
    do fu <- find_supers three vol N;
    match snd fu with
    | [] => Ok (mkReduced N [] [] [])
    | U => do c <- cut N U;
           let '(N1, Ws, rem) := c in
           do r <- add_artificial bus0 line0 N1 U Ws;
           Ok (mkReduced (fst r) U rem (snd r))
    end.
