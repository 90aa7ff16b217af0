(** Model of the temporal energy tree, pyensys/engines/pyeneE.py (EN). *)
From Coq Require Import List Bool Arith ZArith QArith.
From Verif Require Import Base Cases.
Import ListNotations.
Open Scope nat_scope.
Open Scope list_scope.

(** Writing an entry of a numpy array. *)
Definition aset {A} (l : list A) (i : nat) (v : A) : res (list A) := if i <? List.length l then Ok (put l i v) else Err IndexError.
Definition aset2 (m : list (list Q)) (i j : nat) (v : Q) : res (list (list Q)) :=
  do row <- at_ m i; do row <- aset row j v; aset m i row.

(** The loops  for x in range(n)  with an index. *)
Definition for_range {S} (n : nat) (f : S -> nat -> res S) (s : S) : res S := foldM f (seq 0 n) s.

(** ** Data *)

(** Inputs and outputs are arrays with one or two dimensions (EN:263-267, 332-333). *)
Inductive array := Vec (l : list Q) | Mat (m : list (list Q)).

(** A time level of the data (EN:31-56).  Simplifications: the levels have the keys "0", "1", ... in order; matrices
    have a row and are rectangular. *)
Record level := mkLevel { lv_names : nat; lv_weights : list Q; lv_inputs : array; lv_outputs : array; lv_unc : bool }.

(** EN:276-283. *)
Record sizes := mkSizes { sz_periods : nat; sz_len : list nat; sz_sum : nat; sz_scenarios : nat; sz_vectors : nat; sz_nodes : nat }.

Definition rows (a : array) : nat := match a with Vec l => List.length l | Mat m => List.length m end.

(** EN:249-283. *)
Definition measure (data : list level) : res sizes :=
  let lens := map lv_names data in
  match data with
  | [] => Err KeyError
  | l0 :: _ =>
      let nodes := fold_left (fun st n => (fst st * n, snd st + fst st * n)) lens (1, 1) in
      Ok (mkSizes (List.length data) lens (fold_left Nat.add lens 1) (fold_left Nat.mul lens 1) (rows (lv_inputs l0)) (snd nodes))
  end.

(** An entry of an array with one dimension, or of one with two; setting an element to a row is an error. *)
Definition entry1 (a : array) (i : nat) : res Q := match a with Vec l => at_ l i | Mat _ => Err ValueError end.
Definition entry2 (a : array) (v i : nat) : res Q := match a with Mat m => do r <- at_ m v; at_ r i | Vec _ => Err IndexError end.
Definition is_vec (a : array) : bool := match a with Vec _ => true | Mat _ => false end.

(** EN:338-355: one interval [x2] of a level.  State: inputs and outputs by interval and vector, weights. *)
Definition process_interval (vectors : nat) (l : level) (acu : nat) (st : list (list Q) * list (list Q) * list Q) (x2 : nat)
    : res (list (list Q) * list (list Q) * list Q) :=
  let '(win, wout, wght) := st in
  do w <- at_ (lv_weights l) x2;
  do wght <- aset wght (acu + x2) w;
  let read := fun xv a => if vectors =? 1 then (if is_vec (lv_inputs l) then entry1 a x2 else entry2 a 0 x2)
                          else (if is_vec (lv_inputs l) then entry1 a xv else entry2 a xv x2) in
  do st <- for_range vectors (fun (s : list (list Q) * list (list Q)) xv =>
             do i <- read xv (lv_inputs l); do win <- aset2 (fst s) (acu + x2) xv i;
             do o <- read xv (lv_outputs l); do wout <- aset2 (snd s) (acu + x2) xv o; Ok (win, wout)) (win, wout);
  Ok (fst st, snd st, wght).

(** EN:320-358.  Simplification: a level has a number of intervals with weights; the flags of uncertainty are read apart. *)
Definition process (sz : sizes) (data : list level) : res (list (list Q) * list (list Q) * list Q) :=
  let zeros := repeat (repeat 0%Q (sz_vectors sz)) (sz_sum sz) in
  do r <- foldM (fun (st : nat * (list (list Q) * list (list Q) * list Q)) l =>
            do s <- for_range (List.length (lv_weights l)) (process_interval (sz_vectors sz) l (fst st)) (snd st);
            Ok (fst st + List.length (lv_weights l), s))
          data (1, (zeros, zeros, repeat 1%Q (sz_sum sz)));
  Ok (snd r).

(** ** Connections *)

(** EN:117-126: the branches of a level.  State: nodes after, scenarios, last node linked, next scenario, position. *)
Definition connect_branch (scen aux1 len : nat) (st : list (nat * nat) * list (nat * nat) * nat * nat * nat) (x3 : nat)
    : res (list (nat * nat) * list (nat * nat) * nat * nat * nat) :=
  let '(after, sc, aux2, aux3, x1) := st in
  let x1 := x1 + 1 in
  do after <- aset after x1 (aux2 + 1, aux2 + len);
  do sc <- aset sc x1 (aux3, aux3 + scen / aux1 - 1);
  Ok (after, sc, aux2 + len, aux3 + scen / aux1, x1).

(** EN:111-126.  State: beginning of the levels, nodes after, scenarios, branches, last node linked, position.
    Simplification: the quotients of scenarios and branches are whole, so the division is that of naturals. *)
Definition connect_level (sz : sizes) (st : list nat * list (nat * nat) * list (nat * nat) * nat * nat * nat) (x2 : nat)
    : res (list nat * list (nat * nat) * list (nat * nat) * nat * nat * nat) :=
  let '(lvl, after, sc, aux1, aux2, x1) := st in
  do l <- at_ lvl x2; do lvl <- aset lvl (x2 + 1) (l + aux1);
  do n <- at_ (sz_len sz) x2;
  let aux1 := aux1 * n in
  do n' <- at_ (sz_len sz) (x2 + 1);
  do st <- for_range aux1 (connect_branch (sz_scenarios sz) aux1 n') (after, sc, aux2, 0, x1);
  let '(after, sc, aux2, _, x1) := st in
  Ok (lvl, after, sc, aux1, aux2, x1).

(** EN:142-148: the last level has no nodes after. *)
Definition connect_leaf (scen aux1 : nat) (st : list (nat * nat) * nat * nat) (x3 : nat) : res (list (nat * nat) * nat * nat) :=
  let '(sc, aux3, x1) := st in
  do sc <- aset sc (x1 + 1) (aux3, aux3 + scen / aux1 - 1);
  Ok (sc, aux3 + scen / aux1, x1 + 1).

(** EN:95-148: nodes after, scenarios, beginning of each level. *)
Definition connect_tree (sz : sizes) : res (list (nat * nat) * list (nat * nat) * list nat) :=
  let zeros := repeat (0, 0) (sz_nodes sz) in
  do n0 <- at_ (sz_len sz) 0;
  do after <- aset zeros 0 (1, n0);
  do sc <- aset zeros 0 (0, sz_scenarios sz - 1);
  do st <- for_range (sz_periods sz - 1) (connect_level sz) (repeat 1 (sz_periods sz + 1), after, sc, 1, n0, 0);
  let '(lvl, after, sc, aux1, aux2, x1) := st in
  do l <- at_ lvl (sz_periods sz - 1);
  do lvl <- aset lvl (sz_periods sz) (l + aux1);
  do n <- at_ (sz_len sz) (sz_periods sz - 1);
  do st <- for_range (aux1 * n) (connect_leaf (sz_scenarios sz) (aux1 * n)) (sc, 0, x1);
  Ok (after, fst (fst st), lvl).

(** EN:132-139: first and last node of each level. *)
Definition node_time (sz : sizes) : res (list (nat * nat)) :=
  do st <- for_range (sz_periods sz) (fun (st : list (nat * nat) * nat * nat) xt =>
      let '(nt, xacu1, xacu2) := st in
      do n <- at_ (sz_len sz) xt;
      let xacu2 := xacu2 * n in
      do nt <- aset nt (xt + 1) (xacu1 + 1, xacu1 + xacu2);
      Ok (nt, xacu1 + xacu2, xacu2)) (repeat (0, 0) (sz_periods sz + 1), 0, 1);
  Ok (fst (fst st)).

(** EN:150-157: the node before each node.  [internal] nodes have nodes after. *)
Definition node_before (nodes internal : nat) (after : list (nat * nat)) : res (list nat) :=
  for_range internal (fun before x1 =>
      do a <- at_ after x1;
      foldM (fun before x2 => aset before x2 x1) (seq (fst a) (snd a + 1 - fst a)) before) (repeat 0 nodes).

(** EN:469-494.  The four columns of the array are two lists of pairs: node before moving forward [fwd] and
    backward [bwd].  Fuel: the depth of the tree. *)
Fixpoint mapping (fuel : nat) (xin xlvl : nat) (old : nat * nat) (arr : list (nat * nat) * list (nat * nat)) (dta : list (nat * nat))
    (unc : list bool) (s : nat) : res ((list (nat * nat) * list (nat * nat)) * (nat * nat)) :=
  match fuel with
  | O => Err OutOfFuel
  | S f =>
      do d <- at_ dta (xin - 1);
      do st <- foldM (fun (st : (list (nat * nat) * list (nat * nat)) * (nat * nat) * (nat * nat)) x1 =>
          let '(arr, old, _) := st in
          do fwd <- aset (fst arr) x1 old;
          do r <- (if x1 + 1 <=? s then mapping f (x1 + 1) (xlvl + 1) (x1, 0) (fwd, snd arr) dta unc s
                   else Ok ((fwd, snd arr), (x1, 0)));
          let '((fwd, bwd), new) := r in
          do bwd <- aset bwd x1 new;
          do u <- at_ unc (xlvl - 1);
          Ok ((fwd, bwd), if u then old else (x1, 1), (x1, 1)))
        (seq (fst d) (snd d + 1 - fst d)) (arr, old, old);
      let '(arr, _, new) := st in
      Ok (arr, new)
  end.

(** EN:172-179: the nodes that face uncertainty. *)
Definition mark_uncertain (sz : sizes) (lvl : list nat) (unc : list bool) : res (list bool) :=
  for_range (sz_periods sz) (fun marks x1 =>
      do u <- at_ unc x1;
      if u then
        do a <- at_ lvl x1; do b <- at_ lvl (x1 + 1);
        foldM (fun marks x2 => aset marks x2 true) (seq (a - 1) (b - 1 - (a - 1))) marks
      else Ok marks) (repeat false (sz_nodes sz)).

(** EN:181-192: the interval of the data for each node. *)
Definition in_out (sz : sizes) : res (list nat) :=
  do st <- for_range (sz_periods sz) (fun (st : list nat * nat * nat * nat) x1 =>
      let '(wio, xacu1, xacu2, xacu3) := st in
      do n <- at_ (sz_len sz) x1;
      do r <- for_range xacu1 (fun (r : list nat * nat) _ =>
                for_range n (fun (r : list nat * nat) x3 => do w <- aset (fst r) (snd r + 1) (xacu3 + x3); Ok (w, snd r + 1)) r) (wio, xacu2);
      Ok (fst r, xacu1 * n, snd r, xacu3 + n)) (repeat 0 (sz_nodes sz), 1, 0, 1);
  let '(wio, _, _, _) := st in Ok wio.

(** EN:195-202; [tr_parent] is LL_TimeNodeBefore (EN:151), which is not stored. *)
Record tree := mkTree { tr_fwd : list (nat * nat); tr_bwd : list (nat * nat); tr_after : list (nat * nat); tr_scenarios : list (nat * nat);
  tr_unc : list bool; tr_inout : list nat; tr_time : list (nat * nat); tr_parent : list nat }.

(** EN:93-202. *)
Definition connect (sz : sizes) (unc : list bool) : res tree :=
  do t <- connect_tree sz;
  let '(after, sc, lvl) := t in
  do nt <- node_time sz;
  do l <- at_ lvl (sz_periods sz);
  do before <- node_before (sz_nodes sz) (l - 1) after;
  do m <- mapping (sz_periods sz) 1 1 (0, 0) (repeat (0, 0) (sz_nodes sz), repeat (0, 0) (sz_nodes sz)) after unc (l - 1);
  do marks <- mark_uncertain sz lvl unc;
  do wio <- in_out sz;
  Ok (mkTree (fst (fst m)) (snd (fst m)) after sc marks wio nt before).

(** ** Linked lists *)

(** EN:240-247. *)
Record links := mkLinks { lk_bal : nat; lk_agg : nat; lk_unc : nat; lk_ll1 : list (nat * nat); lk_ll2 : list (nat * (nat * nat)); lk_ll3 : list (nat * (nat * nat)) }.

Definition count_true (l : list bool) : nat := List.length (filter (fun b => b) l).

(** EN:204-247.  Simplification: the numbers of rows are natural numbers (NosLL3 is negative only if a level with uncertainty has
    no nodes). *)
Definition link (sz : sizes) (t : tree) (unc : list bool) : res links :=
  do ll1 <- foldM (fun ll1 x1 => do b <- at_ (tr_fwd t) x1; aset ll1 x1 b) (seq 1 (sz_nodes sz - 1)) (repeat (0, 0) (sz_nodes sz));
  let none := count_true unc =? 0 in
  let nos3 := if none then 0 else count_true (tr_unc t) - 1 in
  let nos2 := if none then sz_nodes sz - 1 else sz_nodes sz - nos3 - 2 in
  let zero := (0, (0, 0)) in
  do st <- foldM (fun (st : list (nat * (nat * nat)) * list (nat * (nat * nat)) * nat * nat) x1 =>
      let '(ll2, ll3, x2, x3) := st in
      do u <- at_ (tr_unc t) x1;
      if (u : bool) then
        do a <- at_ (tr_after t) x1;
        do ll3 <- aset ll3 x3 (x1, (fst a, snd a - fst a));
        Ok (ll2, ll3, x2, x3 + 1)
      else
        do b <- at_ (tr_bwd t) x1;
        do ll2 <- aset ll2 (x2 + 1) (x1, b);
        Ok (ll2, ll3, x2 + 1, x3))
    (seq 1 (sz_nodes sz - 1)) (repeat zero (nos2 + 1), repeat zero (if none then 0 else nos3 + 1), 0, 0);
  let '(ll2, ll3, _, _) := st in
  Ok (mkLinks (sz_nodes sz - 1) nos2 nos3 ll1 ll2 ll3).

(** ** Parameters *)

(** EN:299-318: inputs, outputs and weight of each node. *)
Definition parameters (sz : sizes) (t : tree) (p : list (list Q) * list (list Q) * list Q) : res (list (list Q) * list (list Q) * list Q) :=
  let '(win, wout, wght) := p in
  do r <- mapM (fun x1 =>
      do i <- at_ (tr_inout t) x1;
      do w <- at_ wght i;
      do iv <- mapM (fun xv => do row <- at_ win i; at_ row xv) (seq 0 (sz_vectors sz));
      do ov <- mapM (fun xv => do row <- at_ wout i; at_ row xv) (seq 0 (sz_vectors sz));
      Ok (iv, ov, w)) (seq 0 (sz_nodes sz));
  Ok (map (fun x => fst (fst x)) r, map (fun x => snd (fst x)) r, map snd r).

(** EN:435-466 without file and without a fixed number of vectors (EN:438-439, 445-456). *)
Record energy := mkEnergy { en_sizes : sizes; en_tree : tree; en_links : links; en_in : list (list Q); en_out : list (list Q); en_weight : list Q }.
Definition initialise (data : list level) : res energy :=
  do sz <- measure data;
  do p <- process sz data;
  let unc := map lv_unc data in
  do t <- connect sz unc;
  do f <- parameters sz t p;
  do lk <- link sz t unc;
  Ok (mkEnergy sz t lk (fst (fst f)) (snd (fst f)) (snd f)).

(** ** Constraints *)

(** State of charge by node and side (0: begin, 1: end), for one vector. *)
Definition soc := nat -> nat -> Q.

Section Constraints.
Variable weight : nat -> Q.
Variable input output : nat -> Q.

(** EN:431-433. *)
Definition zero_rule (v : soc) (x1 : nat) : Prop := (v 0%nat x1 == 0)%Q.
(** EN:413-417. *)
Definition balance_rule (lk : links) (v : soc) (x : nat) : Prop :=
  let f := nth x (lk_ll1 lk) (0, 0) in (v x 0%nat == v (fst f) (snd f) + input x - output x)%Q.
(** EN:404-411. *)
Definition aggregate_rule (lk : links) (v : soc) (i : nat) : Prop :=
  let r := nth i (lk_ll2 lk) (0, (0, 0)) in let x := fst r in let f := nth x (lk_ll1 lk) (0, 0) in
  (v x 1%nat == v (fst (snd r)) (snd (snd r)) * weight x + v (fst f) (snd f) * (1 - weight x))%Q.
(** EN:419-429. *)
Definition stochastic_rule (lk : links) (v : soc) (i : nat) : Prop :=
  let r := nth i (lk_ll3 lk) (0, (0, 0)) in let x := fst r in let f := nth x (lk_ll1 lk) (0, 0) in
  (v x 1%nat == v (fst f) (snd f) * (1 - weight x) +
     weight x * (v x 0%nat * - inject_Z (Z.of_nat (snd (snd r))) + fold_right Qplus 0 (map (fun x1 => v (fst (snd r) + x1)%nat 1%nat) (seq 0 (snd (snd r) + 1)%nat))))%Q.

(** EN:360-375, 386-395, 399: the constraints of a vector, and the domain of the variables. *)
Definition feasible (lk : links) (v : soc) : Prop :=
  (forall x1, x1 < 2 -> zero_rule v x1) /\
  (forall x, x < lk_bal lk + 1 -> balance_rule lk v x) /\
  (forall i, i < lk_agg lk + 1 -> aggregate_rule lk v i) /\
  (lk_unc lk <> 0 -> forall i, i < lk_unc lk + 1 -> stochastic_rule lk v i) /\
  (forall x s, x < lk_bal lk + 1 -> s < 2 -> (0 <= v x s)%Q).
End Constraints.
