(** Model of PSSErawInterface, the reader of PSS/E raw files (pyensys/engines/pyeneI.py:299-539, PI).

    Simplifications.
    - The file is the list of its lines (PI:516); opening it, the early end without a file, the messages and the
      texts of the file that is written at the end (PI:522-530) are left out; the rows that are written are kept.
    - Arithmetic is exact; fields inf and nan are rejected as texts that are no numbers are.
    - The numpy arrays of PI:355-362 that are filled together are one list of rows; [junk] is what np.empty(1) holds.
    - math.sqrt of a number that is not negative is an argument ([root]). *)
From Coq Require Import List String Ascii Bool Arith ZArith QArith.
From Verif Require Import Base Reader MatFile Converter.
Import ListNotations.
Open Scope nat_scope.
Open Scope list_scope.

(** [l.split(sep)] *)
Fixpoint cut_from (sep : ascii) (cur : text) (l : text) : list text :=
  match l with
  | [] => [cur]
  | a :: r => if Ascii.eqb a sep then cur :: cut_from sep [] r else cut_from sep (cur ++ [a]) r
  end.
Definition cut (sep : ascii) (l : text) : list text := cut_from sep [] l.
(** int() and float() leave out the blanks of C around the number (CPython, Py_ISSPACE). *)
Definition is_c_space (a : ascii) : bool := let n := nat_of_ascii a in ((9 <=? n) && (n <=? 13)) || (n =? 32).
Fixpoint skip_blanks (l : text) : text := match l with a :: r => if is_c_space a then skip_blanks r else l | [] => [] end.
Definition strip (l : text) : text := rev (skip_blanks (rev (skip_blanks l))).
Definition field {A} (ws : list A) (i : nat) : res A := match nth_error ws i with Some w => Ok w | None => Err IndexError end.
Definition int_of (w : text) : res Z := read_int (strip w).
Definition float_of (w : text) : res Q := do f <- read_float (strip w); match f with Fin q => Ok q | _ => Err ValueError end.
(** [int(aux[i])] and [float(aux[i])] *)
Definition int_at (ws : list text) (i : nat) : res Z := do w <- field ws i; int_of w.
Definition float_at (ws : list text) (i : nat) : res Q := do w <- field ws i; float_of w.
(** [l[0:3] != '0 /'] *)
Definition ends (l : text) : bool := text_eqb (firstn 3 l) (word "0 /").

(** PI:310-319: None when the version is not supported, after a warning. *)
Definition version (fc : list text) : res (option Z) :=
  do l <- field fc 0; do v <- int_at (cut "," l) 2;
  Ok (if (Z.eqb v 31 || Z.eqb v 33 || Z.eqb v 34)%bool then Some v else None).

(** PI:321-332 *)
Record system := mkSystem { s_base : Q; s_frequency : Q; s_trafo_units : Z; s_other_units : Z }.
Definition parse_system (fc : list text) : res system :=
  do l <- field fc 0; let ws := cut "," l in
  do w5 <- field ws 5; do base <- float_at ws 1; do freq <- float_at (cut "/" w5) 0; do tu <- int_at ws 3; do ou <- int_at ws 4;
  Ok (mkSystem base freq tu ou).

(** PI:334-346.  The arrays of a single node have no dimension, and len() of them fails. *)
Definition node (l : text) : res (Z * Q) := let ws := cut "," l in do n <- int_at ws 0; do v <- float_at ws 2; Ok (n, v).
Fixpoint nodes (ls : list text) : res (list (Z * Q)) :=
  match ls with
  | [] => Err IndexError
  | l :: rest => if ends l then Ok [] else do b <- node l; do bs <- nodes rest; Ok (b :: bs)
  end.
Definition parse_nodes (fc : list text) : res (list (Z * Q)) :=
  do l <- field fc 3; do b <- node l; do bs <- nodes (skipn 4 fc);
  match bs with [] => Err TypeError | _ => Ok (b :: bs) end.

Section Read.
Variable root : Q -> Q.

Record row := mkRow { r_from : Z; r_to : Z; r_r : Q; r_x : Q }.

(** PI:384-391, 433-450: one pair of windings. *)
Definition over (a b : Q) : res Q := if Qeq_bool b 0 then Err ZeroDivisionError else Ok (a / b)%Q.
Definition sqrt_of (q : Q) : res Q := if Qle_bool 0 q then Ok (root q) else Err ValueError.
Definition to_base (base : Q) (cz : Z) (r x s : Q) : res (Q * Q) :=
  if Z.eqb cz 2 then
    if Qeq_bool s base then Ok (r, x) else do f <- over base s; Ok (r * f, x * f)%Q
  else if Z.eqb cz 3 then do r' <- over r (base * inject_Z 1000000); do x' <- sqrt_of (x * x - r' * r'); Ok (r', x')
  else Ok (r, x).

(** PI:366-391: the lines of a transformer of two windings; [l0] is the first. *)
Definition two_winding (base : Q) (l0 : text) (rest : list text) : res row :=
  let w := cut "," l0 in
  do bus1 <- int_at w 0; do bus2 <- int_at w 1; do cw <- int_at w 4; do cz <- int_at w 5; do cm <- int_at w 6;
  do l1 <- field rest 0; let w := cut "," l1 in
  do r <- float_at w 0; do x <- float_at w 1; do s <- float_at w 2;
  do l2 <- field rest 1; do v1 <- float_at (cut "," l2) 1;
  do l3 <- field rest 2; do v2 <- float_at (cut "," l3) 1;
  do rx <- to_base base cz r x s;
  Ok (mkRow bus1 bus2 (fst rx) (snd rx)).

(** PI:453-467 *)
Definition least3 (a b c : Q) : Q := let m := if Qle_bool a b then a else b in if Qle_bool m c then m else c.
Definition capped (m x : Q) : res Q := do f <- over x m; Ok (if Qle_bool f 100 then x else 100 * m)%Q.
Definition half (a b c : Q) : Q := ((1 # 2) * (a + b - c))%Q.
(** PI:404-467: three windings; [k] is their number, from 1. *)
Definition three_winding (base : Q) (k : nat) (l0 : text) (rest : list text) : res (list row) :=
  let w := cut "," l0 in
  do bus1 <- int_at w 0; do bus2 <- int_at w 1; do bus3 <- int_at w 2; do cw <- int_at w 4; do cz <- int_at w 5; do cm <- int_at w 6;
  do l1 <- field rest 0; let w := cut "," l1 in
  do r12 <- float_at w 0; do x12 <- float_at w 1; do s12 <- float_at w 2;
  do r23 <- float_at w 3; do x23 <- float_at w 4; do s23 <- float_at w 5;
  do r31 <- float_at w 6; do x31 <- float_at w 7; do s31 <- float_at w 8;
  do l2 <- field rest 1; do v1 <- float_at (cut "," l2) 1;
  do l3 <- field rest 2; do v2 <- float_at (cut "," l3) 1;
  do l4 <- field rest 3; do v3 <- float_at (cut "," l4) 1;
  do z12 <- to_base base cz r12 x12 s12; do z23 <- to_base base cz r23 x23 s23; do z31 <- to_base base cz r31 x31 s31;
  let '(r12, x12) := z12 in let '(r23, x23) := z23 in let '(r31, x31) := z31 in
  let m := least3 x12 x23 x31 in
  do x12 <- capped m x12; do x23 <- capped m x23; do x31 <- capped m x31;
  let star := (1000000 + Z.of_nat k)%Z in
  Ok [mkRow bus1 star (half r12 r31 r23) (half x12 x31 x23); mkRow bus2 star (half r12 r23 r31) (half x12 x23 x31);
      mkRow bus3 star (half r31 r23 r12) (half x31 x23 x12)].

(** PI:392-403, 468-503: the first rows replace what np.empty(1) holds. *)
Record trafos := mkTrafos { t_two : nat; t_three : nat; t_conv : list row; t_star : list row }.
Definition store (k : nat) (new old : list row) : list row := if Nat.eqb k 1 then new ++ skipn 1 old else old ++ new.
(** PI:363-503: the loop from the line [aux1] on. *)
Fixpoint read_trafos (base : Q) (ls : list text) (t : trafos) : res trafos :=
  match ls with
  | [] => Err IndexError
  | l0 :: rest =>
    if ends l0 then Ok t
    else
      do bus3 <- int_at (cut "," l0) 2;
      if Z.eqb bus3 0 then
        do r <- two_winding base l0 rest;
        match rest with
        | _ :: _ :: _ :: rest' => read_trafos base rest' (mkTrafos (S (t_two t)) (t_three t) (store (S (t_two t)) [r] (t_conv t)) (t_star t))
        | _ => Err IndexError
        end
      else
        do rs <- three_winding base (S (t_three t)) l0 rest;
        match rest with
        | _ :: _ :: _ :: _ :: rest' => read_trafos base rest' (mkTrafos (t_two t) (S (t_three t)) (t_conv t) (store (S (t_three t)) rs (t_star t)))
        | _ => Err IndexError
        end
  end.
(** PI:352: the first line of a transformer. *)
Definition first_trafo : nat := Z.to_nat 14553.
Definition parse_trafos (junk : row * row) (base : Q) (fc : list text) : res trafos :=
  read_trafos base (skipn first_trafo fc) (mkTrafos 0 0 [fst junk] [snd junk]).

(** PI:504-530: what has been read, and the rows that are written. *)
Record raw := mkRaw { w_version : option Z; w_system : system; w_nodes : list (Z * Q); w_conv : list row; w_star : list row }.
Definition written_rows (w : raw) : list row := w_conv w ++ w_star w.
Definition read_raw (junk : row * row) (fc : list text) : res raw :=
  do v <- version fc; do s <- parse_system fc; do ns <- parse_nodes fc; do t <- parse_trafos junk (s_base s) fc;
  Ok (mkRaw v s ns (t_conv t) (t_star t)).
End Read.
