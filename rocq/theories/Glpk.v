(** Model of the wrapper of GLPK, pyensys/engines/_glpk.pyx (GL), as the models of pyensys/engines/pyene_Models.py use it.
    The methods of those models emit commands to the wrapper; the solver is not modelled: an answer is any assignment of the
    columns that meets the bounds of columns and rows.

    Simplifications.
    - Numbers are rational.  Rows and columns are counted from 0, in GLPK from 1.
    - The dictionaries row_ids and col_ids hold the blocks of rows and columns in order, with their sizes; the first number
      of a block is the sum of the sizes before it.  The arrays of positions of the models hold for every block its name and this
      number; here the name alone is used.
    - A name is a text and the numbers written after it with commas between them.
    - The count of coefficients (self.ne) is the length of the lists of coefficients.
    - Where GLPK prints an error and aborts the process, the result is RuntimeError. *)
From Coq Require Import List String Bool Arith ZArith QArith.
From Verif Require Import Base Cases Network GraphData.
Import ListNotations.
Open Scope nat_scope.
Open Scope list_scope.

Definition name := (string * list nat)%type.
Definition name_dec (a b : name) : {a = b} + {a <> b}.
Proof. decide equality; [apply (list_eq_dec Nat.eq_dec) | apply string_dec]. Defined.

(** GL:6-12: types of bounds, as used. *)
Inductive bnd := Free | Lower (l : Q) | Bounded (l u : Q) | Fixed (q : Q).

(** What the methods of the models do: GL:72-78, 80-89, 135-139, 141-145, the appending of a coefficient to ia, ja and ar,
    GL:115-133, GL:147-151. *)
Inductive cmd :=
| AddRows (n : name) (k : nat) | AddCols (n : name) (k : nat)
| RowBnd (n : name) (o : nat) (b : bnd) | ColBnd (n : name) (o : nat) (b : bnd)
| Entry (r : name) (ro : nat) (c : name) (co : nat) (q : Q)
| Load | Obj (n : name) (o : nat) (q : Q).

(** [so_ent] are the coefficients gathered in ia, ja and ar, [so_mat] those given to GLPK. *)
Record solver := mkSolver {
  so_rows : list (name * nat); so_cols : list (name * nat); so_rb : list bnd; so_cb : list bnd; so_obj : list Q;
  so_ent : list (nat * nat * Q); so_mat : list (nat * nat * Q) }.
(** GL:42-46. *)
Definition empty : solver := mkSolver [] [] [] [] [] [] [].

(** row_ids[name], col_ids[name] *)
Fixpoint start (l : list (name * nat)) (n : name) : res nat :=
  match l with
  | [] => Err KeyError
  | (m, k) :: r => if name_dec m n then Ok 0 else do i <- start r n; Ok (k + i)
  end.
Definition known (l : list (name * nat)) (n : name) : bool := match start l n with Ok _ => true | Err _ => false end.
(** GLPK refuses numbers of rows or columns that do not exist. *)
Definition change {A} (l : list A) (i : nat) (a : A) : res (list A) := if i <? List.length l then Ok (set_nth i a l) else Err RuntimeError.

(** glp_load_matrix: numbers of rows and columns that exist, and no two coefficients at the same place. *)
Fixpoint no_repeat (l : list (nat * nat)) : bool :=
  match l with
  | [] => true
  | a :: r => negb (existsb (fun b => (fst a =? fst b) && (snd a =? snd b)) r) && no_repeat r
  end.
Definition loads (rows cols : nat) (l : list (nat * nat * Q)) : bool :=
  forallb (fun e => (fst (fst e) <? rows) && (snd (fst e) <? cols)) l && no_repeat (map fst l).

Definition step (S : solver) (c : cmd) : res solver :=
  let 'mkSolver rows cols rb cb obj ent mat := S in
  match c with
  | AddRows n k =>
      if known rows n then Err KeyError else if k =? 0 then Err RuntimeError
      else Ok (mkSolver (rows ++ [(n, k)]) cols (rb ++ repeat Free k) cb obj ent mat)
  | AddCols n k =>
      if known cols n then Err KeyError else if k =? 0 then Err RuntimeError
      else Ok (mkSolver rows (cols ++ [(n, k)]) rb (cb ++ repeat (Lower 0) k) (obj ++ repeat 0%Q k) ent mat)
  | RowBnd n o b => do i <- start rows n; do rb <- change rb (i + o) b; Ok (mkSolver rows cols rb cb obj ent mat)
  | ColBnd n o b => do i <- start cols n; do cb <- change cb (i + o) b; Ok (mkSolver rows cols rb cb obj ent mat)
  | Entry r ro c co q =>
      do i <- start rows r; do j <- start cols c; Ok (mkSolver rows cols rb cb obj (ent ++ [(i + ro, j + co, q)]) mat)
  | Load => if loads (List.length rb) (List.length cb) ent then Ok (mkSolver rows cols rb cb obj ent ent) else Err RuntimeError
  | Obj n o q => do i <- start cols n; do obj <- change obj (i + o) q; Ok (mkSolver rows cols rb cb obj ent mat)
  end.
Definition run (l : list cmd) : res solver := foldM step l empty.

(** ** Answers *)

Definition within (b : bnd) (q : Q) : Prop :=
  match b with Free => True | Lower l => l <= q | Bounded l u => l <= q <= u | Fixed a => q == a end%Q.
(** The value of row [r]. *)
Definition row_value (S : solver) (x : nat -> Q) (r : nat) : Q :=
  qsum (map (fun e => (snd e * x (snd (fst e)))%Q) (filter (fun e => fst (fst e) =? r) (so_mat S))).
Definition feasible (S : solver) (x : nat -> Q) : Prop :=
  (forall c, c < List.length (so_cb S) -> within (nth c (so_cb S) Free) (x c)) /\
  (forall r, r < List.length (so_rb S) -> within (nth r (so_rb S) Free) (row_value S x r)).
(** GL:164-166. *)
Definition objective (S : solver) (x : nat -> Q) : Q := qsum (map (fun c => (nth c (so_obj S) 0 * x c)%Q) (seq 0 (List.length (so_obj S)))).
(** glp_simplex returns an error code if a row or column with two bounds has a lower bound that is not below the upper; the models
    then stop on an assertion. *)
Definition proper (b : bnd) : bool := match b with Bounded l u => negb (Qle_bool u l) | _ => true end.
Definition solvable (S : solver) : bool := forallb proper (so_rb S) && forallb proper (so_cb S).
Definition simplex (S : solver) : res unit := if solvable S then Ok tt else Err AssertionError.
(** GL:159-162. *)
Definition primal (S : solver) (x : nat -> Q) (n : name) (o : nat) : res Q := do i <- start (so_cols S) n; Ok (x (i + o)).
