(** What a list of commands to GLPK states, by name of block and position in it, independently of the numbers of rows and
    columns. *)
From Coq Require Import List String Bool Arith ZArith QArith.
From Verif Require Import Base Cases GraphData Glpk.
Import ListNotations.
Open Scope nat_scope.
Open Scope list_scope.

Definition rows_of (l : list cmd) : list (name * nat) := flat_map (fun c => match c with AddRows n k => [(n, k)] | _ => [] end) l.
Definition cols_of (l : list cmd) : list (name * nat) := flat_map (fun c => match c with AddCols n k => [(n, k)] | _ => [] end) l.
Definition place := (name * nat)%type.
Definition place_dec (a b : place) : {a = b} + {a <> b}.
Proof. decide equality; [apply Nat.eq_dec | apply name_dec]. Defined.
(** A coefficient: its row, its column, its value. *)
Definition entries_of (l : list cmd) : list (place * place * Q) :=
  flat_map (fun c => match c with Entry r ro c co q => [((r, ro), (c, co), q)] | _ => [] end) l.

(** The last bound given, the last coefficient of the objective given. *)
Definition col_bound (l : list cmd) (p : place) : bnd :=
  fold_left (fun b c => match c with ColBnd n o b' => if place_dec (n, o) p then b' else b | _ => b end) l (Lower 0).
Definition row_bound (l : list cmd) (p : place) : bnd :=
  fold_left (fun b c => match c with RowBnd n o b' => if place_dec (n, o) p then b' else b | _ => b end) l Free.
Definition cost_of (l : list cmd) (p : place) : Q :=
  fold_left (fun b c => match c with Obj n o b' => if place_dec (n, o) p then b' else b | _ => b end) l 0%Q.
(** The sum of a row over an assignment by name. *)
Definition row_sum (l : list cmd) (s : place -> Q) (p : place) : Q :=
  qsum (map (fun e => if place_dec (fst (fst e)) p then (snd e * s (snd (fst e)))%Q else 0%Q) (entries_of l)).

(** A place of a list of blocks. *)
Definition inside (l : list (name * nat)) (p : place) : Prop := exists k, In (fst p, k) l /\ snd p < k.

Definition states (l : list cmd) (s : place -> Q) : Prop :=
  (forall p, inside (cols_of l) p -> within (col_bound l p) (s p)) /\
  (forall p, inside (rows_of l) p -> within (row_bound l p) (row_sum l s p)).
Definition total_cost (l : list cmd) (s : place -> Q) : Q :=
  qsum (map (fun b => qsum (map (fun o => (cost_of l (fst b, o) * s (fst b, o))%Q) (seq 0 (snd b)))) (cols_of l)).

(** Commands that GLPK takes: blocks have new names and are not empty, and places exist when they are used. *)
Fixpoint fine (R C : list (name * nat)) (l : list cmd) : Prop :=
  match l with
  | [] => True
  | c :: r =>
    match c with
    | AddRows n k => ~ In n (map fst R) /\ 0 < k /\ fine (R ++ [(n, k)]) C r
    | AddCols n k => ~ In n (map fst C) /\ 0 < k /\ fine R (C ++ [(n, k)]) r
    | RowBnd n o _ => inside R (n, o) /\ fine R C r
    | ColBnd n o _ | Obj n o _ => inside C (n, o) /\ fine R C r
    | Entry n o m p _ => inside R (n, o) /\ inside C (m, p) /\ fine R C r
    | Load => False
    end
  end.
Definition final (c : cmd) : bool := match c with Obj _ _ _ | ColBnd _ _ _ | RowBnd _ _ _ => true | _ => false end.
