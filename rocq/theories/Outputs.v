(** Model of the writer of results in workbooks: pyensys/engines/pyeneO.py
    ([pyeneSave], lines 42-65, and [pyene2excel], lines 67-250).  The results,
    what describes them and the subscripts of the model are arguments; a sheet
    is the list of the cells that were written, the last one first.  Saving the
    workbook is not modelled. *)
From Coq Require Import List String Bool Arith ZArith QArith.
From Verif Require Import Base.
Import ListNotations.
Open Scope string_scope.
Open Scope nat_scope.
Open Scope list_scope.

(** One description of a value: [cha[0]], [cha[2]] and [cha[3:]] (the texts
    are decoded).  [cha[1]], a type, is not used; a description has at least
    one value. *)
Record cha := Cha { ch_key : string; ch_val : string; ch_more : list string }.

(** An output that is asked for: its "data device", the first "name" and the
    first "problem". *)
Record out := Out { o_device : option (list string); o_name : string; o_problem : string }.

Inductive cell := Text (s : string) | Num (q : Q).
Definition sheet := list ((nat * nat) * cell).

(** The value a cell has in the end. *)
Fixpoint cell_at (s : sheet) (r c : nat) : option cell :=
  match s with
  | [] => None
  | ((r', c'), v) :: s' => if (r' =? r) && (c' =? c) then Some v else cell_at s' r c
  end.

(** ** Files *)

(** pyeneO.py:44-57, [pyeneSave.initialise]: whether each kind of file is opened. *)
Definition device_is (o : out) (d : string) : bool :=
  match o_device o with Some [x] => String.eqb x d | _ => false end.
Definition open_step (s : bool * bool) (o : out) : bool * bool :=
  let (h5, ex) := s in
  if device_is o "h5" && negb h5 then (true, ex)
  else if device_is o "excel" && negb ex then (h5, true)
  else (h5, ex).
Definition open_files (outs : list out) : bool * bool := fold_left open_step outs (false, false).

(** pyeneO.py:64-65, [close_output_files]: the attribute fileh5 only exists
    when that file was opened. *)
Definition close_files (s : bool * bool) : res unit := if fst s then Ok tt else Err AttributeError.

(** ** Columns *)
Definition table := list (string * nat).
Fixpoint column_of (t : table) (k : string) : option nat :=
  match t with [] => None | (x, n) :: r => if String.eqb x k then Some n else column_of r k end.
Fixpoint put (t : table) (k : string) (n : nat) : table :=
  match t with [] => [(k, n)] | (x, m) :: r => if String.eqb x k then (x, n) :: r else (x, m) :: put r k n end.
Definition col (t : table) (k : string) : res nat := match column_of t k with Some n => Ok n | None => Err KeyError end.

Definition is_place (c : cha) : bool := String.eqb (ch_key c) "pt" || String.eqb (ch_key c) "hour".

(** pyeneO.py:104-107: a group belongs to an output. *)
Definition named (n : string) (g : list cha) : bool := existsb (fun c => String.eqb (ch_key c) "name" && String.eqb (ch_val c) n) g.

(** pyeneO.py:101-113: columns of the first group of the output. *)
Definition place_columns (n : string) (gs : list (list cha)) : table * nat :=
  match find (named n) gs with
  | None => ([], 1)
  | Some g => fold_left (fun s c => if is_place c then (put (fst s) (ch_key c) (snd s), snd s + 1) else s) g ([], 1)
  end.

(** pyeneO.py:115-126: a column for each further ID. *)
Definition id_step (n : string) (s : table * nat) (g : list cha) : table * nat :=
  if named n g then
    match find (fun c => String.eqb (ch_key c) "ID" && match column_of (fst s) (ch_val c) with None => true | Some _ => false end) g with
    | Some c => (put (fst s) (ch_val c) (snd s), snd s + 1)
    | None => s
    end
  else s.
Definition columns (n : string) (gs : list (list cha)) : table := fst (fold_left (id_step n) gs (place_columns n gs)).

(** pyeneO.py:135-138. *)
Definition header (n : string) (t : table) : sheet := rev (((1, 1), Text n) :: map (fun x => ((2, snd x), Text (fst x))) t).

(** ** Rows *)

(** The dictionaries [reference] and [compare_cha] only have the keys "pt"
    and "hour". *)
Definition ref_ := (option string * option string)%type.
Definition no_ref (r : ref_) : bool := match r with (None, None) => true | _ => false end.
Definition set_ref (r : ref_) (k v : string) : ref_ := if String.eqb k "pt" then (Some v, snd r) else (fst r, Some v).
Definition opt_eqb (a b : option string) : bool :=
  match a, b with Some x, Some y => String.eqb x y | None, None => true | _, _ => false end.
Definition ref_eqb (a b : ref_) : bool := opt_eqb (fst a) (fst b) && opt_eqb (snd a) (snd b).

(** pyeneO.py:165-172: the values joined with bars. *)
Definition joined (c : cha) : string := fold_left (fun w x => (w ++ "|" ++ x)%string) (ch_more c) (ch_val c).

Fixpoint list_eqb (a b : list string) : bool :=
  match a, b with [], [] => true | x :: a', y :: b' => String.eqb x y && list_eqb a' b' | _, _ => false end.

(** pyeneO.py:148-158: whether a group that is not used belongs to the output
    and to the position of the tree; a group without a name does. *)
Definition member_ (n : string) (pt : list string) (g : list cha) : bool :=
  forallb (fun c => negb (String.eqb (ch_key c) "name" && negb (String.eqb (ch_val c) n)) &&
                    (negb (String.eqb (ch_key c) "pt") || list_eqb (ch_val c :: ch_more c) pt)) g.

(** The state of one pass: reference, whether the loop ends, sheet. *)
Record pass := Pass { a_ref : ref_; a_end : bool; a_sheet : sheet }.

(** pyeneO.py:159-174: the first value of a row. *)
Definition first_of (t : table) (row : nat) (v : Q) (s : pass * bool) (c : cha) : res (pass * bool) :=
  let (p, u) := s in
  if is_place c then
    do k <- col t (ch_key c);
    Ok (Pass (set_ref (a_ref p) (ch_key c) (joined c)) (a_end p) (((row, k), Text (joined c)) :: a_sheet p), u)
  else if String.eqb (ch_key c) "ID" then
    do k <- col t (ch_val c); Ok (Pass (a_ref p) (a_end p) (((row, k), Num v) :: a_sheet p), true)
  else Ok s.

(** pyeneO.py:176-187: [compare_cha] and [ID]. *)
Definition compare_of (g : list cha) : ref_ * string :=
  fold_left (fun s c => if is_place c then (set_ref (fst s) (ch_key c) (joined c), snd s)
                        else if String.eqb (ch_key c) "ID" then (fst s, ch_val c) else s) g ((None, None), "").

(** pyeneO.py:146-191: one value of a pass; the result is whether it is used. *)
Definition value_step (n : string) (pt : list string) (t : table) (row : nat) (p : pass) (x : Q * bool * list cha) : res (pass * bool) :=
  let '(v, u, g) := x in
  if u then Ok (p, u)
  else if member_ n pt g then
    if no_ref (a_ref p) then foldM (first_of t row v) g (Pass (a_ref p) false (a_sheet p), u)
    else
      let (r, i) := compare_of g in
      if ref_eqb r (a_ref p) then
        do k <- col t i; Ok (Pass (a_ref p) false (((row, k), Num v) :: a_sheet p), true)
      else Ok (p, u)
  else Ok (p, u).

Fixpoint one_pass (n : string) (pt : list string) (t : table) (row : nat) (p : pass) (xs : list (Q * bool * list cha)) : res (pass * list bool) :=
  match xs with
  | [] => Ok (p, [])
  | x :: r =>
    do y <- value_step n pt t row p x;
    do z <- one_pass n pt t row (fst y) r;
    Ok (fst z, snd y :: snd z)
  end.

(** pyeneO.py:140-192: the loop over the rows, with a bound for the passes. *)
Fixpoint rows (fuel : nat) (n : string) (pt : list string) (t : table) (vs : list (Q * list cha)) (used : list bool) (row : nat) (s : sheet) : res (sheet * list bool) :=
  match fuel with
  | O => Err OutOfFuel
  | S f =>
    if forallb (fun b => b) used then Ok (s, used)
    else
      do z <- one_pass n pt t row (Pass (None, None) true s) (map (fun x => (fst (fst x), snd x, snd (fst x))) (combine vs used));
      if a_end (fst z) then Ok (a_sheet (fst z), snd z) else rows f n pt t vs (snd z) (row + 1) (a_sheet (fst z))
  end.

(** pyeneO.py:98-192: the sheet of an output of the DC OPF. *)
Definition opf_sheet (fuel : nat) (n : string) (pt : list string) (vs : list (Q * list cha)) (used : list bool) : res (sheet * list bool) :=
  let t := columns n (map snd vs) in rows fuel n pt t vs used 3 (header n t).

(** pyeneO.py:193-219: columns of an output of the balance tree, with the keys
    of all its groups. *)
Definition tree_columns (n : string) (gs : list (list cha)) : table :=
  fst (fold_left (fun s g => if named n g then
      match find (fun c => String.eqb (ch_key c) "reference" && match column_of (fst s) (ch_val c) with None => true | Some _ => false end) g with
      | Some c => (put (fst s) (ch_val c) (snd s), snd s + 1)
      | None => s
      end else s) gs
    (fold_left (fun s g => if named n g then
      fold_left (fun s c => if negb (String.eqb (ch_key c) "name") && negb (String.eqb (ch_key c) "reference")
                            then (put (fst s) (ch_key c) (snd s), snd s + 1) else s) g s else s) gs ([], 1))).

(** pyeneO.py:193-247: an output of the balance tree.  The loop of line 219
    takes each key apart: a key of two characters gives a letter as the column,
    which openpyxl refuses, and any other key cannot be unpacked.  Without
    columns the groups of the output have a name only: no value is ever used
    and the loop of lines 223-247 does not end, unless there is no such group. *)
Definition tree_sheet (n : string) (vs : list (Q * list cha)) (used : list bool) : res (sheet * list bool) :=
  match tree_columns n (map snd vs) with
  | [] => if existsb (fun x => negb (snd x) && named n (snd (fst x))) (combine vs used) then Err OutOfFuel else Ok ([((1, 1), Text n)], used)
  | (k, _) :: _ => if String.length k =? 2 then Err TypeError else Err ValueError
  end.

(** pyeneO.py:72-247, [pyene2excel.save_results] up to the saving: the sheets.
    [pt] is the position of the subscript "pt" of the model, if there is one;
    names of outputs are taken to be titles that openpyxl accepts. *)
Definition save_step (fuel : nat) (pt : list string) (vs : list (Q * list cha)) (s : list sheet * list bool) (o : out) : res (list sheet * list bool) :=
  if String.eqb (o_problem o) "DC OPF" then
    do _ <- (match pt with [] => Err IndexError | _ :: _ => Ok tt end);
    do z <- opf_sheet fuel (o_name o) pt vs (snd s); Ok (fst s ++ [fst z], snd z)
  else if String.eqb (o_problem o) "BT" then
    do z <- tree_sheet (o_name o) vs (snd s); Ok (fst s ++ [fst z], snd z)
  else Ok s.
Definition save_results (fuel : nat) (outs : list out) (pt : option (list string)) (vs : list (Q * list cha)) : res (list sheet) :=
  match pt with
  | None => Ok []
  | Some p =>
    do z <- foldM (save_step fuel p vs) (filter (fun o => device_is o "excel") outs) ([], repeat false (List.length vs));
    Ok (fst z)
  end.
