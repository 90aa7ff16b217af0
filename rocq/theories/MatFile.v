(** Model of pyensys/readers/JSONReader.py::_build_mat_file (JR:15-113), the reader of MATPOWER
    case files. *)
From Coq Require Import List String Ascii Bool Arith ZArith QArith.
From Verif Require Import Base Container Reader.
Import ListNotations.
Open Scope nat_scope.
Open Scope list_scope.

Definition text := list ascii.

(** ASCII whitespace of str.split.  Simplification: texts are ASCII. *)
Definition is_space (a : ascii) : bool :=
  let n := nat_of_ascii a in ((9 <=? n) && (n <=? 13)) || ((28 <=? n) && (n <=? 32)).

(** str.split(): the maximal runs of characters other than whitespace; [cur] is the word begun. *)
Fixpoint split_from (cur : text) (l : text) : list text :=
  match l with
  | [] => match cur with [] => [] | _ => [cur] end
  | a :: r =>
    if is_space a then match cur with [] => split_from [] r | _ => cur :: split_from [] r end
    else split_from (cur ++ [a]) r
  end.
Definition split (l : text) : list text := split_from [] l.

(** JR:32-36: the part of the first word before the first "=", and whether there is one. *)
Fixpoint before_equal (w : text) : text * bool :=
  match w with
  | [] => ([], false)
  | a :: r => if Ascii.eqb a "=" then ([], true) else let (t, e) := before_equal r in (a :: t, e)
  end.

(** JR:20-21: the elements and their numbers of components. *)
Definition elements : list (string * nat) :=
  [("version", 1); ("baseMVA", 1); ("bus", 13); ("gen", 21); ("branch", 13); ("gencost", 6)]%string.

(** JR:39-43: text comparison with "mpc." followed by the name. *)
Definition is_element (t : text) (e : string * nat) : bool :=
  if list_eq_dec Ascii.ascii_dec t (list_ascii_of_string ("mpc." ++ fst e)) then true else false.
Definition find_element (t : text) : option (string * nat) := find (is_element t) elements.

(** The entries of Vars['mpc']. *)
Inductive mat_value := Scalar (q : Q) | Table (rows : list (list Q)).

(** JR:58-66: the first number among the words; [None]: xstring reaches NoStrings. *)
Fixpoint first_number (ws : list text) : res (option Q) :=
  match ws with
  | [] => Ok None
  | w :: r => do d <- get_digit w; match d with Some q => Ok (Some q) | None => first_number r end
  end.

(** JR:75-78: the words from position xstring on, once a number has been found. *)
Fixpoint skip_number (ws : list text) : res (list text) :=
  match ws with
  | [] => Err IndexError
  | w :: r => do d <- get_digit w; match d with Some _ => Ok r | None => skip_number r end
  end.

(** JR:86-98: [k] numbers from the words. *)
Fixpoint read_row (k : nat) (ws : list text) : res (list Q) :=
  match k with
  | 0 => Ok []
  | S k' =>
    match ws with
    | [] => Err IndexError
    | w :: r => do d <- get_digit w;
                match d with
                | None => Err PlainException
                | Some q => do qs <- read_row k' r; Ok (q :: qs)
                end
    end
  end.

(** JR:84-105.  [n] is NoStrings, [ws] the words from xstring on and [rest] the lines after the
    current one.  Result: the rows, and the lines after the one that ends the table (which
    JR:109 skips). *)
Fixpoint read_rows (k n : nat) (ws : list text) (rest : list text) : res (list (list Q) * list text) :=
  if k <=? n then
    do row <- read_row k ws;
    match rest with
    | [] => Err IndexError
    | l :: rest' =>
      let ws' := split l in
      do rr <- read_rows k (List.length ws') ws' rest';
      Ok (row :: fst rr, snd rr)
    end
  else Ok ([], rest).

(** JR:72-107: the table with [k] columns whose header line has the words [ws]. *)
Definition read_table (k : nat) (ws : list text) (rest : list text) : res (list (list Q) * list text) :=
  if k <? List.length ws then do ws' <- skip_number ws; read_rows k (List.length ws) ws' rest
  else match rest with
       | [] => Err IndexError
       | l :: rest' => let ws' := split l in read_rows k (List.length ws') ws' rest'
       end.

(** JR:28-109: one pass of the outer loop on the line [l] with the lines [rest] after it. *)
Definition read_line (l : text) (rest : list text) (vars : @items mat_value) : res (list text * @items mat_value) :=
  match split l with
  | [] => Ok (rest, vars)
  | w :: ws =>
    let (t, equal) := before_equal w in
    match find_element t with
    | None => Ok (rest, vars)
    | Some (name, k) =>
      if k =? 1 then
        do d <- first_number (if equal then w :: ws else ws);
        match d with
        | Some q => Ok (rest, d_set name (Scalar q) vars)
        | None => Err PlainException
        end
      else
        do rr <- read_table k (w :: ws) rest;
        Ok (snd rr, d_set name (Table (fst rr)) vars)
    end
  end.

(** JR:27-109; every pass consumes a line, so the number of lines is enough fuel. *)
Fixpoint read_lines (fuel : nat) (ls : list text) (vars : @items mat_value) : res (@items mat_value) :=
  match ls with
  | [] => Ok vars
  | l :: rest =>
    match fuel with
    | 0 => Err OutOfFuel
    | S fuel' => do sv <- read_line l rest vars; read_lines fuel' (fst sv) (snd sv)
    end
  end.

(** JR:15-113: the contents handed to savemat (which is not modelled), from the lines of the file. *)
Definition build_mat (contents : list text) : res (@items mat_value) := read_lines (List.length contents) contents [].
