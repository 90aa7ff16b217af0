(** Model of the reader of workbooks, class excel2pyene of pyensys/engines/pyeneI.py (PI): the sheets "outputs" and "functions" and the
    search for the parameters that functions belong to.

    Simplifications.
    - Those of ExcelSheet.v and ExcelBook.v; warnings that are printed are left out.
    - A title of a function that is a number is kept as its text. *)
From Coq Require Import List String Bool Arith ZArith QArith.
From Verif Require Import Base Outputs ExcelSheet ExcelProfiles ExcelBook.
Import ListNotations.
Open Scope string_scope.
Open Scope nat_scope.
Open Scope list_scope.

(** ** Outputs *)

(** PI:2170-2175: a value. *)
Definition output_value (v : cell) : cell :=
  match v with
  | CStr s => CStr (match dget all_names (lower (plain s)) with Some t => t | None => lower (plain s) end)
  | _ => v
  end.
(** PI:2180-2181. *)
Definition general (l : list cell) : bool :=
  match l with [CStr s] => (s =? "all")%string || member variable_names s | _ => false end.
(** PI:2182-2185: the type of a list; None has no first letters. *)
Definition list_type (k : string) : res string :=
  match data_type k with
  | None => Err TypeError
  | Some t => Ok (if String.prefix "v_" t then t else ("v_" ++ t)%string)
  end.
(** PI:2155-2189: one row of a block; the result has the characteristics and whether the row ends the block. *)
Definition output_row (cs : list charac) (row : list (option cell)) : res (list charac * bool) :=
  match in_row row 1 with
  | Some (CStr s0) =>
      let s := plain s0 in
      let k := lower s in
      if known all_names k || member variable_names k then
        let n := if member variable_names k then k else match dget all_names k with Some n => n | None => k end in
        match map output_value (across row 2) with
        | [] => Ok (cs, false)
        | l => do t <- (if general l then Ok "v_string" else list_type k); Ok (cs ++ [mkChar n (VList l) t], false)
        end
      else Ok (cs, (s =? "end")%string)
  | _ => Ok (cs, false)
  end.
(** PI:2144-2196: the rows from the second one. *)
Fixpoint output_rows (rows : sheet) (m : cmode) (acc : list (list charac)) : res (list (list charac)) :=
  match rows with
  | [] => match m with Between _ => Ok acc | Block _ => Err ValueError end
  | row :: rest =>
      match m with
      | Between tries =>
          if tries <? 20 then (if is_begin (in_row row 1) then output_rows rest (Block []) acc else output_rows rest (Between (S tries)) acc)
          else Ok acc
      | Block cs =>
          do r <- output_row cs row;
          if snd r then output_rows rest (Between 1) (match fst r with [] => acc | cs' => acc ++ [cs'] end)
          else output_rows rest (Block (fst r)) acc
      end
  end.
(** PI:2132-2196, [_read_output_requirements]. *)
Definition read_outputs (acc : list (list charac)) (sh : sheet) : res (list (list charac)) := output_rows (skipn 1 sh) (Between 0) acc.

(** pyeneO.py:48-53, 81-84: what the writer of results uses of an output; values that are no texts are left out of the device, and the
    first letter of "N/A" stands for a name or problem that is not given. *)
Definition texts (v : cval) : list string := match v with VList l => map (fun c => match c with CStr s => s | _ => "" end) l | VCell _ => [] end.
Definition first_text (cs : list charac) (n : string) : string :=
  if has_char cs n then match texts (get_char cs n) with s :: _ => s | [] => "" end else "N".
Definition out_of (cs : list charac) : out :=
  Out (if has_char cs "data device" then Some (texts (get_char cs "data device")) else None) (first_text cs "name") (first_text cs "problem").

(** ** Functions *)

(** PI:2052-2063: the titles of a block, each with the last known title before it; [orig] is that of earlier blocks. *)
Fixpoint function_titles (fstr : Q -> string) (orig : option string) (vs : list cell) : res (option string * list (string * string)) :=
  match vs with
  | [] => Ok (orig, [])
  | v :: r =>
      let known_ := match v with CStr s => match dget all_names (lower (plain s)) with Some t => Some (plain s, t) | None => None end | _ => None end in
      let orig' := match known_ with Some (o, _) => Some o | None => orig end in
      let na := match known_ with Some (_, t) => t | None => match v with CStr s => plain s | _ => str_cell fstr v end end in
      match orig' with
      | None => Err UnboundLocalError
      | Some o => do z <- function_titles fstr orig' r; Ok (fst z, (o, na) :: snd z)
      end
  end.
(** PI:2084-2091, 2105-2112: a value. *)
Definition function_value (v : cell) : cell :=
  match v with CStr s => CStr (match dget all_names (lower (plain s)) with Some t => t | None => plain s end) | _ => v end.
(** PI:2067-2096: a row of a block with one title; the result has the characteristics and whether the block ends.  [nub] tells whether the
    variable nu has a value; a type that is None is written as the empty text. *)
Definition single_row (nub : bool) (cs : list charac) (row : list (option cell)) : res (list charac * bool) :=
  match in_row row 1 with
  | Some (CStr s0) =>
      if (s0 =? "end")%string then Ok (cs, true)
      else
        let k := lower (plain s0) in
        if known unique_names k then
          match in_row row 2 with
          | Some (CStr v) => Ok (match data_type (lower v), dget all_names k with Some t, Some na => cs ++ [mkChar na (VCell (CStr v)) t]
                                                                              | None, Some na => cs ++ [mkChar na (VCell (CStr v)) ""] | _, None => cs end, (v =? "end")%string)
          | _ => Err AttributeError
          end
        else if known list_names k then Err (if nub then TypeError else UnboundLocalError)
        else Ok (cs, (plain s0 =? "end")%string)
  | _ => Err AttributeError
  end.
(** PI:2113-2127: the values of a row under the titles.  The result has the characteristics, the function when it is complete, and whether
    the reading stops. *)
Fixpoint function_cells (values : list cell) (nu : nat) (total : nat) (names : list (string * string)) (cs : list charac) (done : list (list charac)) : res (list charac * list (list charac) * bool) :=
  match names with
  | [] => Ok (cs, done, false)
  | (o, na) :: r =>
      let k := lower o in
      let t := match data_type k with Some t => t | None => "" end in
      if known unique_names k then
        match nth_error values nu with
        | Some v => function_cells values (S nu) total r (cs ++ [mkChar na (VCell v) t]) done
        | None => Err IndexError
        end
      else if known list_names k then
        let cs' := cs ++ [mkChar "name" (VCell (CStr na)) "string"; mkChar "coefficients" (VList (skipn nu values)) t] in
        if nu + 1 =? total then function_cells values (S nu) total r [] (done ++ [cs']) else Ok (cs', done, true)
      else function_cells values (S nu) total r cs done
  end.
Inductive fmode := FBetween (tries : nat) | FTitles | FSingle (cs : list charac) | FRows (names : list (string * string)) (cs : list charac).
(** PI:2027-2130, [_read_functions]: the rows from the second one. *)
Fixpoint function_rows (fstr : Q -> string) (rows : sheet) (m : fmode) (orig : option string) (nub : bool) (acc : list (list charac)) : res (list (list charac)) :=
  match rows with
  | [] =>
    match m with
    | FBetween _ | FTitles => Ok acc
    | FSingle _ => Err AttributeError
    | FRows names cs => do z <- function_cells [] 0 (List.length names) names cs []; if snd z then Ok (acc ++ snd (fst z)) else Err ValueError
    end
  | row :: rest =>
    match m with
    | FBetween tries =>
        if tries <? 20 then (if is_begin (in_row row 1) then function_rows fstr rest FTitles orig nub acc else function_rows fstr rest (FBetween (S tries)) orig nub acc)
        else Ok acc
    | FTitles =>
        do z <- function_titles fstr orig (across row 1);
        match snd z with
        | [] => Ok acc
        | [_] => do r <- single_row nub [] row; if snd r then function_rows fstr rest (FBetween 1) (fst z) nub (acc ++ [fst r]) else function_rows fstr rest (FSingle (fst r)) (fst z) nub acc
        | names => function_rows fstr rest (FRows names []) (fst z) nub acc
        end
    | FSingle cs =>
        do r <- single_row nub cs row; if snd r then function_rows fstr rest (FBetween 1) orig nub (acc ++ [fst r]) else function_rows fstr rest (FSingle (fst r)) orig nub acc
    | FRows names cs =>
        match in_row row 1 with
        | Some (CStr "end") => function_rows fstr rest (FBetween 1) orig nub acc
        | _ => do z <- function_cells (map function_value (across row 1)) 0 (List.length names) names cs [];
               if snd z then Ok (acc ++ snd (fst z)) else function_rows fstr rest (FRows names (fst (fst z))) orig true (acc ++ snd (fst z))
        end
    end
  end.
Definition read_functions (fstr : Q -> string) (acc : list (list charac)) (sh : sheet) : res (list (list charac)) := function_rows fstr (skipn 1 sh) (FBetween 0) None false acc.

(** PI:2390-2402: the characteristics of the first parameter with the ID of the function; [ps] has the lists of the kinds of elements, in
    order. *)
Definition correlate (ps : list (list info)) (f : list charac) : list charac :=
  match find (fun i => cval_eqb (get_char (in_chars i) "ID") (get_char f "ID")) (List.concat ps) with
  | Some i => f ++ filter (fun c => negb (ch_name c =? "ID")%string && negb (ch_name c =? "name")%string) (in_chars i)
  | None => f
  end.
