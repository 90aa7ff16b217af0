(** Model of the reader of workbooks, class excel2pyene of pyensys/engines/pyeneI.py (PI): cells, options and elements of the network.

    Simplifications.
    - The library openpyxl is external: a sheet is the list of its rows, a row the list of its cells, and all cells beyond are empty.
      Dates and errors in cells are left out; so are numbers that are not finite.
    - Strings hold the characters of Latin-1, of which 160 is the space that does not break (the characters with no lower case in
      Latin-1 are left alone by [lower]).
    - [str] of a floating-point number is the argument [fstr].
    - What is printed (warnings) is left out, but not what raises an exception while it is printed. *)
From Coq Require Import List String Ascii Bool Arith ZArith QArith.
From Verif Require Import Base.
Import ListNotations.
Open Scope string_scope.
Open Scope nat_scope.
Open Scope list_scope.

(** ** Cells *)

(** The value of a cell that is not empty. *)
Inductive cell := CStr (s : string) | CInt (z : Z) | CNum (q : Q) | CBool (b : bool).
Definition sheet := list (list (option cell)).
(** [sheet.cell(row=r, column=c).value]; both numbers begin with 1. *)
Definition in_row (row : list (option cell)) (c : nat) : option cell := nth (c - 1) row None.
Definition cell_at (sh : sheet) (r c : nat) : option cell := in_row (nth (r - 1) sh []) c.
(** The cells to the right (PI:1592-1601 and others) and below (PI:1481-1499 and others) up to the first empty one. *)
Fixpoint until_empty (l : list (option cell)) : list cell := match l with Some v :: r => v :: until_empty r | _ => [] end.
Definition across (row : list (option cell)) (c : nat) : list cell := until_empty (skipn (c - 1) row).
Definition down (sh : sheet) (r c : nat) : list cell := until_empty (map (fun row => in_row row c) (skipn (r - 1) sh)).

(** str.lower, and str.replace of the space that does not break. *)
Definition lower_char (a : ascii) : ascii :=
  let n := nat_of_ascii a in
  if ((65 <=? n) && (n <=? 90)) || ((192 <=? n) && (n <=? 222) && negb (n =? 215)) then ascii_of_nat (n + 32) else a.
Definition plain_char (a : ascii) : ascii := if nat_of_ascii a =? 160 then " "%char else a.
Fixpoint smap (f : ascii -> ascii) (s : string) : string := match s with EmptyString => EmptyString | String a r => String (f a) (smap f r) end.
Definition lower : string -> string := smap lower_char.
Definition plain : string -> string := smap plain_char.

(** [v.lower()]: only strings have this method. *)
Definition low (v : cell) : res string := match v with CStr s => Ok (lower s) | _ => Err AttributeError end.
(** [a == b] in Python: a boolean is a number. *)
Definition number (v : cell) : option Q := match v with CStr _ => None | CInt z => Some (inject_Z z) | CNum q => Some q | CBool b => Some (if b then 1 else 0)%Q end.
Definition cell_eqb (a b : cell) : bool :=
  match number a, number b with
  | Some p, Some q => Qeq_bool p q
  | None, None => match a, b with CStr s, CStr t => (s =? t)%string | _, _ => false end
  | _, _ => false
  end.
(** [if v:] *)
Definition truthy (v : cell) : bool := match v with CStr s => negb (s =? "")%string | _ => match number v with Some q => negb (Qeq_bool q 0) | None => true end end.
(** [str(v)] *)
Definition str_cell (fstr : Q -> string) (v : cell) : string := match v with CStr s => s | CInt z => str_Z z | CNum q => fstr q | CBool b => if b then "True" else "False" end.

(** Dictionaries written in the code: of two entries with the same key the last one counts. *)
Definition dict := list (string * string).
Fixpoint dget (d : dict) (k : string) : option string :=
  match d with [] => None | (k', v) :: r => match dget r k with Some w => Some w | None => if (k =? k')%string then Some v else None end end.
Definition member (l : list string) (s : string) : bool := existsb (String.eqb s) l.

(** ** Names *)

(** PI:1088-1120. *)
Definition problem_names : dict :=
  [("dc economic dispatch", "DC ED"); ("economic dispatch", "DC ED"); ("dc ed", "DC ED"); ("dc optimal power flow", "DC OPF");
   ("optimal power flow", "DC OPF"); ("dc opf", "DC OPF"); ("ac power flow", "AC PF"); ("power flow", "AC PF"); ("ac pf", "AC PF");
   ("network reduction", "NetR"); ("netr", "NetR"); ("balance tree", "BT"); ("bt", "BT");
   ("substation expansion planning", "SEP"); ("sep", "SEP"); ("transmission expansion planning", "TEP"); ("tep", "TEP");
   ("unit commitment", "UC"); ("uc", "UC"); ("generation expansion planning", "GEP"); ("gep", "GEP")].
Definition engine_names : dict := [("pyene", "pyene"); ("fdif", "fdif")].
(** PI:1307-1315. *)
Definition characteristic_names : dict :=
  [("lossess", "loss"); ("solver", "solver"); ("base power", "Sbase"); ("multiperiod", "multiperiod"); ("output file name", "output file name");
   ("moea", "MOEA"); ("representative periods", "representative periods")].
(** PI:1123-1173. *)
Definition node_names : dict :=
  [("number", "number"); ("type node power flow", "typePF"); ("typepf", "typePF");
   ("active power demand", "Pd"); ("pd", "Pd"); ("reactive power demand", "Qd"); ("qd", "Qd"); ("shunt conductance", "Gs"); ("gs", "Gs");
   ("shunt susceptance", "Bs"); ("bs", "Bs"); ("basev", "baseV"); ("predefined voltage magnitude", "Vmpr"); ("vmpr", "Vmpr");
   ("predefined voltage angle", "Vapr"); ("vapr", "Vapr"); ("max voltage magnitude", "Vmax"); ("vmax", "Vmax");
   ("min voltage magnitude", "Vmin"); ("vmin", "Vmin"); ("id", "ID"); ("name", "name_bus"); ("zone", "zone"); ("group", "group"); ("subtype", "subtype")].
(** PI:1176-1220. *)
Definition branch_names : dict :=
  [("from", "from"); ("to", "to"); ("length", "length"); ("resistance", "resistance"); ("r", "resistance"); ("reactance", "reactance"); ("x", "reactance");
   ("line charging susceptance", "LCsusceptance"); ("shunt susceptance", "LCsusceptance"); ("b", "LCsusceptance");
   ("max active power flow", "maxPflow"); ("max pflow", "maxPflow"); ("cost new branch", "CTEP"); ("id", "ID"); ("group", "group");
   ("status", "status"); ("tep variable", "vTEP"); ("subtype", "subtype")].
(** PI:1234-1296. *)
Definition generator_names : dict :=
  [("number", "number"); ("pieces", "pieces"); ("model", "model");
   ("active power max limit", "active power max limit"); ("pmax", "active power max limit"); ("active power min limit", "Pmin"); ("pmin", "Pmin");
   ("fixed active power", "Pfix"); ("pfix", "Pfix"); ("reactive power max limit", "Qmax"); ("qmax", "Qmax"); ("reactive power min limit", "Qmin"); ("qmin", "Qmin");
   ("fixed reactive power", "Qfix"); ("qfix", "Qfix"); ("cost unit commitment", "cUC"); ("cuc", "cUC"); ("cost new generator", "cGEP"); ("cgep", "cGEP");
   ("fixed operation cost", "fCPg"); ("fcpg", "fCPg"); ("variable operation cost", "vCPg"); ("vcpg", "vCPg");
   ("emissions", "emissions"); ("startup", "startup"); ("shutdown", "shutdown"); ("id", "ID"); ("group", "group");
   ("status", "status"); ("unit commitment", "vUC"); ("uc", "vUC"); ("gep variable", "vGEP"); ("vgep", "vGEP");
   ("cost function", "cost function"); ("subtype", "subtype")].
(** PI:918-1085: the lists of characteristics and parameters of all elements by the type of their data. *)
Definition integer_characteristics := ["number"; "typePF"; "from"; "to"].
Definition string_characteristics := ["ID"; "name_bus"; "zone"; "group"; "subtype"].
Definition double_parameters :=
  ["Pd"; "Qd"; "Gs"; "Bs"; "baseV"; "Vmpr"; "Vapr"; "Vmax"; "Vmin"; "resistance"; "reactance"; "LCsusceptance"; "maxPflow"; "CTEP";
   "active power max limit"; "Pmin"; "Pfix"; "Qmax"; "Qmin"; "Qfix"; "cUC"; "cGEP"; "fCPg"; "vCPg"; "emissions"; "startup"; "shutdown"; "cost function"].
Definition bool_parameters := ["status"; "vTEP"; "vUC"; "vGEP"].

(** ** Options *)

(** PM:72-78: name (None for a problem that is not known), value and engine. *)
Record mopt := mkOpt { mo_name : option string; mo_value : cell; mo_engine : option string }.
Definition ostr_eqb (a b : option string) : bool :=
  match a, b with Some s, Some t => (s =? t)%string | None, None => true | _, _ => false end.

(** PI:1592-1601: the titles in the second row. *)
Definition title (v : cell) : res string := match v with CStr s => Ok (lower (plain s)) | _ => Err AttributeError end.
Definition titles (sh : sheet) : res (list string) := mapM title (across (nth 1 sh []) 1).
(** PI:1467-1504: the first column with this title and a value; [c] is the number of the first title. *)
Definition bool_of (v : cell) : bool :=
  match v with
  | CStr s => (lower s =? "=true")%string || (lower s =? "true")%string
  | CInt z => (z =? 1)%Z
  | CNum _ => false
  | CBool b => b
  end.
Fixpoint named_column (ts : list string) (c : nat) (sh : sheet) (name : string) : list cell :=
  match ts with
  | [] => []
  | t :: r => match (if (t =? name)%string then down sh 3 c else []) with [] => named_column r (S c) sh name | vs => vs end
  end.
Definition read_bools (ts : list string) (sh : sheet) (name : string) : res (list bool) :=
  match named_column ts 1 sh name with [] => Err ValueError | vs => Ok (map bool_of vs) end.
(** PI:1506-1538: None if no column has values; a value that is not in the references gives None. *)
Definition read_known (ts : list string) (sh : sheet) (name : string) (refs : dict) : res (option (list (option string))) :=
  match named_column ts 1 sh name with
  | [] => Ok None
  | vs => do l <- mapM (fun v => do s <- low v; Ok (dget refs (plain s))) vs; Ok (Some l)
  end.
Definition read_any (ts : list string) (sh : sheet) (name : string) : option (list cell) :=
  match named_column ts 1 sh name with [] => None | vs => Some vs end.

(** PI:1540-1578: the first option with this name gets the new value (a problem its engine as well), or one is added. *)
Fixpoint put (n : option string) (f : mopt -> mopt) (new : mopt) (l : list mopt) : list mopt :=
  match l with [] => [new] | o :: r => if ostr_eqb (mo_name o) n then f o :: r else o :: put n f new r end.
Definition put_problem (l : list mopt) (r : option string * bool * option string) : list mopt :=
  let '(n, b, e) := r in put n (fun o => mkOpt (mo_name o) (CBool b) e) (mkOpt n (CBool b) e) l.
Definition put_characteristic (l : list mopt) (r : option string * cell) : list mopt :=
  let '(n, v) := r in put n (fun o => mkOpt (mo_name o) v (mo_engine o)) (mkOpt n v None) l.

(** PI:1580-1629: the options and what is added to the files to open, which is the list of the paths. *)
Definition read_model_options (opts : list mopt) (sh : sheet) : res (list mopt * list (list cell)) :=
  do ts <- titles sh;
  do active <- read_bools ts sh "active";
  do problem <- read_known ts sh "problem" problem_names;
  do engine <- read_known ts sh "engine" engine_names;
  do chars <- read_known ts sh "characteristics" characteristic_names;
  let values := read_any ts sh "options" in
  let files := match read_any ts sh "paths" with Some l => [l] | None => [] end in
  match problem, engine with
  | Some ps, Some es =>
      if (List.length ps =? List.length active) && (List.length ps =? List.length es) then
        let opts1 := fold_left put_problem (combine (combine ps active) es) opts in
        match chars, values with
        | Some cs, Some vs => if List.length cs =? List.length vs then Ok (fold_left put_characteristic (combine cs vs) opts1, files) else Err ValueError
        | _, _ => Err TypeError
        end
      else Err ValueError
  | _, _ => Err TypeError
  end.

(** ** Elements of the network *)

(** PM:36-63: characteristics, and information with its characteristics. *)
Inductive cval := VCell (v : cell) | VList (l : list cell).
Record charac := mkChar { ch_name : string; ch_value : cval; ch_type : string }.
Record info := mkInfo { in_chars : list charac; in_value : cell; in_type : string }.
Definition get_char (cs : list charac) (n : string) : cval :=
  match find (fun c => (ch_name c =? n)%string) cs with Some c => ch_value c | None => VCell (CStr "N/A") end.
Definition has_char (cs : list charac) (n : string) : bool := existsb (fun c => (ch_name c =? n)%string) cs.

(** PI:1631-1668: the names of the parameters below the titles and the column of the last title "id". *)
Fixpoint last_id (ts : list string) (c : nat) : option nat :=
  match ts with [] => None | t :: r => match last_id r (S c) with Some k => Some k | None => if (t =? "id")%string then Some c else None end end.
Definition parameter_names (names : dict) (sh : sheet) : res (list (option string) * nat) :=
  do ts <- titles sh;
  match last_id ts 1 with None => Err ValueError | Some k => Ok (map (dget names) ts, k) end.

(** PI:1730-1734: a further subtype is added to the list of the first. *)
Fixpoint add_subtype (s : string) (cs : list charac) : list charac :=
  match cs with
  | [] => []
  | c :: r => if (ch_name c =? "subtype")%string then mkChar (ch_name c) (match ch_value c with VList l => VList (l ++ [CStr s]) | VCell v => VCell v end) (ch_type c) :: r else c :: add_subtype s r
  end.
(** PI:1714-1743: one cell of an element, in the characteristics of the element or as a parameter (name, value, type). *)
Definition element_cell (fstr : Q -> string) (st : list charac * list (string * cell * string)) (name : string) (v : cell) : list charac * list (string * cell * string) :=
  let (cs, ps) := st in
  let s := str_cell fstr v in
  if member integer_characteristics name then (cs ++ [mkChar name (VCell v) "integer"], ps)
  else if member string_characteristics name then
    if negb (name =? "subtype")%string then (cs ++ [mkChar name (VCell (CStr s)) "string"], ps)
    else if has_char cs "subtype" then (add_subtype s cs, ps)
    else (cs ++ [mkChar name (VList [CStr s]) "v_string"], ps)
  else if member double_parameters name then (cs, ps ++ [(name, v, "double")])
  else if member bool_parameters name then (cs, ps ++ [(name, v, "bool")])
  else (cs, ps).
(** PI:1709-1746: the information of one row. *)
Definition element_row (fstr : Q -> string) (typ : string) (names : list (option string)) (k : nat) (id : cell) (row : list (option cell)) : list info :=
  let start := [mkChar "ID" (VCell id) "string"; mkChar "type" (VCell (CStr typ)) "string"] in
  let '(cs, ps) := fold_left (fun st cn => let '(c, name) := cn in
      match name, in_row row c with
      | Some n, Some v => if c =? k then st else element_cell fstr st n v
      | _, _ => st
      end) (combine (seq 1 (List.length names)) names) (start, []) in
  map (fun p => let '(n, v, t) := p in mkInfo (mkChar "name" (VCell (CStr n)) "string" :: cs) v t) ps.
(** PI:1705-1750: the rows up to the first whose ID is not true (empty, "", 0 or False). *)
Fixpoint element_rows (fstr : Q -> string) (typ : string) (names : list (option string)) (k : nat) (rows : sheet) : list info :=
  match rows with
  | [] => []
  | row :: rest => match in_row row k with
                   | Some id => if truthy id then element_row fstr typ names k id row ++ element_rows fstr typ names k rest else []
                   | None => []
                   end
  end.
(** PI:1691-1751: the information of all elements of a type, which replaces what was there ([model.data.data[typ]]). *)
Definition read_info_network (fstr : Q -> string) (names : dict) (typ : string) (sh : sheet) : res (list info) :=
  do pk <- parameter_names names sh;
  Ok (element_rows fstr typ (fst pk) (snd pk) (skipn 2 sh)).
