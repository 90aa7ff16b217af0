(** Model of the reader of workbooks, class excel2pyene of pyensys/engines/pyeneI.py (PI): connections and whole workbooks.

    Simplifications.
    - Those of ExcelSheet.v.
    - The sheets "functions" and "outputs" (PI:2027-2196, 2393-2404) are modelled in ExcelOutputs.v; a workbook has none of them here.
    - A row past the last one of openpyxl (1048576) raises ValueError: a block with no end runs into it. *)
From Coq Require Import List String Bool Arith ZArith QArith.
From Verif Require Import Base ExcelSheet ExcelTree ExcelProfiles.
Import ListNotations.
Open Scope string_scope.
Open Scope nat_scope.
Open Scope list_scope.

(** ** Names *)

(** PI:1382-1387. *)
Definition integer_names : dict :=
  [("number", "number"); ("type node power flow", "typePF"); ("typepf", "typePF"); ("from", "from"); ("to", "to"); ("pieces", "pieces"); ("model", "model"); ("hour", "hour")].
(** PI:1389-1392: the titles of the three sheets whose data are doubles. *)
Definition double_names : dict :=
  [("active power demand", "Pd"); ("pd", "Pd"); ("reactive power demand", "Qd"); ("qd", "Qd"); ("shunt conductance", "Gs"); ("gs", "Gs");
   ("bs", "Bs"); ("basev", "baseV"); ("predefined voltage magnitude", "Vmpr"); ("vmpr", "Vmpr");
   ("predefined voltage angle", "Vapr"); ("vapr", "Vapr"); ("max voltage magnitude", "Vmax"); ("vmax", "Vmax");
   ("min voltage magnitude", "Vmin"); ("vmin", "Vmin");
   ("length", "length"); ("resistance", "resistance"); ("r", "resistance"); ("reactance", "reactance"); ("x", "reactance");
   ("line charging susceptance", "LCsusceptance"); ("shunt susceptance", "LCsusceptance"); ("b", "LCsusceptance");
   ("max active power flow", "maxPflow"); ("max pflow", "maxPflow"); ("cost new branch", "CTEP");
   ("active power max limit", "active power max limit"); ("pmax", "active power max limit"); ("active power min limit", "Pmin"); ("pmin", "Pmin");
   ("fixed active power", "Pfix"); ("pfix", "Pfix"); ("reactive power max limit", "Qmax"); ("qmax", "Qmax"); ("reactive power min limit", "Qmin"); ("qmin", "Qmin");
   ("fixed reactive power", "Qfix"); ("qfix", "Qfix"); ("cost unit commitment", "cUC"); ("cuc", "cUC"); ("cost new generator", "cGEP"); ("cgep", "cGEP");
   ("fixed operation cost", "fCPg"); ("fcpg", "fCPg"); ("variable operation cost", "vCPg"); ("vcpg", "vCPg");
   ("emissions", "emissions"); ("startup", "startup"); ("shutdown", "shutdown")].
(** PI:1394-1404. *)
Definition string_names : dict :=
  problem_names ++
  [("id", "ID"); ("name", "name"); ("zone", "zone"); ("group", "group"); ("type", "type"); ("problem", "problem"); ("reference", "reference");
   ("data device", "data device"); ("type information", "type information"); ("function", "function")].
(** PI:1406-1409. *)
Definition bool_names : dict :=
  [("status", "status"); ("tep variable", "vTEP"); ("unit commitment", "vUC"); ("uc", "vUC"); ("gep variable", "vGEP"); ("vgep", "vGEP")].
(** PI:1416-1427. *)
Definition list_double_names : dict := [("cost function", "cost function")].
Definition list_string_names : dict :=
  [("subtype", "subtype"); ("position tree", "pt"); ("representative day", "pt"); ("pt", "pt"); ("problems", "problems"); ("variables", "variables")].
(** PI:1433-1447. *)
Definition unique_names : dict := integer_names ++ double_names ++ string_names ++ bool_names.
Definition list_names : dict := list_double_names ++ list_string_names.
Definition all_names : dict := unique_names ++ list_names.
(** PI:1450-1464. *)
Definition variable_names : list string :=
  ["input"; "output"; "flow"; "surplus"; "deficit"; "active power generation"; "active power generation cost"; "active power flow";
   "voltage angle"; "generation curtailment"; "load curtailment"].
Definition known (d : dict) (s : string) : bool := match dget d s with Some _ => true | None => false end.
(** PI:2198-2228; [s] in lower case. *)
Definition data_type (s : string) : option string :=
  if known integer_names s then Some "integer" else if known double_names s then Some "double" else if known string_names s then Some "string"
  else if known bool_names s then Some "bool" else if known list_double_names s then Some "v_double" else if known list_string_names s then Some "v_string" else None.

(** ** Connections *)

(** PI:1972-1978: a value in a list. *)
Definition list_value (v : cell) : cell :=
  match v with
  | CStr s => let s := plain s in
              let t := match dget all_names (lower s) with Some t => t | None => s end in
              CStr (if member variable_names (lower t) then lower t else t)
  | _ => v
  end.
(** PI:1983-1990: a single value. *)
Definition single_value (v : cell) : cell :=
  match v with
  | CStr s => let s := plain s in
              CStr (match dget all_names (lower s) with
                    | Some t => t
                    | None => if member variable_names (lower s) || (lower s =? "all")%string then lower s else s
                    end)
  | _ => v
  end.
(** PI:1963-1997: one row of a block.  [bound] tells whether the variable [val] has a value yet; the result has the characteristics,
    [bound] and whether the row ends the block. *)
Definition connection_row (cs : list charac) (bound : bool) (row : list (option cell)) : res (list charac * bool * bool) :=
  match in_row row 1 with
  | Some (CStr s0) =>
      let s := plain s0 in
      let k := lower s in
      let add n v := match data_type k with Some t => cs ++ [mkChar n v t] | None => cs end in
      match dget all_names k with
      | Some n =>
          let n := if member variable_names k then k else n in
          if known list_names k then
            match map list_value (across row 2) with
            | [] => Ok (cs, true, false)
            | l => Ok (add n (VList l), true, false)
            end
          else
            match option_map single_value (in_row row 2) with
            | Some v => Ok (if truthy v then add n (VCell v) else cs, true, match v with CStr t => (t =? "end")%string | _ => false end)
            | None => Ok (cs, true, false)
            end
      | None =>
          if member variable_names k then (if bound then Ok (cs, true, false) else Err UnboundLocalError)
          else Ok (cs, bound, (s =? "end")%string)
      end
  | _ => Ok (cs, bound, false)
  end.
(** PI:1956-2006: between the blocks, or in a block with the characteristics read. *)
Inductive cmode := Between (tries : nat) | Block (cs : list charac).
Definition is_begin (v : option cell) : bool := match v with Some (CStr s) => (plain s =? "begin")%string | _ => false end.
Fixpoint connection_rows (rows : sheet) (m : cmode) (bound : bool) (acc : list (list charac)) : res (list (list charac)) :=
  match rows with
  | [] => match m with Between _ => Ok acc | Block _ => Err ValueError end
  | row :: rest =>
      match m with
      | Between tries =>
          if tries <? 20 then (if is_begin (in_row row 1) then connection_rows rest (Block []) bound acc else connection_rows rest (Between (S tries)) bound acc)
          else Ok acc
      | Block cs =>
          do r <- connection_row cs bound row;
          let '(cs', bound', over) := r in
          if over then
            connection_rows rest (Between 1) bound' (match cs' with [] => acc | _ => acc ++ [cs' ++ [mkChar "name" (VCell (CStr "connection")) "string"]] end)
          else connection_rows rest (Block cs') bound' acc
      end
  end.

(** PI:2011-2013: whether the connection of all elements takes the element of the parameter. *)
Definition takes (cs : list charac) (i : info) : bool :=
  (has_char cs "subtype" && has i "subtype" &&
   match get_char cs "subtype", get i "subtype" with VList l, VList m => forallb (fun x => existsb (cell_eqb x) m) l | _, _ => false end) ||
  (has_char cs "group" && has i "group" && cval_eqb (get i "group") (get_char cs "group")) ||
  (has_char cs "zone" && has i "zone" && cval_eqb (get i "zone") (get_char cs "zone")) ||
  (negb (has_char cs "subtype") && negb (has_char cs "group") && negb (has_char cs "zone")).
Definition cval_in (l : list cval) (x : cval) : bool := existsb (cval_eqb x) l.
Definition taken_ids (cs : list charac) (l : list info) : list cval :=
  fold_left (fun ids i => if negb (cval_in ids (get i "ID")) && takes cs i then ids ++ [get i "ID"] else ids) l [].
(** PM:58-62. *)
Fixpoint update_char (n : string) (v : cval) (cs : list charac) : list charac :=
  match cs with [] => [] | c :: r => if (ch_name c =? n)%string then mkChar n v (ch_type c) :: r else c :: update_char n v r end.
(** PI:2008-2018: only connections of all elements reach the model. *)
Definition spread (d : store) (cs : list charac) : res (list (list charac)) :=
  if is_cell (get_char cs "ID") (CStr "all") && has_char cs "type" then
    do l <- (match get_char cs "type" with VCell (CStr t) => sget d (Some t) | _ => Err KeyError end);
    Ok (map (fun x => update_char "ID" x cs) (taken_ids cs l))
  else Ok [].
(** PI:1943-2018: the connections read so far (of all sheets) and those of the model. *)
Definition read_connections (d : store) (st : list (list charac) * list (list charac)) (sh : sheet) : res (list (list charac) * list (list charac)) :=
  do own <- connection_rows (skipn 1 sh) (Between 0) false (fst st);
  do new <- concatM (spread d) own;
  Ok (own, snd st ++ new).

(** ** Workbooks *)

(** The state while sheets are read (PI:2450-2453, PM:357-362). *)
Record book := mkBook { bk_opts : list mopt; bk_data : store; bk_tree : list treeinfo; bk_profs : list profile;
  bk_own : list (list charac); bk_conns : list (list charac); bk_files : list (list cell) }.
Definition new_book : book := mkBook [] [] [] [] [] [] [].
(** PI:2457-2476. *)
Definition read_sheet (fstr : Q -> string) (b : book) (sh : sheet) : res book :=
  match cell_at sh 1 1 with
  | Some (CStr s0) =>
      let s := plain s0 in
      let network names := do l <- read_info_network fstr names s sh;
            Ok (mkBook (bk_opts b) (sput (bk_data b) s l) (bk_tree b) (bk_profs b) (bk_own b) (bk_conns b) (bk_files b)) in
      if (s =? "model")%string then
        do r <- read_model_options (bk_opts b) sh;
        Ok (mkBook (fst r) (bk_data b) (bk_tree b) (bk_profs b) (bk_own b) (bk_conns b) (bk_files b ++ snd r))
      else if (s =? "bus")%string then network node_names
      else if (s =? "branch")%string then network branch_names
      else if (s =? "generator")%string then network generator_names
      else if (s =? "tree")%string then Ok (mkBook (bk_opts b) (bk_data b) (read_info_tree (bk_tree b) sh) (bk_profs b) (bk_own b) (bk_conns b) (bk_files b))
      else if (s =? "profile")%string then
        do l <- read_profile (bk_profs b) sh;
        Ok (mkBook (bk_opts b) (bk_data b) (bk_tree b) l (bk_own b) (bk_conns b) (bk_files b))
      else if (s =? "connections energy")%string then
        do r <- read_connections (bk_data b) (bk_own b, bk_conns b) sh;
        Ok (mkBook (bk_opts b) (bk_data b) (bk_tree b) (bk_profs b) (fst r) (snd r) (bk_files b))
      else Ok b
  | _ => Err AttributeError
  end.
(** What the model has in the end (PM:357-362). *)
Record loaded := mkLoaded { ld_opts : list mopt; ld_data : store; ld_tree : list treepar; ld_conns : list (list charac) }.
(** PI:2440-2482: the sheets of the workbook; then the last of the files to open, which is a list of paths and no path
    (load_workbook raises TypeError); then tree and profiles. *)
Definition read_excel (fstr : Q -> string) (sheets : list sheet) : res loaded :=
  do b <- foldM (read_sheet fstr) sheets new_book;
  match bk_files b with
  | [] => do d <- use_profiles (bk_opts b) (bk_data b) (bk_profs b);
          Ok (mkLoaded (bk_opts b) d (load_balance_tree (bk_tree b)) (bk_conns b))
  | _ => Err TypeError
  end.
