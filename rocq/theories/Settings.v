(** Model of the settings reader: the rest of pyensys/readers/JSONReader.py (JR:116-117, 152-273,
    326-501) and pyensys/readers/ReaderManager.py (RM). *)
From Coq Require Import List String Ascii Bool Arith ZArith QArith.
From Verif Require Import Base Container Graph GraphData Reader.
Import ListNotations.
Open Scope string_scope.
Open Scope nat_scope.
Open Scope list_scope.

(** What json.load returns; None is [JNull].  Cells of spreadsheets are JSON values too. *)
Inductive json :=
| JNull | JBool (b : bool) | JInt (z : Z) | JNum (q : Q) | JStr (s : string)
| JList (l : list json) | JObj (d : list (string * json)).
Definition obj := list (string * json).

(** [d.get(k, default)], and [d.get(k)] with the default None. *)
Definition jget (k : string) (dflt : json) (d : obj) : json :=
  match d_get k d with Some v => v | None => dflt end.
Definition present (k : string) (d : obj) : bool :=
  match jget k JNull d with JNull => false | _ => true end.
(** [d.pop(k, default)]. *)
Definition jpop (k : string) (dflt : json) (d : obj) : json * obj := (jget k dflt d, d_remove k d).
(** Truth value of a JSON value. *)
Definition truthy (v : json) : bool :=
  match v with
  | JNull => false | JBool b => b | JInt z => negb (Z.eqb z 0) | JNum q => negb (Qeq_bool q 0)
  | JStr s => negb (String.eqb s "") | JList l => negb (Nat.eqb (List.length l) 0) | JObj d => negb (Nat.eqb (List.length d) 0)
  end.
(** A dictionary is expected: the attribute [get] or [pop] of anything else does not exist. *)
Definition as_obj (v : json) : res obj := match v with JObj d => Ok d | _ => Err AttributeError end.

(** A DataFrame: column names and rows. *)
Record jframe := mkJF { jf_cols : list json; jf_rows : list (list json) }.

(** JR:116-117, DataFrame(data, columns): short rows are filled with missing values; the widest row
    decides the number of columns, which must be that of the names.  Simplification: data is a list of lists. *)
Definition pad (w : nat) (r : list json) : list json := r ++ repeat JNull (w - List.length r).
Definition create_frame (data cols : json) : res jframe :=
  match data, cols with
  | JList rows, JList cs =>
    do rs <- mapM (fun r => match r with JList l => Ok l | _ => Err ValueError end) rows;
    let w := fold_right Nat.max 0 (map (@List.length json) rs) in
    match rs with
    | [] => Ok (mkJF cs [])
    | _ => if w =? List.length cs then Ok (mkJF cs (map (pad w) rs)) else Err ValueError
    end
  | _, _ => Err TypeError
  end.

(** os.path.splitext (POSIX), second component: from the last dot of the last part of the path,
    unless only dots precede it. *)
Fixpoint after_slash (l : list ascii) : list ascii :=
  match l with
  | [] => []
  | a :: r => if existsb (Ascii.eqb "/") r then after_slash r else if Ascii.eqb a "/" then r else l
  end.
Fixpoint from_last_dot (l : list ascii) : list ascii :=
  match l with
  | [] => []
  | a :: r => if existsb (Ascii.eqb ".") r then from_last_dot r else if Ascii.eqb a "." then l else []
  end.
Fixpoint skip_dots (l : list ascii) : list ascii :=
  match l with a :: r => if Ascii.eqb a "." then skip_dots r else l | [] => [] end.
Definition extension (path : string) : string :=
  string_of_list_ascii (from_last_dot (skip_dots (after_slash (list_ascii_of_string path)))).

Section WithExcel.
(** pandas.read_excel(io, sheet_name, header): an oracle; [true] stands for header=0 and [false]
    for header=None, for which the columns are numbered.  Simplification: one sheet, so a
    DataFrame and no dictionary (JR:166-167). *)
Variable excel : string -> json -> bool -> res jframe.

(** JR:159-169, _read_file; [None] is Python's None, for other extensions than .xlsx. *)
Definition read_file (path : json) (d : obj) (header : bool) : res (option jframe * obj) :=
  if present "excel_sheet_name" d then
    match path with
    | JStr p =>
      if String.eqb (extension p) ".xlsx" then
        let (name, d') := jpop "excel_sheet_name" JNull d in
        do t <- excel p name header; Ok (Some t, d')
      else Ok (None, d)
    | _ => Err TypeError
    end
  else Err NameError.

(** JR:172-182, _read_dataframe_data. *)
Definition read_dataframe (d : obj) : res (option jframe * obj) :=
  if present "data" d && present "dataframe_columns_names" d then
    let (data, d1) := jpop "data" JNull d in
    let (cols, d2) := jpop "dataframe_columns_names" JNull d1 in
    do t <- create_frame data cols; Ok (Some t, d2)
  else if present "data_path" d && present "excel_sheet_name" d then
    let (path, d1) := jpop "data_path" JNull d in read_file path d1 true
  else Ok (Some (mkJF [] []), d).

(** JR:152-156, _read_active_columns_names. *)
Definition read_active (d : obj) (data : option jframe) : res json :=
  if present "active_columns_names" d then Ok (jget "active_columns_names" JNull d)
  else if truthy (jget "all_active_columns_names" (JBool false) d) then
    match data with Some t => Ok (JList (jf_cols t)) | None => Err AttributeError end
  else Ok JNull.

(** ReaderDataClasses.py:42-49, PandaPowerProfileData. *)
Record pdata := mkPD {
  pd_element : json; pd_variable : json; pd_indexes : json; pd_all : json; pd_data : option jframe; pd_active : json }.

(** JR:257-265, _read_profile_data_with_original_format. *)
Definition read_original (d : obj) : res (list pdata) :=
  do td <- read_dataframe d;
  do ed <- d_pop "element_type" (snd td);
  do vd <- d_pop "variable_name" (snd ed);
  let (ixs, d1) := jpop "indexes" (JList []) (snd vd) in
  let (al, d2) := jpop "all_indexes" (JBool false) d1 in
  do act <- read_active d2 (fst td);
  Ok [mkPD (fst ed) (fst vd) ixs al (fst td) act].

(** JR:239-254, _divide_data_per_type: the rows of the sheet per type, the types in order of first
    appearance.  Simplification: a type that is no text counts as the unknown type "". *)
Definition cell_type (r : list json) : res string :=
  match nth_error r 1 with
  | None => Err KeyError
  | Some (JStr s) => Ok s
  | Some _ => Ok ""
  end.
Fixpoint group_add (ty : string) (r : list json) (gs : list (string * list (list json))) : list (string * list (list json)) :=
  match gs with
  | [] => [(ty, [r])]
  | (ty', rs) :: gs' => if String.eqb ty' ty then (ty', rs ++ [r]) :: gs' else (ty', rs) :: group_add ty r gs'
  end.
Definition divide (rows : list (list json)) : res (list (string * list (list json))) :=
  match rows with
  | [] => Err KeyError
  | _ => foldM (fun gs r => do ty <- cell_type r; Ok (group_add ty r gs)) rows []
  end.

(** JR:212-215: the numbers of the components count from one.  Simplification: they are integers. *)
Definition component (r : list json) : res Z :=
  match nth_error r 0 with Some (JInt z) => Ok (z - 1)%Z | Some _ => Err TypeError | None => Err KeyError end.

(** JR:218-236: names of the columns and of the variable; other types keep the defaults. *)
Definition prefix_of (ty : string) : option string :=
  if String.eqb ty "P" then Some "pd_" else if String.eqb ty "Q" then Some "qd_" else None.
Definition variable_of (ty : string) : json :=
  if String.eqb ty "P" then JStr "p_mw" else if String.eqb ty "Q" then JStr "q_mvar" else JStr "".
Definition column_names (ty : string) (ixs : list Z) : list json :=
  match prefix_of ty with Some p => map (fun i => JStr (p ++ str_Z i)%string) ixs | None => [] end.

(** JR:226-229, .T without the first two columns: one row per period. *)
Definition transpose (rows : list (list json)) : list (list json) :=
  map (fun t => map (fun r => nth t r JNull) rows) (seq 2 (List.length (hd [] rows) - 2)).

(** JR:195-216: one profile; the dictionary is the state, because JR:207 pops. *)
Definition attest_profile (d : obj) (g : string * list (list json)) : res (pdata * obj) :=
  do ixs <- mapM component (snd g);
  let names := column_names (fst g) ixs in
  if List.length names =? List.length (snd g) then
    let t := mkJF names (transpose (snd g)) in
    let (act, d') := if present "active_columns_names" d then jpop "active_columns_names" JNull d else (JList names, d) in
    Ok (mkPD (jget "element_type" JNull d) (variable_of (fst g)) (JList (map JInt ixs)) (JBool false) (Some t) act, d')
  else Err ValueError.

(** JR:193-202 and 239-254, _read_profile_data_from_file_with_attest_format. *)
Definition read_attest (d : obj) : res (list pdata) :=
  let (path, d0) := jpop "data_path" JNull d in
  do td <- read_file path d0 false;
  match fst td with
  | None => Err AttributeError
  | Some t =>
    do gs <- divide (jf_rows t);
    do r <- foldM (fun acc g => do pd <- attest_profile (snd acc) g; Ok (fst acc ++ [fst pd], snd pd)) gs ([], snd td);
    Ok (fst r)
  end.

(** JR:185-190, _load_pandapower_profile_data; [None] is Python's None. *)
Definition load_profile (d : obj) : res (option (list pdata)) :=
  match jget "format_data" JNull d with
  | JStr f =>
    if String.eqb f "original" then do ps <- read_original d; Ok (Some ps)
    else if String.eqb f "attest" then
      if present "data_path" d then do ps <- read_attest d; Ok (Some ps) else Ok None
    else Ok None
  | _ => Ok None
  end.

(** JR:406-413, _load_pandapower_profiles_data: [extend(None)] raises TypeError. *)
Definition load_profiles (entries : obj) : res (list pdata) :=
  foldM (fun acc e => do d <- as_obj (snd e); do ps <- load_profile d;
                      match ps with Some l => Ok (acc ++ l) | None => Err TypeError end) entries [].

(** JR:474-495 on one profile; numbers only (simplification: other cells raise TypeError). *)
Definition number (v : json) : res Q :=
  match v with JInt z => Ok (inject_Z z) | JNum q => Ok q | JBool b => Ok (if b then 1 else 0)%Q | _ => Err TypeError end.
Definition adjust_profile (size : nat) (p : pdata) : res pdata :=
  match pd_data p with
  | None => Err AttributeError
  | Some t =>
    if size <? List.length (jf_rows t) then
      do rows <- mapM (mapM number) (jf_rows t);
      do q <- recalculate size (Reader.mkPP (List.length (jf_cols t)) rows);
      Ok (mkPD (pd_element p) (pd_variable p) (pd_indexes p) (pd_all p)
            (Some (mkJF (jf_cols t) (map (map JNum) (pp_rows q)))) (pd_active p))
    else if List.length (jf_rows t) <? size then Err ValueError
    else Ok p
  end.

(** ** Optimisation profiles *)

(** ReaderDataClasses.py:90-94, OptimisationProfileData. *)
Record odata := mkOD { od_element : json; od_variable : json; od_data : option jframe }.

(** JR:268-273, _load_optimisation_profile_data. *)
Definition load_optimisation_profile (d : obj) : res odata :=
  do td <- read_dataframe d;
  do ed <- d_pop "element_type" (snd td);
  do vd <- d_pop "variable_name" (snd ed);
  Ok (mkOD (fst ed) (fst vd) (fst td)).

(** JR:497-501, _extract_optimisation_profiles_data: a fresh dictionary, filled in order. *)
Definition extract_frames (data : list json) : res (@items jframe) :=
  foldM (fun acc p =>
    do d <- as_obj p;
    do gd <- d_pop "group" d;
    match fst gd with
    | JStr g =>
      do dd <- d_pop "data" (snd gd);
      do cd <- d_pop "columns_names" (snd dd);
      do t <- create_frame (fst dd) (fst cd);
      Ok (d_set g t acc)
    | _ => Err TypeError
    end) data [].

(** JR:503-530 is modelled in Reader.v on typed tables (growth_profile); here it is an argument. *)
Variable grow : @items jframe -> res odata.

(** JR:415-434, _load_optimisation_profiles_data on the section [entries]: the profiles, and the
    tables when they are replaced. *)
Definition load_optimisation_profiles (entries : obj) : res (list odata * option (@items jframe)) :=
  let (fmt, es) := jpop "format_data" JNull entries in
  match fmt with
  | JNull => do l <- mapM (fun e => do d <- as_obj (snd e); load_optimisation_profile d) es; Ok (l, None)
  | JStr f =>
    if String.eqb f "attest" then
      match jget "data" JNull es with
      | JNull => Err ValueError
      | JList data => do fr <- extract_frames data; do o <- grow fr; Ok ([o], Some fr)
      | _ => Err AttributeError
      end
    else Err ValueError
  | _ => Err ValueError
  end.

(** ** The whole file *)

(** JR:460-472, OptimisationBinaryVariables: the seven fields. *)
Definition variable_fields : list (string * json) :=
  [("element_type", JNull); ("variable_name", JNull); ("elements_ids", JNull); ("elements_positions", JList []);
   ("costs", JList []); ("installation_time", JList []); ("capacity_to_be_added_MW", JList [])].
Definition fields_of (spec : list (string * json)) (d : obj) : list (string * json) :=
  map (fun kv => (fst kv, jget (fst kv) (snd kv) d)) spec.

(** JR:348-370, _load_problem_settings: the fields with the defaults of a given section. *)
Definition problem_fields : list (string * json) :=
  [("system", JStr ""); ("name", JStr ""); ("multi_objective", JBool false); ("stochastic", JBool false);
   ("inter_temporal", JBool false); ("opf_optimizer", JStr "pandapower"); ("problem_optimizer", JStr "");
   ("opf_type", JStr "ac"); ("return_rate_in_percentage", JNum 0); ("non_anticipative", JBool false)].

(** ReaderDataClasses.py:13-25: the fields when the section is left out, in the order of
    [problem_fields]. *)
Definition class_fields : list (string * json) :=
  [("system", JStr ""); ("name", JStr ""); ("multi_objective", JBool false); ("stochastic", JBool false);
   ("inter_temporal", JBool false); ("opf_optimizer", JStr ""); ("problem_optimizer", JStr "");
   ("opf_type", JStr ""); ("return_rate_in_percentage", JNum 0); ("non_anticipative", JBool false)].

(** The Parameters of a reader (ReaderDataClasses.py:107-129), without output and OPF settings, which are
    copied field by field (JR:435-458). *)
Record params := mkParams {
  pm_problem : option (list (string * json));   (** [None]: not initialised *)
  pm_periods : nat;                             (** date_time_settings.size, 1 by default *)
  pm_mat : option json;                         (** mat_file_path, when initialised *)
  pm_profiles : list pdata;
  pm_optimisation : list odata;
  pm_variables : list (list (string * json));
  pm_frames : @items jframe;
  pm_initialised : bool }.
(** The fields of problem_settings, initialised or not. *)
Definition problem_values (p : params) : list (string * json) :=
  match pm_problem p with Some fs => fs | None => class_fields end.
Definition default_params : params := mkParams None 1 None [] [] [] [] false.

(** JR:387-404: a path whose last character is "m" is converted by _build_mat_file ([build], see
    MatFile.v). *)
Variable build : string -> res unit.
Definition mat_path (v : json) : res json :=
  match v with
  | JStr p =>
    match rev (list_ascii_of_string p) with
    | [] => Err IndexError
    | a :: _ => if Ascii.eqb a "m" then do _ <- build p; Ok (JStr (p ++ "at")) else Ok (JStr p)
    end
  | _ => Err TypeError
  end.

(** pandas.date_range: the number of periods (an oracle), from begin, end and the alias
    time_block ++ "H". *)
Variable periods : json -> json -> json -> res nat.
(** JR:373-385, _load_opf_time_settings. *)
Definition time_settings (v : json) : res nat :=
  match v with
  | JNull => Ok 1
  | _ =>
    do d <- as_obj v;
    do bd <- d_pop "begin" d; do ed <- d_pop "end" (snd bd); do fd <- d_pop "frequency" (snd ed);
    match fst fd with
    | JStr f => if String.eqb f "hourly" then do td <- d_pop "time_block" (snd fd); periods (fst bd) (fst ed) (fst td) else Err KeyError
    | _ => Err KeyError
    end
  end.

(** JR:336-346, _read_data_from_dictionary, on a reader whose parameters are [p]. *)
Definition read_data (settings : obj) (p : params) : res params :=
  do problem <- (match jget "problem" JNull settings with
                 | JNull => Ok None | v => do d <- as_obj v; Ok (Some (fields_of problem_fields d)) end);
  do n <- time_settings (jget "opf_time_settings" JNull settings);
  do mat <- (match jget "pandapower_mpc_settings" JNull settings with
             | JNull => Ok None
             | v => do d <- as_obj v; do md <- d_pop "mat_file_path" d; do m <- mat_path (fst md);
                    do fd <- d_pop "frequency" (snd md); Ok (Some m)
             end);
  do profs <- (match jget "pandapower_profiles_data" JNull settings with
               | JNull => Ok [] | v => do d <- as_obj v; load_profiles d end);
  do opt <- (match jget "optimisation_profiles_data" JNull settings with
             | JNull => Ok ([], None) | v => do d <- as_obj v; load_optimisation_profiles d end);
  do vars <- (match jget "optimisation_binary_variables" (JList []) settings with
              | JList l => mapM (fun v => do d <- as_obj v; Ok (fields_of variable_fields d)) l
              | _ => Err TypeError end);
  do profs' <- mapM (adjust_profile n) profs;
  Ok (mkParams problem n mat profs' (fst opt) (pm_variables p ++ vars)
        (match snd opt with Some fr => fr | None => pm_frames p end) true).

(** RM:6-15, read_parameters: only .json files are read; [load] is open and json.load. *)
Variable load : string -> res json.
Definition read_parameters (path : string) : res params :=
  if String.eqb (extension path) ".json" then
    do v <- load path; do s <- as_obj v; read_data s default_params
  else Ok default_params.
End WithExcel.
