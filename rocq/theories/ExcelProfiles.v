(** Model of the reader of workbooks, class excel2pyene of pyensys/engines/pyeneI.py (PI): profiles of parameters.
    Simplifications: those of ExcelSheet.v. *)
From Coq Require Import List String Ascii Bool Arith ZArith QArith.
From Verif Require Import Base ExcelSheet.
Import ListNotations.
Open Scope string_scope.
Open Scope nat_scope.
Open Scope list_scope.

(** ** Sheets of profiles *)

(** PI:901-913: one value of a profile.  The dictionary [position_tree] has the keys "1", "2", ... in order and is the list of its
    values. *)
Record profile := mkProf { pr_name : string; pr_tree : list string; pr_hour : cell; pr_id : cell; pr_type : option string;
  pr_subtype : option string; pr_group : option cell; pr_zone : option cell; pr_value : cell }.

(** PI:1324-1339. *)
Definition profile_names : dict :=
  [("type", "type"); ("name", "name"); ("id", "ID"); ("group", "group"); ("zone", "zone");
   ("subtype", "subtype"); ("position tree", "pt"); ("representative day", "pt"); ("pt", "pt")].
(** PI:1852-1854. *)
Definition all_element_names : dict := node_names ++ branch_names ++ generator_names.

(** PI:1844-1850: what is known of the block. *)
Record head := mkHead { hd_type : option string; hd_subtype : option string; hd_tree : list string; hd_name : option string;
  hd_group : option cell; hd_zone : option cell }.
Definition no_head : head := mkHead None None [] None None None.

Definition ostr_is (o : option string) (s : string) : bool := match o with Some t => (t =? s)%string | None => false end.
(** PI:1889-1898: new values of the dictionary replace those with the same keys. *)
Definition put_tree (old new : list string) : list string := new ++ skipn (List.length new) old.
(** What a row at the top of a block does: it [Sets] the block, [Starts] the data or is [Other]. *)
Inductive action := Sets (h : head) | Starts | Other.
(** [isinstance(v, str) and v.lower() == s] *)
Definition reads (v : option cell) (s : string) : bool := match v with Some (CStr t) => (lower t =? s)%string | _ => false end.
(** PI:1856-1917, 1938-1940: [next] is the row below. *)
Definition head_row (h : head) (row next : list (option cell)) : res action :=
  match in_row row 1 with
  | Some (CStr s) =>
      let s := lower (plain s) in
      let key := dget profile_names s in
      let v2 := in_row row 2 in
      if ostr_is key "type" then
        Ok (Sets (match v2 with
                  | Some (CStr t) => if member ["bus"; "branch"; "generator"] (lower t) then mkHead (Some (lower t)) (hd_subtype h) (hd_tree h) (hd_name h) (hd_group h) (hd_zone h) else h
                  | _ => h
                  end))
      else if (ostr_is (hd_type h) "branch" || ostr_is (hd_type h) "generator") && ostr_is key "subtype" then
        match v2 with
        | Some (CStr t) => Ok (Sets (mkHead (hd_type h) (Some (lower t)) (hd_tree h) (hd_name h) (hd_group h) (hd_zone h)))
        | _ => Err AttributeError
        end
      else if ostr_is (hd_type h) "bus" && ostr_is key "subtype" && (match v2 with Some _ => true | None => false end) then Ok (Sets h)
      else if ostr_is key "pt" then
        do new <- mapM low (across row 2);
        Ok (Sets (mkHead (hd_type h) (hd_subtype h) (put_tree (hd_tree h) new) (hd_name h) (hd_group h) (hd_zone h)))
      else if ostr_is key "name" then
        Ok (Sets (match v2 with
                  | Some (CStr t) => match dget all_element_names (lower t) with
                                     | Some n => mkHead (hd_type h) (hd_subtype h) (hd_tree h) (Some n) (hd_group h) (hd_zone h)
                                     | None => h
                                     end
                  | _ => h
                  end))
      else if ostr_is key "group" then
        Ok (Sets (match v2 with Some g => mkHead (hd_type h) (hd_subtype h) (hd_tree h) (hd_name h) (Some g) (hd_zone h) | None => h end))
      else if ostr_is key "zone" then
        Ok (Sets (match v2 with Some z => mkHead (hd_type h) (hd_subtype h) (hd_tree h) (hd_name h) (hd_group h) (Some z) | None => h end))
      else if (s =? "dataset")%string && reads v2 "hour" && reads (in_row next 1) "id" then Ok Starts
      else Ok Other
  | _ => Ok Other
  end.
(** PI:1922-1936: the values of one element; an hour with no name is the number of the value. *)
Fixpoint data_cells (h : head) (name : string) (id : cell) (hours : list (option cell)) (t : nat) (vs : list cell) : list profile :=
  match vs with
  | [] => []
  | v :: r =>
      mkProf name (hd_tree h) (match in_row hours (t + 2) with Some c => c | None => CInt (Z.of_nat t) end) id (hd_type h) (hd_subtype h) (hd_group h) (hd_zone h) v
      :: data_cells h name id hours (S t) r
  end.
(** PI:1856-1940: at the top of a block ([Top], with the number of rows that say nothing), at the row of the hours, or in the data.
    A row that ends the data is looked at again with no tries made. *)
Inductive pmode := Top (tries : nat) | AtHours | InData (hours : list (option cell)).
Fixpoint profile_rows (rows : sheet) (m : pmode) (h : head) (acc : list profile) : res (list profile) :=
  match rows with
  | [] => Ok acc
  | row :: rest =>
      let top tries h := if tries <? 20 then
          do a <- head_row h row (nth 0 rest []);
          match a with
          | Sets h' => profile_rows rest (Top tries) h' acc
          | Starts => profile_rows rest AtHours h acc
          | Other => profile_rows rest (Top (S tries)) h acc
          end else Ok acc in
      match m with
      | Top tries => top tries h
      | AtHours => profile_rows rest (InData row) h acc
      | InData hours =>
          match in_row row 1, hd_name h with
          | Some id, Some n => profile_rows rest m h (acc ++ data_cells h n id hours 0 (across row 2))
          | _, _ => top 0 no_head
          end
      end
  end.
(** PI:1832-1940. *)
Definition read_profile (acc : list profile) (sh : sheet) : res (list profile) := profile_rows (skipn 1 sh) (Top 0) no_head acc.

(** ** Profiles and parameters *)

(** [s in t] for strings. *)
Fixpoint occurs (s t : string) : bool := String.prefix s t || match t with EmptyString => false | String _ r => occurs s r end.
(** [v in x]: strings have only strings in them. *)
Definition isin (v : cell) (x : cval) : res bool :=
  match x with
  | VList l => Ok (existsb (cell_eqb v) l)
  | VCell (CStr t) => match v with CStr s => Ok (occurs s t) | _ => Err TypeError end
  | VCell _ => Err TypeError
  end.
(** [a == b] for values of characteristics: a list is no cell. *)
Fixpoint cells_eqb (a b : list cell) : bool := match a, b with [], [] => true | x :: a', y :: b' => cell_eqb x y && cells_eqb a' b' | _, _ => false end.
Definition cval_eqb (a b : cval) : bool :=
  match a, b with VCell x, VCell y => cell_eqb x y | VList x, VList y => cells_eqb x y | _, _ => false end.
Definition get (i : info) (n : string) : cval := get_char (in_chars i) n.
Definition has (i : info) (n : string) : bool := has_char (in_chars i) n.
Definition is_cell (x : cval) (v : cell) : bool := cval_eqb x (VCell v).

(** PI:2230-2236: whether the parameter stays when profiles of such a subtype, group or zone are looked at. *)
Definition stays (n : string) (o : option cell) (i : info) : res bool :=
  match o with
  | None => Ok true
  | Some v => if has i n then do b <- isin v (get i n); Ok (b && negb (has i "pt") && negb (has i "hour")) else Ok true
  end.
(** PI:2248-2259: the parameters of a profile of all elements; the tests are made one after the other. *)
Definition selected (p : profile) (i : info) : res bool :=
  if is_cell (get i "name") (CStr (pr_name p)) then
    do a <- stays "subtype" (option_map CStr (pr_subtype p)) i;
    if a then do b <- stays "group" (pr_group p) i; if b then stays "zone" (pr_zone p) i else Ok false else Ok false
  else Ok false.
Fixpoint filterM {A} (f : A -> res bool) (l : list A) : res (list A) :=
  match l with [] => Ok [] | a :: r => do b <- f a; do s <- filterM f r; Ok (if b then a :: s else s) end.
(** PI:2271-2281: the parameter of an element. *)
Definition named (p : profile) (i : info) : bool := is_cell (get i "ID") (pr_id p) && is_cell (get i "name") (CStr (pr_name p)).
Fixpoint delete_first {A} (f : A -> bool) (l : list A) : option (list A) :=
  match l with [] => None | a :: r => if f a then Some r else option_map (cons a) (delete_first f r) end.
Definition for_all (p : profile) : bool := cell_eqb (pr_id p) (CStr "all").
(** PI:2238-2270: the parameters, None if the element has none. *)
Definition extract (p : profile) (l : list info) : res (option (list info)) :=
  if for_all p then do s <- filterM (selected p) l; Ok (Some s)
  else Ok (option_map (fun i => [i]) (find (named p) l)).
(** PI:2265-2285: the other parameters; those with a day or an hour are left. *)
Definition delete (p : profile) (l : list info) : res (list info) :=
  if for_all p then filterM (fun i => do b <- selected p i; Ok (negb (b && negb (has i "pt") && negb (has i "hour")))) l
  else match delete_first (named p) l with Some r => Ok r | None => Err ValueError end.

(** PI:2287-2303: profiles of the same type, subtype, name and ID. *)
Definition together (p q : profile) : bool :=
  ostr_eqb (pr_type p) (pr_type q) && ostr_eqb (pr_subtype p) (pr_subtype q) && (pr_name p =? pr_name q)%string && cell_eqb (pr_id p) (pr_id q).
(** PI:2315-2338: the parameters found, where the day of a parameter (a list) is compared with that of the profile (a dictionary),
    which gives False; the warning asks for a field that is not there, and for a subtype the last parameter of all is removed. *)
Definition there (p : profile) (i : info) : bool :=
  is_cell (get i "name") (CStr (pr_name p)) && negb (has i "pt") && has i "hour" && is_cell (get i "hour") (pr_hour p).
Definition existing (p : profile) (l : list info) : res (bool * list info) :=
  match filter (there p) l, pr_subtype p with
  | [], _ => Ok (false, l)
  | _, None => Err AttributeError
  | found, Some s =>
      do r <- filterM (fun i => isin (CStr s) (get i "subtype")) found;
      match r with [] => Ok (false, l) | _ => Ok (true, removelast l) end
  end.

(** [a * b] in Python: numbers, or a string that is repeated. *)
Fixpoint repeat_str (n : nat) (s : string) : string := match n with O => "" | S k => (s ++ repeat_str k s)%string end.
Definition whole (v : cell) : option Z := match v with CInt z => Some z | CBool b => Some (if b then 1 else 0)%Z | _ => None end.
Definition times (a b : cell) : res cell :=
  match a, b with
  | CStr s, _ => match whole b with Some z => Ok (CStr (repeat_str (Z.to_nat z) s)) | None => Err TypeError end
  | _, CStr s => match whole a with Some z => Ok (CStr (repeat_str (Z.to_nat z) s)) | None => Err TypeError end
  | _, _ => match whole a, whole b with
            | Some x, Some y => Ok (CInt (x * y))
            | _, _ => match number a, number b with Some x, Some y => Ok (CNum (x * y)%Q) | _, _ => Err TypeError end
            end
  end.
(** PI:2362-2373: a parameter with one value of a profile. *)
Definition profiled (i : info) (p : profile) : res info :=
  do v <- times (in_value i) (pr_value p);
  Ok (mkInfo (in_chars i ++ [mkChar "pt" (VList (map CStr (pr_tree p))) "v_string"; mkChar "hour" (VCell (pr_hour p)) "double"]) v (in_type i)).
Definition concatM {A B} (f : A -> res (list B)) (l : list A) : res (list B) := do r <- mapM f l; Ok (List.concat r).

(** [model.data.data]: the parameters by the type of the element. *)
Definition store := list (string * list info).
Definition sget (d : store) (t : option string) : res (list info) :=
  match t with
  | Some s => match find (fun e => (fst e =? s)%string) d with Some e => Ok (snd e) | None => Err KeyError end
  | None => Err KeyError
  end.
Fixpoint sput (d : store) (s : string) (l : list info) : store :=
  match d with [] => [(s, l)] | e :: r => if (fst e =? s)%string then (s, l) :: r else e :: sput r s l end.
(** PI:2353-2391: the first profile and those that belong to it.  [net] is the copy of the parameters made before. *)
Definition correlate_step (net d : store) (p : profile) (profs : list profile) : res store :=
  do base <- sget net (pr_type p);
  do params <- extract p base;
  do l <- sget d (pr_type p);
  do el <- existing p l;
  do l' <- (if fst el then Ok (snd el) else delete p (snd el));
  match params with
  | None => Err AttributeError
  | Some ps => do new <- concatM (fun i => mapM (profiled i) profs) ps;
               Ok (match pr_type p with Some t => sput d t (l' ++ new) | None => d end)
  end.
(** PI:2352-2391: [n] bounds the number of rounds, each of which takes at least the first profile. *)
Fixpoint correlate (n : nat) (net d : store) (ps : list profile) : res store :=
  match ps with
  | [] => Ok d
  | p :: _ => match n with
              | O => Err OutOfFuel
              | S k => do d' <- correlate_step net d p (filter (together p) ps); correlate k net d' (filter (fun q => negb (together p q)) ps)
              end
  end.
(** PI:2349-2351. *)
Definition wanted (opts : list mopt) : bool := existsb (fun o => ostr_is (mo_name o) "representative periods" && truthy (mo_value o)) opts.
(** PI:2340-2391: profiles are used if the option asks for it. *)
Definition use_profiles (opts : list mopt) (d : store) (ps : list profile) : res store :=
  if wanted opts then correlate (List.length ps) d d ps else Ok d.
