(** Model of the commands of pyensys/cli.py (CL) that run the older engine, the settings that they make, and the changes
    that cases.py (CA) makes to the settings before a run; with DV for pyensys/engines/pyeneD.py and NM for pyeneN.py.

    Simplifications.
    - click itself is not modelled: an option has the value given or its default, and its name in lower case is the key.
    - Capacities and costs are rational numbers, not floats.
    - Settings that no command here changes are left out.
    - What happens after the settings are made is modelled in Devices.v and Power.v for settings of the right types; here
      only the generators and the security cases that follow from them. *)
From Coq Require Import List Bool Arith ZArith QArith String Ascii.
From Verif Require Import Base Cases Network InputOutput Linear Devices Power.
Import ListNotations.
Open Scope nat_scope.
Open Scope list_scope.
Open Scope string_scope.

(** ** Settings *)

(** A setting of units: an array, or a number that took its place (CL:86-87). *)
Inductive entry := Arr (l : list Q) | One (q : Q).
(** hydropower, pumps and RES of NM:72-97; [u_cost] is Value for pumps. *)
Record units := mkUnits { u_number : Z; u_bus : list nat; u_max : entry; u_cost : entry }.
(** The settings that the commands change (NM:20-97, main.py:62-65, pyeneE, pyeneH): hydropower with Baseload, pumps, RES,
    NoDem, NoRES, NoTime, Weights, Security, Losses, Loss, Feasibility, the network file, the file of the tree, the
    solvers and the use of pyeneH. *)
Record conf := mkConf {
  c_hydro : units; c_base : list Q; c_pumps : units; c_res : units; c_no_dem : nat; c_no_res : nat; c_time : Z;
  c_weights : option (list Q); c_sec : list string; c_losses : bool; c_loss : option Q; c_feas : bool; c_file : string; c_tree : string;
  c_pyomo : bool; c_glpk : bool }.
Definition no_units : units := mkUnits 0 [] (Arr []) (Arr []).
(** NM:20-97 and main.py:62-65; the default files are [f] and [t]. *)
Definition default_conf (f t : string) : conf :=
  mkConf no_units [0%Q] no_units no_units 0 0 1 None [] true None true f t false true.

(** np.zeros(n) *)
Definition zeros {A} (zero : A) (n : Z) : res (list A) := if (n <? 0)%Z then Err ValueError else Ok (repeat zero (Z.to_nat n)).
(** CL:30-39 and CL:64-72: arrays of zeros that a loop fills. *)
Definition fill_units (n : Z) (mx cost : Q) : res units :=
  do b <- zeros 0%nat n;
  do m <- zeros 0%Q n;
  do c <- zeros 0%Q n;
  let '(b, m, c) := fold_left (fun s x => let '(b, m, c) := s in (set_nth x (x + 1) b, set_nth x mx m, set_nth x cost c)) (seq 0 (Z.to_nat n)) (b, m, c) in
  Ok (mkUnits n b (Arr m) (Arr c)).
(** CL:79-87: the loop replaces the arrays of capacities and costs. *)
Definition fill_res (n : Z) : res units :=
  do b <- zeros 0%nat n;
  do m <- zeros 0%Q n;
  do c <- zeros 0%Q n;
  let '(b, m, c) := fold_left (fun s x => let '(b, m, c) := s in (set_nth x (x + 1) b, One 0, One 10)) (seq 0 (Z.to_nat n)) (b, Arr m, Arr c) in
  Ok (mkUnits n b m c).

(** ** The group and its profiler *)

(** CL:25-39 *)
Definition group (hydro : Z) (c : conf) : res conf :=
  do u <- fill_units hydro 1000 (1 # 100);
  Ok (mkConf u (c_base c) (c_pumps c) (c_res c) (c_no_dem c) (c_no_res c) (c_time c) (c_weights c) (c_sec c) (c_losses c) (c_loss c) (c_feas c) (c_file c) (c_tree c) (c_pyomo c) (c_glpk c)).
(** CL:20-25: the options that click passes to the group, without hydro; all of them are always there. *)
Definition group_options (init : option bool) (profile : bool) : list (string * option bool) := [("init", init); ("profile", Some profile)].
(** CL:42-46: is the profiler on? *)
Definition profiler (kw : list (string * option bool)) : bool := existsb (fun p => String.eqb (fst p) "profile") kw.

(** ** Options of the commands *)

(** Options of a command; None if the command does not have the option.  [o_sec] is what click makes of the text. *)
Record opts := mkOpts {
  o_pump : option Z; o_res : option Z; o_time : Z; o_sec : option (list string); o_loss : option bool; o_feas : option bool;
  o_network : string; o_linear : option Q; o_pyomo : option bool; o_baseline : option Q }.
(** type=list (CL:151): the characters of the text; the default is the empty list. *)
Definition sec_of (text : option string) : list string :=
  match text with None => [] | Some s => map (fun a => String a EmptyString) (list_ascii_of_string s) end.
(** os.path.join(dirname, 'json', name) *)
Definition in_json (dir name : string) : string := if prefix "/" name then name else dir ++ "/json/" ++ name.
(** CL:50-54, [_update_config_pyeneE] *)
Definition update_e (dir tree : string) (c : conf) : conf :=
  mkConf (c_hydro c) (c_base c) (c_pumps c) (c_res c) (c_no_dem c) (c_no_res c) (c_time c) (c_weights c) (c_sec c) (c_losses c) (c_loss c) (c_feas c) (c_file c) (in_json dir tree) (c_pyomo c) (c_glpk c).
Definition or_else {A} (o : option A) (a : A) : A := match o with Some b => b | None => a end.
(** CL:58-131, [_update_config_pyeneN] *)
Definition update_n (dir : string) (o : opts) (c : conf) : res conf :=
  do p <- fill_units (or_else (o_pump o) 0%Z) 1 (1 # 1000);
  do r <- fill_res (or_else (o_res o) 0%Z);
  let losses := or_else (o_loss o) false in
  let '(losses, loss) :=
    match o_linear o with Some a => if Qle_bool a 0 then (losses, c_loss c) else (false, Some a) | None => (losses, c_loss c) end in
  let '(pyomo, glpk) := match o_pyomo o with Some true => (true, false) | _ => (c_pyomo c, c_glpk c) end in
  let base := match o_baseline o with Some a => [a; a] | None => c_base c end in
  Ok (mkConf (c_hydro c) base p r 2 2 (o_time o) None (or_else (o_sec o) []) losses loss (or_else (o_feas o) true) (in_json dir (o_network o)) (c_tree c) pyomo glpk).

(** ** Settings with which the cases start *)

(** CA:402-415, hydro_example_tobeerased (the second definition, CA:398, replaces the first) *)
Definition example_hydro (c : conf) : conf :=
  mkConf (mkUnits 2 [1; 5] (Arr [200; 200]%Q) (Arr [1 # 1000; 1 # 1000]%Q)) (c_base c) (c_pumps c) (c_res c) (c_no_dem c) (c_no_res c) 24 (Some (repeat 1%Q 24)) (c_sec c) false (c_loss c) true
    (c_file c) (c_tree c) (c_pyomo c) (c_glpk c).
(** CA:300-324, test_pyeneRES: the settings are made, but the class that CA:324 asks for, pe, is defined nowhere. *)
Definition case_res (c : conf) : res conf := Err NameError.
(** CA:42, test_pyeneAC *)
Definition case_ac (c : conf) : conf :=
  mkConf (mkUnits 0 (u_bus (c_hydro c)) (u_max (c_hydro c)) (u_cost (c_hydro c))) (c_base c) (c_pumps c) (c_res c) (c_no_dem c) (c_no_res c) (c_time c) (c_weights c) (c_sec c) (c_losses c) (c_loss c) (c_feas c)
    (c_file c) (c_tree c) (c_pyomo c) (c_glpk c).

(** ** Commands *)

(** What the user may give; None for the default of the command. *)
Record asked := mkAsked {
  a_tree : option string; a_network : option string; a_pump : option Z; a_res : option Z; a_sec : option string; a_loss : option bool; a_feas : option bool;
  a_time : option Z; a_linear : option Q; a_pyomo : option bool; a_baseline : option Q }.
(** CL:147-159 *)
Definition opts_n (a : asked) : opts :=
  mkOpts (Some (or_else (a_pump a) 0%Z)) (Some (or_else (a_res a) 0%Z)) (or_else (a_time a) 1%Z) (Some (sec_of (a_sec a))) (Some (or_else (a_loss a) false)) (Some (or_else (a_feas a) false))
    (or_else (a_network a) "case4.json") (Some (or_else (a_linear a) 0%Q)) None None.
(** CL:172-188 *)
Definition opts_en (a : asked) : opts :=
  mkOpts (Some (or_else (a_pump a) 0%Z)) (Some (or_else (a_res a) 0%Z)) (or_else (a_time a) 24%Z) (Some (sec_of (a_sec a))) (Some (or_else (a_loss a) true)) (Some (or_else (a_feas a) true))
    (or_else (a_network a) "case14_con.json") (Some (or_else (a_linear a) 0%Q)) (Some (or_else (a_pyomo a) false)) None.
(** CL:198-214 and CL:263-279, the same command twice *)
Definition opts_hydro (a : asked) : opts :=
  mkOpts (Some (or_else (a_pump a) 0%Z)) (Some (or_else (a_res a) 0%Z)) (or_else (a_time a) 24%Z) (Some (sec_of (a_sec a))) (Some (or_else (a_loss a) true)) (Some (or_else (a_feas a) true))
    (or_else (a_network a) "case14_con.json") (Some (or_else (a_linear a) 0%Q)) None (Some (or_else (a_baseline a) 0%Q)).
(** CL:224-228 and CL:289-293 *)
Definition opts_ac (a : asked) : opts :=
  mkOpts None None (or_else (a_time a) 24%Z) None None None (or_else (a_network a) "case14_con.json") None None None.
(** CL:238-253 *)
Definition opts_res (a : asked) : opts :=
  mkOpts (Some (or_else (a_pump a) 0%Z)) (Some (or_else (a_res a) 2%Z)) (or_else (a_time a) 24%Z) (Some (sec_of (a_sec a))) (Some (or_else (a_loss a) false)) (Some (or_else (a_feas a) true))
    (or_else (a_network a) "case14_con.json") (Some (or_else (a_linear a) 0%Q)) None None.
Inductive command := RunN | RunEN | RunHydro | RunAC | RunRES.
(** CL:146-300: the settings with which the engine starts; [hydro] is the option of the group. *)
Definition settings (dir : string) (k : command) (hydro : Z) (a : asked) (c : conf) : res conf :=
  do c <- group hydro c;
  match k with
  | RunN => update_n dir (opts_n a) c
  | RunEN => update_n dir (opts_en a) (update_e dir (or_else (a_tree a) "ResolutionTreeMonth01.json") c)
  | RunHydro => do c <- update_n dir (opts_hydro a) (update_e dir (or_else (a_tree a) "TreeMonth01_01RD.json") c); Ok (example_hydro c)
  | RunAC => do c <- update_n dir (opts_ac a) (update_e dir (or_else (a_tree a) "ResolutionTreeMonth01.json") c); Ok (case_ac c)
  | RunRES => do c <- update_n dir (opts_res a) (update_e dir (or_else (a_tree a) "ResolutionTreeMonth01.json") c); case_res c
  end.

(** ** What the engine makes of the settings *)

(** conf['Max'][No] *)
Definition entry_at (e : entry) (no : nat) : res Q := match e with Arr l => at_ l no | One _ => Err TypeError end.
(** DV:175-199 for the plants of the settings; Min, Ramp, Ancillary and RES are those of NM:76-81. *)
Definition hydro_units (c : conf) : res (list gen) :=
  mapM (fun no =>
          do b <- at_ (u_bus (c_hydro c)) no;
          do m <- entry_at (u_max (c_hydro c)) no;
          do k <- entry_at (u_cost (c_hydro c)) no;
          hydro_gen (mkHyd [true] (c_base c) [None] [true]) (no, mkPlant b m 0 k)) (seq 0 (Z.to_nat (u_number (c_hydro c)))).
(** DV:216-226 for the RES generators of the settings. *)
Definition res_units (c : conf) : res (list gen) :=
  mapM (fun no =>
          do b <- at_ (u_bus (c_res c)) no;
          do m <- entry_at (u_max (c_res c)) no;
          do k <- entry_at (u_cost (c_res c)) no;
          Ok (res_gen (mkFarm b m k))) (seq 0 (Z.to_nat (u_number (c_res c)))).
(** NM:1028-1056 with [n] branches; texts in the list of branches are never equal to a number, so they are as 0, which is
    the number of no branch. *)
Definition sec_rows (n : nat) (c : conf) : res unit := check_security n (map (fun _ => 0) (c_sec c)).
