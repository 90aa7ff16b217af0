(** Specification vocabulary for the settings reader: sheets in the "attest" format and what the
    profiles read from them must hold. *)
From Coq Require Import List String Bool Arith ZArith QArith.
From Verif Require Import Base Container Settings.
Import ListNotations.
Open Scope string_scope.
Open Scope nat_scope.
Open Scope list_scope.

(** A row of a sheet: number of the component (from one), type, and one value per period. *)
Record srow := mkSR { sr_id : Z; sr_type : string; sr_vals : list json }.
Definition cells (r : srow) : list json := JInt (sr_id r) :: JStr (sr_type r) :: sr_vals r.
Definition of_type (ty : string) (rows : list srow) : list srow := filter (fun r => String.eqb (sr_type r) ty) rows.

(** Active power is "P" with columns pd_<i>, reactive power "Q" with columns qd_<i>, for the
    component [i] counted from zero. *)
Definition kinds : list (string * (string * string)) := [("P", ("p_mw", "pd_")); ("Q", ("q_mvar", "qd_"))].

(** [p] is the profile of type [ty]: one column per row of that type, in order, holding the values
    of the row period by period. *)
Definition profile_of (element : json) (periods : nat) (rows : list srow) (ty : string) (p : pdata) : Prop :=
  exists var pre t, In (ty, (var, pre)) kinds /\ pd_element p = element /\ pd_variable p = JStr var /\
    pd_indexes p = JList (map (fun r => JInt (sr_id r - 1)) (of_type ty rows)) /\
    pd_data p = Some t /\ jf_cols t = map (fun r => JStr (pre ++ str_Z (sr_id r - 1))%string) (of_type ty rows) /\
    List.length (jf_rows t) = periods /\
    (forall j row, nth_error (jf_rows t) j = Some row -> List.length row = List.length (of_type ty rows) /\
       forall k r, nth_error (of_type ty rows) k = Some r -> nth_error row k = nth_error (sr_vals r) j).

(** An entry of the settings that asks for the sheet [name] of the .xlsx file [path] in the "attest"
    format. *)
Definition attest_entry (d : obj) (path : string) (name : json) : Prop :=
  d_get "format_data" d = Some (JStr "attest") /\ d_get "data_path" d = Some (JStr path) /\
  extension path = ".xlsx" /\ d_get "excel_sheet_name" d = Some name /\ name <> JNull.

(** The first read of a reader, and the parameters besides those that accumulate. *)
Definition same_but_history (p q : params) : Prop :=
  pm_problem p = pm_problem q /\ pm_periods p = pm_periods q /\ pm_mat p = pm_mat q /\ pm_profiles p = pm_profiles q /\
  pm_optimisation p = pm_optimisation q /\ pm_initialised p = pm_initialised q.

(** The values that count as false in Python. *)
Definition is_empty (v : json) : Prop :=
  v = JNull \/ v = JBool false \/ v = JInt 0 \/ (exists q, v = JNum q /\ q == 0) \/ v = JStr "" \/ v = JList [] \/ v = JObj [].

(** The settings of the problem and of an investment option, and what they are when left out. *)
Definition problem_defaults : list (string * json) :=
  map (fun k => (k, JBool false)) ["multi_objective"; "stochastic"; "inter_temporal"; "non_anticipative"] ++
  map (fun k => (k, JStr "")) ["system"; "name"; "problem_optimizer"] ++
  [("opf_optimizer", JStr "pandapower"); ("opf_type", JStr "ac"); ("return_rate_in_percentage", JNum 0)].
Definition option_defaults : list (string * json) :=
  map (fun k => (k, JNull)) ["element_type"; "variable_name"; "elements_ids"] ++
  map (fun k => (k, JList [])) ["elements_positions"; "costs"; "installation_time"; "capacity_to_be_added_MW"].
(** [fs] holds every setting of [defaults], as given in [d] or else by default, and no other. *)
Definition settled (defaults d fs : list (string * json)) : Prop :=
  (forall k v, d_get k defaults = Some v -> d_get k fs = Some (match d_get k d with Some v' => v' | None => v end)) /\
  (forall k, d_get k defaults = None -> d_get k fs = None).

(** The profile [q] is [p] with other rows. *)
Definition same_profile (p q : pdata) : Prop :=
  pd_element q = pd_element p /\ pd_variable q = pd_variable p /\ pd_indexes q = pd_indexes p /\ pd_all q = pd_all p /\
  pd_active q = pd_active p /\ option_map jf_cols (pd_data q) = option_map jf_cols (pd_data p).
