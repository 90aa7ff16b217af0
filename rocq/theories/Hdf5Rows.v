(** Model of the tables that the HDF5 writer saves for a model solved by pyomo: saveResultspyomo in
    pyensys/engines/pyeneO.py (PO), lines 671-699.  Simplifications: those of Reports.v and of Hdf5.v. *)
From Coq Require Import List Bool Arith ZArith QArith.
From Verif Require Import Base Joint Reports.
From Verif Require Power.
Import ListNotations.
Open Scope nat_scope.
Open Scope list_scope.

(** The columns of PyeneHDF5Results (PO:329-338). *)
Record saved_row := mkSaved { sr_time : nat; sr_generation : Q; sr_hydropower : Q; sr_res : Q; sr_spill : Q; sr_demand : Q; sr_pump : Q; sr_loss : Q; sr_curtailment : Q }.
(** 'snapshot', times=[xt], scens=[xs] *)
Definition at_step (xs xt : nat) : options := mkOptions (Some [xt]) true (Some [xs]).

Section Rows.
Variables (J : settings) (K : joint) (f : list Q) (s : var -> Q).
(** PO:677-698 *)
Definition save_row (xs xt : nat) : res saved_row :=
  let o := at_step xs xt in
  do g <- all_generation K f s Machines o;
  do h <- all_generation K f s Plants o;
  do r <- all_generation K f s Farms o;
  do w <- all_res K f s o;
  do d <- all_demand J K f None o;
  do p <- all_pumps K f s o;
  do l <- all_loss K f s o;
  do c <- all_curtailment J K f s None o;
  Ok (mkSaved xt g h r w (fst d) p l (fst c)).
(** PO:671-699: scenarios['Number'] is not the number of instances of the network (main.py:722-728 and 749). *)
Definition save_tables : res (list (list saved_row)) :=
  mapM (fun xs => mapM (save_row xs) (seq 0 (Power.w_time (q_power K)))) (seq 0 (Power.w_scen (q_power K))).
End Rows.
