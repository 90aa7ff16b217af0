(** Model of the older screening program: pyensys/Optimisers/screening_model.py (SM').  Its rules are
    those of screening_model_CLI.py (Screening.v) but for the balance of a bus; the loop over years
    and scenarios (SM':743-795) is that of Cases.v. *)
From Coq Require Import List Bool Arith ZArith QArith Qabs.
From Verif Require Import Base GraphData Reader Cases Screening.
Import ListNotations.
Open Scope nat_scope.
Open Scope list_scope.

Section Script.
Variable M : mpc.
Variable A : setup.

(** SM':445-449, nodeBalance_rule: neither reactive nor additional demand. *)
Definition script_balance (pd : list Q) (n k t : nat) : res constr :=
  do z <- at_ (bus_i M) n;
  do _ <- (if existsb (fun b => no_branch M <=? b) (positions z (t_bus M)) then Err KeyError else Ok tt);
  do mu <- at_ (mult A) n;
  do p <- at_ pd n;
  Ok (CEq (EAdd (esum (map (fun g => EV (Pgen g k t)) (positions z (gen_bus M))))
                (esum (map (fun b => EV (Pbra b k t)) (positions z (t_bus M)))))
          (ESub (EAdd (esum (map (fun b => EV (Pbra b k t)) (positions z (f_bus M)))) (EK (mu * p)))
                (EV (Plc n k t)))).

(** SM':466-495, addConstraints, after SM':633-665; the demand is that of SM':588-608. *)
Definition script_constraints : res (list constr) :=
  do _ <- read_parameters M;
  do pieces <- gen_cost M;
  do pd <- demand M (peak_p A) (bus_pd M);
  let nk := List.length (cont A) in
  let nt := no_time A in
  do c1 <- over3 (no_gen M) nk nt (gen_max M A);
  do c2 <- over3 (no_gen M) nk nt (gen_min M A);
  do c3 <- over4 (no_gen M) nk 3 nt (pw_cost pieces);
  do c4 <- over3 (no_branch M) nk nt (dcpf M A);
  do c5 <- over2 nk nt (slack M);
  do c6 <- over3 (no_branch M) nk nt (capacity M A);
  do c7 <- over3 (no_branch M) nk nt (capacity_n M A);
  do c8 <- over3 (no_bus M) nk nt (script_balance pd);
  do c9 <- over3 (no_bus M) nk nt (curtail A pd);
  Ok (c1 ++ c2 ++ c3 ++ c4 ++ c5 ++ c6 ++ c7 ++ c8 ++ c9).

(** An answer of the solver. *)
Definition script_feasible (two_pi : Q) (s : var -> Q) : Prop :=
  in_domain M A two_pi s /\ exists cs, script_constraints = Ok cs /\ Forall (sat s) cs.
End Script.

(** SM':816-865: the arguments written in the program; previous investments and multipliers change
    from run to run.  The contingencies read before are replaced by one without outages.
    Simplification: the reactive and additional demand, which are not arguments here, are zeros. *)
Definition script_setup (M : mpc) (prev mult : list Q) : setup :=
  mkSetup false true 20 1000 [repeat 1%Z (no_branch M)] prev [] (repeat 0%Q (no_bus M)) mult (repeat 0%Q (no_bus M)) 1.

(** SM':870-911, the rest of the program: the sizes of each branch, which are written to the file
    (SM':921-923), and the plans that differ.  The program is run by importing it. *)
Definition script_program {X} (screen : nat -> nat -> list Q -> X -> res (list Q * list Q)) (cat : list Q * list Q) (taps : list Q) (mults : list (list X)) :
  res (list (list Q) * list (list Q)) :=
  do r <- main_screening screen cat taps mults;
  do sizes <- mapM (fun tl => reduce_branch cat (fst tl) (snd tl)) (combine taps (fst r));
  Ok (sizes, dedupe (snd r)).
