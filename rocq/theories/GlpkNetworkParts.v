(** The commands of the optimal power flow as parts with names that differ and places that exist. *)
From Coq Require Import List String Bool Arith ZArith QArith Lia Lqa.
From Verif Require Import Base Cases GraphData GraphDataProofs HydroTables Glpk GlpkSpec GlpkProofs GlpkEnergy GlpkRows GlpkParts GlpkNetwork GlpkNetworkSpec.
Import ListNotations.
Open Scope nat_scope.
Open Scope list_scope.
Local Ltac sp := repeat match goal with |- _ /\ _ => split end.

(** ** Lists with positions *)

Lemma enum_from {A} (l : list A) : forall s n a, In (n, a) (combine (seq s (List.length l)) l) <-> s <= n /\ nth_error l (n - s) = Some a.
Proof.
  induction l as [|b l IH]; intros s n a; cbn [List.length seq combine].
  - split; [intros []|]. intros (_ & H). destruct (n - s); discriminate H.
  - cbn [In]. rewrite IH. split.
    + intros [E|(L & E)].
      * injection E as <- <-. split; [lia|]. now rewrite Nat.sub_diag.
      * split; [lia|]. replace (n - s) with (Datatypes.S (n - Datatypes.S s)) by lia. exact E.
    + intros (L & E). destruct (Nat.eq_dec s n) as [<-|N].
      * left. rewrite Nat.sub_diag in E. cbn in E. congruence.
      * right. split; [lia|]. replace (n - s) with (Datatypes.S (n - Datatypes.S s)) in E by lia. exact E.
Qed.
Lemma in_enum {A} (l : list A) n a : In (n, a) (enum l) <-> nth_error l n = Some a.
Proof. unfold enum. rewrite enum_from, Nat.sub_0_r. split; [tauto|]. intros E. split; [lia|exact E]. Qed.
Lemma in_enum' {A} (l : list A) p : In p (enum l) <-> nth_error l (fst p) = Some (snd p).
Proof. destruct p. apply in_enum. Qed.
Lemma enum_fst {A} (l : list A) : map fst (enum l) = seq 0 (List.length l).
Proof. unfold enum. generalize 0. induction l as [|a l IH]; intros s; [reflexivity|]. cbn [List.length seq combine map fst]. now rewrite IH. Qed.
Lemma enum_snd {A} (l : list A) : map snd (enum l) = l.
Proof. unfold enum. generalize 0. induction l as [|a l IH]; intros s; [reflexivity|]. cbn [List.length seq combine map snd]. now rewrite IH. Qed.
Lemma enum_nodup {A} (l : list A) : NoDup (map fst (enum l)).
Proof. rewrite enum_fst. apply seq_NoDup. Qed.
Lemma enum_NoDup {A} (l : list A) : NoDup (enum l).
Proof. eapply NoDup_map_inv. apply enum_nodup. Qed.
Lemma enum_lt {A} (l : list A) n a : nth_error l n = Some a -> n < List.length l.
Proof. intros E. apply nth_error_Some. congruence. Qed.
(** The places of a block, one for every element. *)
Lemma NoDup_places {A B} (f : nat * A -> B) (n : name) (l : list A) : NoDup (map fst (map (fun u => ((n, fst u), f u)) (enum l))).
Proof. rewrite map_map. cbn [fst]. rewrite <- (map_map fst (fun o => (n, o))). apply NoDup_map_in; [apply enum_nodup|]. intros a b _ _ E. now injection E. Qed.
Lemma NoDup_some {A B} (f : nat * A -> list (place * B)) (n : name) (l : list A) : (forall u q, In q (f u) -> fst q = (n, fst u)) -> (forall u, NoDup (map fst (f u))) -> NoDup (map fst (flat_map f (enum l))).
Proof.
  intros H N. rewrite map_flat. apply (NoDup_keyed (snd : place -> nat) fst).
  - apply enum_NoDup.
  - intros a b Ia Ib E. apply in_enum' in Ia, Ib. destruct a as [x y], b as [x' y']. cbn in *. subst. congruence.
  - intros a _. apply N.
  - intros a q _ I. apply in_map_iff in I as (t & <- & I). now rewrite (H a t I).
Qed.

Lemma in_periods m i j : In (i, j) (periods m) <-> i < nm_days m /\ j < nm_times m.
Proof. unfold periods. rewrite in_prod_iff, !in_seq. lia. Qed.
Lemma in_instances m i j k : In (i, j, k) (instances m) <-> (i < nm_days m /\ j < nm_times m) /\ k < cases m.
Proof. unfold instances. rewrite in_prod_iff, in_periods, in_seq. lia. Qed.
Lemma NoDup_prod {A B} (l : list A) (l' : list B) : NoDup l -> NoDup l' -> NoDup (list_prod l l').
Proof.
  intros N N'. induction l as [|a l IH]; [constructor|]. inversion N as [|? ? N1 N2]; subst. cbn [list_prod]. apply NoDup_app'; [|now apply IH|].
  - apply NoDup_map_in; auto. intros x y _ _ E. now injection E.
  - intros p I J. apply in_map_iff in I as (y & <- & _). apply in_prod_iff in J as (J & _). contradiction.
Qed.
Lemma NoDup_periods m : NoDup (periods m).
Proof. apply NoDup_prod; apply seq_NoDup. Qed.
Lemma NoDup_instances m : NoDup (instances m).
Proof. apply NoDup_prod; [apply NoDup_periods|apply seq_NoDup]. Qed.
Lemma NoDup_kinds : NoDup kinds.
Proof. repeat constructor; cbn; intuition discriminate. Qed.
Lemma in_kinds k : In k kinds.
Proof. destruct k; cbn; auto. Qed.

(** ** The balance of buses as rows *)

Definition prev_terms (m : nm) (i j : nat) : list (place * Q) := [((store_name i (j - 1), 0), (- nth 0 (nm_stores m) 0 / nm_hours m (j - 1))%Q)].
Definition bus_terms (m : nm) (i j k n : nat) (b : bus) : list (place * Q) :=
  gen_terms m i j b ++ (if stored m j then store_terms m i j ++ prev_terms m i j else []) ++
  pump_terms m i j ++ flow_terms m i j k b ++ loss_terms m i j k b ++ curtail_terms m i j k n.
Definition bus_spec (m : nm) (i j k : nat) (b : nat * bus) : list rowspec :=
  if bs_type (snd b) =? 4 then [] else [((node_row i j k, fst b), bus_terms m i j k (fst b) (snd b), Fixed (resource m i j (fst b) (snd b)))].
Definition node_specs (m : nm) (p : nat * nat * nat) : list rowspec := let '(i, j, k) := p in flat_map (bus_spec m i j k) (enum (nm_buses m)).

Lemma row_cmds_app p a b l : map (row_entry p) a ++ row_cmds (p, b, l) = row_cmds (p, a ++ b, l).
Proof. unfold row_cmds, rs_place, rs_terms, rs_bnd. cbn [fst snd]. now rewrite map_app, app_assoc. Qed.

Lemma stored_cases m j : usable m -> j < nm_times m -> stored m j = true -> 0 < j /\ List.length (nm_stores m) = 1 /\ nm_conts m = 0.
Proof.
  intros U L E. unfold stored in E. apply andb_true_iff in E as (E1 & E2). apply Nat.ltb_lt in E1, E2. split; [exact E2|]. destruct (us_stores m U) as [X|[X|X]]; [rewrite X in E1; cbn in E1; lia|lia|exact X].
Qed.
Lemma buses_specs m i j k l : usable m -> In (i, j, k) (instances m) -> buses_cmds m i j k l = flat_map row_cmds (flat_map (bus_spec m i j k) l).
Proof.
  intros U I. apply in_instances in I as ((Hi & Hj) & Hk). induction l as [|(n & b) l IH]; [reflexivity|]. cbn [buses_cmds flat_map]. rewrite flat_map_app.
  assert (X : bus_cmds m i j k n b = (flat_map row_cmds (bus_spec m i j k (n, b)), k)).
  { unfold bus_cmds, bus_spec. cbn [fst snd]. destruct (bs_type b =? 4); [reflexivity|]. cbn [flat_map]. rewrite app_nil_r. unfold bus_terms. destruct (stored m j) eqn:E.
    - destruct (stored_cases m j U Hj E) as (J0 & L1 & C0). assert (k = 0) by (unfold cases in Hk; lia). subst k. rewrite L1. cbn [Nat.sub]. f_equal. unfold stale_terms. rewrite L1. cbn [seq map Nat.sub]. rewrite map_app, <- !row_cmds_app. rewrite <- !app_assoc. f_equal.
      rewrite map_app, <- app_assoc. reflexivity.
    - f_equal. rewrite !app_nil_r. cbn [List.app]. now rewrite row_cmds_app. }
  rewrite X. cbn [fst snd]. now rewrite IH.
Qed.
Lemma node_parts m : usable m -> node_balance m = Ok (add_rows (node_rows m) ++ flat_map row_cmds (flat_map (node_specs m) (instances m))).
Proof.
  intros U. unfold node_balance. replace (existsb (fun p => stored m (snd p)) (periods m) && existsb (fun b => negb (bs_type b =? 4)) (nm_buses m) && (cases m <? List.length (nm_stores m))) with false.
  - f_equal. f_equal. assert (G : forall L, incl L (instances m) -> flat_map (fun p => buses_cmds m (fst (fst p)) (snd (fst p)) (snd p) (enum (nm_buses m))) L = flat_map row_cmds (flat_map (node_specs m) L)).
    { induction L as [|((i & j) & k) L IH]; intros I; [reflexivity|]. cbn [flat_map fst snd]. rewrite flat_map_app, IH by (intros a Ha; apply I; now right). f_equal. unfold node_specs. apply buses_specs; auto. apply I. now left. }
    apply G. intros a Ha. exact Ha.
  - symmetry. destruct (existsb (fun p => stored m (snd p)) (periods m)) eqn:E; [|reflexivity]. apply existsb_exists in E as ((i & j) & I & E). apply in_periods in I as (_ & Hj). destruct (stored_cases m j U Hj E) as (_ & L1 & C0). rewrite L1. unfold cases. replace (nm_conts m + 1 <? 1) with false by (symmetry; apply Nat.ltb_ge; lia). now rewrite andb_false_r.
Qed.

(** ** The parts *)

Definition loss_part (m : nm) (f : nat -> nat -> nat -> nat -> name) (sign : Q) : part :=
  match nm_losses m with
  | None => mkPart [] [] [] []
  | Some c => mkPart [] [] (flat_map (loss_rows m f c) (instances m)) (flat_map (loss_specs m f sign c) (instances m))
  end.
Definition vars_parts (m : nm) : list part :=
  [mkPart (flat_map (common_cols m) (periods m)) (flat_map (common_bounds m) (periods m)) [] []; mkPart (flat_map (opf_cols m) (instances m)) (flat_map (opf_bounds m) (instances m)) [] []].
Definition piece_part (m : nm) : part := mkPart [] [] (flat_map (piece_rows m) (periods m)) (flat_map (piece_specs m) (periods m)).
Definition net_parts (m : nm) : list part :=
  [mkPart [] [] (node_rows m) (flat_map (node_specs m) (instances m)); mkPart [] [] (line_rows m) (flat_map (line_specs m) (instances m)); loss_part m loss1_row (- (1)); loss_part m loss2_row 1].
Definition opf_parts (m : nm) : list part := vars_parts m ++ [piece_part m] ++ net_parts m.
Definition opf_objs (m : nm) : list (place * Q) := flat_map (common_costs m (fun _ => 1%Q) 100000000) (periods m).

Lemma part_cols a b : part_cmds (mkPart a b [] []) = add_cols a ++ map col_cmd b.
Proof. unfold part_cmds. cbn [pt_cols pt_cb pt_rows pt_sp add_rows map flat_map]. now rewrite !app_nil_r. Qed.
Lemma part_rows a b : part_cmds (mkPart [] [] a b) = add_rows a ++ flat_map row_cmds b.
Proof. reflexivity. Qed.
Lemma loss_parts m : part_cmds (loss_part m loss1_row (- (1))) ++ part_cmds (loss_part m loss2_row 1) = losses_cmds m.
Proof. unfold loss_part, losses_cmds. destruct (nm_losses m); [|reflexivity]. now rewrite !part_rows, <- app_assoc. Qed.
Lemma definition_parts m : usable m -> definition_opf m = Ok (flat_map part_cmds (opf_parts m) ++ Load :: map obj_cmd (opf_objs m)).
Proof.
  intros U. unfold definition_opf. rewrite (node_parts m U), bind_ok. f_equal. unfold opf_parts, vars_parts, net_parts, piece_part. cbn [flat_map List.app]. rewrite !part_cols, !part_rows, app_nil_r, loss_parts.
  unfold variables_opf, variables_common, piecewise, line_flows, objective_nm, opf_objs. now rewrite <- !app_assoc.
Qed.
