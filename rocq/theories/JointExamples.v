(** Settings and answers used in the examples and refutations about the joint model. *)
From Coq Require Import List Bool Arith ZArith QArith Lia.
From Verif Require Import Base GraphData Cases Network InputOutput Linear LinearProofs Devices EnergyTree Joint.
From Verif Require Power PowerExamples Hydro HydroSpec HydroExamples.
Import ListNotations.
Open Scope nat_scope.
Open Scope list_scope.

(** ** Checking an answer given as tables; the other variables are 0. *)

Definition water_eqb (a b : Hydro.var) : bool :=
  match a, b with
  | Hydro.HIn i t, Hydro.HIn j u | Hydro.HOut i t, Hydro.HOut j u | Hydro.HUp i t, Hydro.HUp j u | Hydro.HDown i t, Hydro.HDown j u | Hydro.HSoC i t, Hydro.HSoC j u
  | Hydro.HStor i t, Hydro.HStor j u | Hydro.HFeas i t, Hydro.HFeas j u => (i =? j) && (t =? u)
  | Hydro.HPenalty, Hydro.HPenalty => true
  | _, _ => false
  end.
Definition pour (l : list (Hydro.var * Q)) (v : Hydro.var) : Q := match find (fun p => water_eqb v (fst p)) l with Some p => snd p | None => 0%Q end.
Lemma pour_nonneg l : forallb (fun p => Qle_bool 0 (snd p)) l = true -> forall v, (0 <= pour l v)%Q.
Proof.
  intros H v. unfold pour. destruct (find _ l) as [p|] eqn:F; [|discriminate]. apply find_some in F as [I _]. rewrite forallb_forall in H. apply Qle_bool_iff. now apply H.
Qed.

(** [out]: what leaves the nodes of the tree; [net], [water]: the other variables. *)
Definition joined (out : list (list Q)) (net : list (Power.var * Q)) (water : list (Hydro.var * Q)) (v : var) : Q :=
  match v with JOut n x => nth x (nth n out []) 0%Q | JNet v => PowerExamples.assign net v | JWater v => pour water v end.
(** [states]: for every vector, the states of every node at its begin and at its end. *)
Definition states_of (states : list (list (Q * Q))) (x : nat) : soc :=
  fun n p => match nth_error (nth x states []) n with Some q => match p with O => fst q | _ => snd q end | None => 0%Q end.

Definition feasibleb (weight input output : nat -> Q) (lk : EnergyTree.links) (v : soc) : bool :=
  forallb (fun x1 => Qeq_bool (v 0 x1) 0) [0; 1] &&
  forallb (fun x => let f := nth x (lk_ll1 lk) (0, 0) in Qeq_bool (v x 0) (v (fst f) (snd f) + input x - output x)) (seq 0 (lk_bal lk + 1)) &&
  forallb (fun i => let r := nth i (lk_ll2 lk) (0, (0, 0)) in let x := fst r in let f := nth x (lk_ll1 lk) (0, 0) in
    Qeq_bool (v x 1) (v (fst (snd r)) (snd (snd r)) * weight x + v (fst f) (snd f) * (1 - weight x))) (seq 0 (lk_agg lk + 1)) &&
  ((lk_unc lk =? 0) || forallb (fun i => let r := nth i (lk_ll3 lk) (0, (0, 0)) in let x := fst r in let f := nth x (lk_ll1 lk) (0, 0) in
    Qeq_bool (v x 1%nat) (v (fst f) (snd f) * (1 - weight x) +
     weight x * (v x 0%nat * - inject_Z (Z.of_nat (snd (snd r))) + fold_right Qplus 0%Q (map (fun x1 => v (fst (snd r) + x1)%nat 1%nat) (seq 0 (snd (snd r) + 1)%nat))))) (seq 0 (lk_unc lk + 1))) &&
  forallb (fun x => Qle_bool 0 (v x 0) && Qle_bool 0 (v x 1)) (seq 0 (lk_bal lk + 1)).
Lemma feasibleb_ok weight input output lk v : feasibleb weight input output lk v = true -> feasible weight input output lk v.
Proof.
  unfold feasibleb. intros H. repeat (apply andb_prop in H as [H ?]). rewrite forallb_forall in *. unfold feasible. repeat split.
  - intros x X. apply Qeq_bool_iff. destruct x as [|[|x]]; [exact H|now apply andb_prop in H4 as [H4 _]|lia].
  - intros x X. apply Qeq_bool_iff, (H3 x), in_seq. lia.
  - intros i X. apply Qeq_bool_iff, (H2 i), in_seq. lia.
  - intros N i X. apply orb_prop in H1 as [H1|H1]; [apply Nat.eqb_eq in H1; contradiction|]. rewrite forallb_forall in H1. apply Qeq_bool_iff, (H1 i), in_seq. lia.
  - intros x p X P. specialize (H0 x (proj2 (in_seq _ _ _) (conj (Nat.le_0_l _) X))). apply andb_prop in H0 as [A B]. apply Qle_bool_iff. destruct p as [|[|p]]; [exact A|exact B|lia].
Qed.
Definition satb (s : var -> Q) (c : Linear.constr var) : bool := match c with CLe a b => Qle_bool (eval s a) (eval s b) | CEq a b => Qeq_bool (eval s a) (eval s b) end.
Definition checked (J : settings) (K : joint) (inputs : list (list Q)) (states : list (list (Q * Q))) (out : list (list Q)) (net : list (Power.var * Q)) (water : list (Hydro.var * Q)) : bool :=
  let s := joined out net water in
  forallb (fun x => feasibleb (weight_of K) (input_of inputs x) (fun n => s (JOut n x)) (en_links (q_energy K)) (states_of states x)) (seq 0 (vectors K)) &&
  forallb (forallb (Qle_bool 0)) out &&
  PowerExamples.checked (q_power K) (q_model K) net &&
  forallb (fun p => Qle_bool 0 (snd p)) water &&
  match q_water K with Some Y => HydroExamples.check Y (pour water) | None => true end &&
  match links J K with Ok cs => forallb (satb s) cs | Err _ => false end.
Lemma nth_nonneg l n : forallb (Qle_bool 0) l = true -> (0 <= nth n l 0)%Q.
Proof. revert n. induction l as [|a l IH]; intros [|n] H; cbn in *; try discriminate; apply andb_prop in H as [A B]; [now apply Qle_bool_iff|now apply IH]. Qed.
Lemma check_answer J K inputs states out net water : checked J K inputs states out net water = true -> answer J K inputs (states_of states) (joined out net water).
Proof.
  unfold checked. intros H. repeat (apply andb_prop in H as [H ?]). unfold answer. split; [|split; [|split; [|split]]].
  - intros x X. apply feasibleb_ok. rewrite forallb_forall in H. apply (H x), in_seq. lia.
  - intros n x _ _. cbn [joined]. apply nth_nonneg. destruct (nth_in_or_default n out []) as [I|E]; [|now rewrite E]. rewrite forallb_forall in H4. now apply H4.
  - apply PowerExamples.check_answer. exact H3.
  - destruct (q_water K) as [Y|]; [|now apply pour_nonneg]. apply HydroExamples.check_answer; [|exact H1]. now apply pour_nonneg.
  - destruct (links J K) as [cs|] eqn:E; [|discriminate]. exists cs. split; auto. rewrite forallb_forall in H0. apply Forall_forall. intros c Ic. specialize (H0 c Ic). destruct c; cbn [satb sat] in *; [now apply Qle_bool_iff|now apply Qeq_bool_iff].
Qed.

Definition no_energy : energy := mkEnergy (mkSizes 0 [] 0 0 0 0) (mkTree [] [] [] [] [] [] [] []) (mkLinks 0 0 0 [] [] []) [] [] [].
Definition start (J : settings) : res joint := initialise PowerExamples.no_cf HydroExamples.p53 HydroExamples.rt HydroExamples.p23 J.
Definition model_of (J : settings) : joint :=
  match start J with Ok K => K | Err _ => mkJoint no_energy 0 0 (j_power J) (PowerExamples.model_of (j_power J)) None [] [] [] [] end.

(** Intervals with their weights; the inputs and outputs are not used. *)
Definition intervals (ws : list Q) (unc : bool) : level := mkLevel (List.length ws) ws (Vec []) (Vec []) unc.
(** Plants on one bus with load 1; curtailment is allowed. *)
Definition plants (time : nat) (ps : list plant) (pumps : list Power.pump) (demand : list Q) (weights : option (list Q)) : Power.power :=
  PowerExamples.spot true false time [] PowerExamples.plain_conv [] PowerExamples.plain_hyd ps pumps demand weights.

(** ** Without rivers *)

(** Two seasons, of 1 and 2 weeks, each followed by two equally likely alternatives. *)
Definition seasons : settings := mkSettings [intervals [1; 2]%Q false; intervals [1 # 2; 1 # 2] true] (plants 1 [PowerExamples.hydro 1 10] [] [1; 1; 1; 1]%Q None) None [] [] 1%Q.
(** The plant generates [qs] in the scenarios, in one step of time. *)
Definition generated (qs : list Q) : list (Power.var * Q) := List.concat (map (fun iq => [(Power.NGen (fst iq) 0, snd iq); (Power.NGCost (fst iq) 0, snd iq)]) (combine (seq 0 (List.length qs)) qs)).
Definition seasons_in : list (list Q) := [[0]; [3]; [0]; [0]; [0]; [0]; [0]]%Q.
Definition seasons_states : list (list (Q * Q)) := [[(0, 0); (3, 2); (2, 0); (2, 5 # 2); (2, 5 # 2); (1, 3 # 2); (1, 3 # 2)]]%Q.
Definition seasons_answer : var -> Q := joined [[0]; [0]; [0]; [1]; [1]; [1]; [1]]%Q (generated [1; 1; 1; 1]%Q) [].
Lemma seasons_checked : start seasons = Ok (model_of seasons) /\ answer seasons (model_of seasons) seasons_in (states_of seasons_states) seasons_answer.
Proof. split; [vm_compute; reflexivity|]. apply check_answer. vm_compute. reflexivity. Qed.

(** One season and two alternatives that occur both. *)
Definition twofold : settings := mkSettings [intervals [1%Q] false; intervals [1; 1]%Q true] (plants 1 [PowerExamples.hydro 1 10] [] [1; 1]%Q None) None [] [] 1%Q.
Definition twofold_in : list (list Q) := [[0]; [1]; [0]; [0]]%Q.
Definition twofold_states : list (list (Q * Q)) := [[(0, 0); (1, 0); (0, 0); (0, 0)]]%Q.
Definition twofold_answer : var -> Q := joined [[0]; [0]; [1]; [1]]%Q (generated [1; 1]%Q) [].
Lemma twofold_checked : start twofold = Ok (model_of twofold) /\ answer twofold (model_of twofold) twofold_in (states_of twofold_states) twofold_answer.
Proof. split; [vm_compute; reflexivity|]. apply check_answer. vm_compute. reflexivity. Qed.

(** ** With rivers *)

(** A unit that makes [k] MW of 1 m3/s. *)
Definition unit_at (node : nat) (k : Q) : Hydro.unit_ := Hydro.mkUnit node 1 (k * (100000 # 981))%Q.
Definition basin (rivers : list Hydro.river) (ins outs from to : list nat) (us : list Hydro.unit_) : Hydro.settings :=
  Hydro.mkSettings rivers [] [] ins outs from to us (map (fun _ => 0%Q) us) [] [] 1 1 true 10 1 1 [] [] [] [] [].
(** One scenario. *)
Definition wet (rivers : list Hydro.river) (ins outs from to : list nat) (us : list Hydro.unit_) (time : nat) (load : Q) (pumps : list Power.pump) (lifts : list (Q * Q)) (weights : option (list Q)) : settings :=
  mkSettings [intervals [1%Q] false] (plants time (map (fun _ => PowerExamples.hydro 1 10) us) pumps (repeat load time) weights) (Some (basin rivers ins outs from to us)) lifts [] 1%Q.
(** Flows that do not change: inputs, outputs and rivers. *)
Definition still (J : settings) (ins outs flows : list Q) (time : nat) : list (Hydro.var * Q) :=
  let each (f : nat -> nat -> Hydro.var) (n : nat) (l : list Q) := List.concat (map (fun iq => map (fun t => (f (fst iq) t, snd iq)) (seq 0 n)) (combine (seq 0 (List.length l)) l)) in
  let Y := match q_water (model_of J) with Some Y => Y | None => HydroExamples.no_model end in
  each Hydro.HIn time ins ++ each Hydro.HOut time outs ++ each Hydro.HUp time flows ++ each Hydro.HDown time flows ++
  each Hydro.HSoC (time + 1) (map (fun iq => Qred (HydroExamples.full Y (fst iq) (snd iq))) (combine (seq 0 (List.length flows)) flows)).
(** Constant generation [gs], curtailment and pumping. *)
Definition steady (gs : list Q) (fea : Q) (pumps : list Q) (time : nat) : list (Power.var * Q) :=
  List.concat (map (fun t => (Power.NFea 0 t, fea) :: List.concat (map (fun iq => [(Power.NGen (fst iq) t, snd iq); (Power.NGCost (fst iq) t, snd iq)]) (combine (seq 0 (List.length gs)) gs))
                   ++ map (fun iq => (Power.NPump (S (fst iq)) t, snd iq)) (combine (seq 0 (List.length pumps)) pumps)) (seq 0 time)).
Definition bed a b := HydroExamples.bed a b 1 1.

(** One river with a plant at its end. *)
Definition stream : settings := wet [bed 1 2] [1] [2] [] [] [unit_at 2 1] 2 1%Q [] [] None.
Definition stream_answer : var -> Q := joined [[0]; [4]]%Q (steady [1] 0 [] 2)%Q (still stream [2] [2] [2] 2)%Q.
Lemma stream_checked : start stream = Ok (model_of stream) /\ answer stream (model_of stream) [[0]; [4]]%Q (states_of [[(0, 0); (0, 0)]]%Q) stream_answer.
Proof. split; [vm_compute; reflexivity|]. apply check_answer. vm_compute. reflexivity. Qed.

(** The same with steps of different weight: the water that enters in the first step leaves in the second. *)
Definition uneven : settings := wet [bed 1 2] [1] [2] [] [] [unit_at 2 1] 2 3%Q [] [] (Some [1; 3]%Q).
Definition uneven_answer : var -> Q :=
  joined [[0]; [1516 # 153]]%Q [(Power.NGen 0 0, 445 # 153); (Power.NGCost 0 0, 445 # 153); (Power.NFea 0 0, 14 # 153); (Power.NGen 0 1, 3); (Power.NGCost 0 1, 9)]%Q
    [(Hydro.HIn 0 0, 598 # 153); (Hydro.HIn 0 1, 2); (Hydro.HUp 0 0, 598 # 153); (Hydro.HUp 0 1, 2); (Hydro.HDown 0 0, 445 # 153); (Hydro.HDown 0 1, 3);
     (Hydro.HOut 0 0, 445 # 153); (Hydro.HOut 0 1, 3); (Hydro.HSoC 0 0, 4725 # 34); (Hydro.HSoC 0 1, 5065 # 34); (Hydro.HSoC 0 2, 4725 # 34)]%Q.
Lemma uneven_checked : start uneven = Ok (model_of uneven) /\ answer uneven (model_of uneven) [[0]; [1516 # 153]]%Q (states_of [[(0, 0); (0, 0)]]%Q) uneven_answer.
Proof. split; [vm_compute; reflexivity|]. apply check_answer. vm_compute. reflexivity. Qed.

(** Two rivers; the plant at the end of the first is listed last. *)
Definition crossed : settings := wet [bed 1 3; bed 2 4] [1; 2] [3; 4] [] [] [unit_at 4 2; unit_at 3 1] 1 7%Q [] [] None.
Definition crossed_answer : var -> Q := joined [[0; 0]; [2; 3]]%Q (steady [6; 1] 0 [] 1)%Q (still crossed [1; 3] [1; 3] [1; 3] 1)%Q.
Lemma crossed_checked : start crossed = Ok (model_of crossed) /\ answer crossed (model_of crossed) [[0; 0]; [2; 3]]%Q (states_of [[(0, 0); (0, 0)]; [(0, 0); (0, 0)]]%Q) crossed_answer.
Proof. split; [vm_compute; reflexivity|]. apply check_answer. vm_compute. reflexivity. Qed.

(** A pump with efficiency 1/2 from the end of two rivers to the beginning of the second. *)
Definition lifted : settings := wet [bed 1 2; bed 3 2] [1] [2] [2] [3] [unit_at 2 1] 1 0%Q [Power.mkPump 1 10 0] [((100000 # 981)%Q, (1 # 2)%Q)] None.
Definition lifted_answer : var -> Q := joined [[0]; [2]]%Q (steady [1] 0 [1] 1)%Q (still lifted [2; 2] [4] [2; 2] 1)%Q.
Lemma lifted_checked : start lifted = Ok (model_of lifted) /\ answer lifted (model_of lifted) [[0]; [2]]%Q (states_of [[(0, 0); (0, 0)]]%Q) lifted_answer.
Proof. split; [vm_compute; reflexivity|]. apply check_answer. vm_compute. reflexivity. Qed.

(** A pump from the end of a river to its beginning. *)
Definition round_ : settings := wet [bed 1 2] [1] [2] [2] [1] [unit_at 2 1] 1 0%Q [Power.mkPump 1 10 0] [((100000 # 981)%Q, 1%Q)] None.
Definition round_answer : var -> Q := joined [[0]; [3]]%Q (steady [1] 0 [1] 1)%Q (still round_ [3] [3] [3] 1)%Q.
Lemma round_checked : start round_ = Ok (model_of round_) /\ answer round_ (model_of round_) [[0]; [3]]%Q (states_of [[(0, 0); (0, 0)]]%Q) round_answer.
Proof. split; [vm_compute; reflexivity|]. apply check_answer. vm_compute. reflexivity. Qed.

(** Two plants at the beginning of a river and one at its end. *)
Definition cascade : settings := wet [bed 1 2] [1] [2] [] [] [unit_at 1 1; unit_at 1 1; unit_at 2 1] 1 9%Q [] [] None.
Definition cascade_answer : var -> Q := joined [[0]; [2]]%Q (steady [2; 2; 5] 0 [] 1)%Q (still cascade [2] [2] [2] 1)%Q.
Lemma cascade_checked : start cascade = Ok (model_of cascade) /\ answer cascade (model_of cascade) [[0]; [2]]%Q (states_of [[(0, 0); (0, 0)]]%Q) cascade_answer.
Proof. split; [vm_compute; reflexivity|]. apply check_answer. vm_compute. reflexivity. Qed.

(** Two plants at the end of a river. *)
Definition crowded : settings := wet [bed 1 2] [1] [2] [] [] [unit_at 2 1; unit_at 2 1] 1 9%Q [] [] None.

(** A river that forks, with plants above and at one end and a pump at that end. *)
Definition delta : settings := wet [bed 1 2; bed 1 3] [1] [2; 3] [2] [1] [unit_at 1 1; unit_at 2 1] 2 2%Q [Power.mkPump 1 10 0] [((100000 # 981)%Q, 1%Q)] None.
Definition delta_answer : var -> Q := joined [[0]; [8]]%Q (steady [2; 1] 0 [1] 2)%Q (still delta [4] [2; 2] [2; 2] 2)%Q.
Lemma delta_checked : start delta = Ok (model_of delta) /\ answer delta (model_of delta) [[0]; [8]]%Q (states_of [[(0, 0); (0, 0)]]%Q) delta_answer.
Proof. split; [vm_compute; reflexivity|]. apply check_answer. vm_compute. reflexivity. Qed.

(** One step of weight 2. *)
Definition heavy : settings := mkSettings [intervals [1%Q] false] (plants 1 [PowerExamples.hydro 1 10] [] [1%Q] (Some [2%Q])) None [] [] 1%Q.
Definition heavy_answer : var -> Q := joined [[0]; [2]]%Q [(Power.NGen 0 0, 1); (Power.NGCost 0 0, 2)]%Q [].
Lemma heavy_checked : start heavy = Ok (model_of heavy) /\ answer heavy (model_of heavy) [[0]; [2]]%Q (states_of [[(0, 0); (0, 0)]]%Q) heavy_answer.
Proof. split; [vm_compute; reflexivity|]. apply check_answer. vm_compute. reflexivity. Qed.
(** Two rivers that join above the only plant. *)
Definition joining : settings := wet [bed 1 3; bed 2 3] [1; 2] [3] [] [] [unit_at 3 1] 1 1%Q [] [] None.

(** The settings of the rivers are as they should be. *)
Ltac wet_set n := exists (repeat 1 n); split; [left; split; reflexivity|]; split; [repeat constructor|]; cbv zeta; match goal with |- context [HydroSpec.all_nodes_count ?E ?p] => let k := eval vm_compute in (HydroSpec.all_nodes_count E p) in change (HydroSpec.all_nodes_count E p) with k end;
  repeat match goal with |- _ /\ _ => split end; try discriminate; try (repeat constructor; cbn; try lia; intuition discriminate).
Definition rivers_of (J : settings) : Hydro.settings := match j_water J with Some E => E | None => basin [] [] [] [] [] [] end.
Definition water_of_model (J : settings) : Hydro.hydro := match q_water (model_of J) with Some Y => Y | None => HydroExamples.no_model end.
Lemma stream_set : HydroSpec.well_set (rivers_of stream). Proof. wet_set 1. Qed.
Lemma uneven_set : HydroSpec.well_set (rivers_of uneven). Proof. wet_set 1. Qed.
Lemma crossed_set : HydroSpec.well_set (rivers_of crossed). Proof. wet_set 2. Qed.
Lemma lifted_set : HydroSpec.well_set (rivers_of lifted). Proof. wet_set 2. Qed.
Lemma round_set : HydroSpec.well_set (rivers_of round_). Proof. wet_set 1. Qed.
Lemma crowded_set : HydroSpec.well_set (rivers_of crowded). Proof. wet_set 1. Qed.
Lemma cascade_set : HydroSpec.well_set (rivers_of cascade). Proof. wet_set 1. Qed.
Lemma delta_set : HydroSpec.well_set (rivers_of delta). Proof. wet_set 2. Qed.
Lemma joining_set : HydroSpec.well_set (rivers_of joining). Proof. wet_set 2. Qed.
