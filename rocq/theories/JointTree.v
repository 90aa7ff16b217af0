(** The energy tree of the joint model, and the weights of its scenarios. *)
From Coq Require Import List Bool Arith ZArith QArith Lia Lqa.
From Verif Require Import Base GraphData GraphDataProofs Cases CasesSpec CasesProofs CasesClusters Network InputOutput InputOutputProofs EnergyTree EnergyTreeSpec EnergyTreeProofs EnergyTreeLinks EnergyTreeSoC EnergyTreeData Joint.
Import ListNotations.
Open Scope nat_scope.
Open Scope list_scope.

Local Ltac sp := repeat match goal with |- _ /\ _ => split end.

(** Data of a level: a name and a weight for each of its intervals, of which there is one. *)
Definition level_named (l : level) : Prop := List.length (lv_weights l) = lv_names l /\ 0 < lv_names l.

Lemma cleared_ok V l : level_named l -> level_ok V (cleared V l).
Proof.
  intros [W N]. unfold level_ok, cleared. cbn [lv_weights lv_names lv_inputs lv_outputs]. assert (S : shaped V (lv_names l) (if lv_names l =? 1 then Vec (repeat 0%Q V) else if V =? 1 then Vec (repeat 0%Q (lv_names l)) else Mat (repeat (repeat 0%Q (lv_names l)) V))).
  { destruct (Nat.eqb_spec (lv_names l) 1) as [E|E]; [|destruct (V =? 1) eqn:E1]; cbn [shaped]; try rewrite E1; rewrite ?repeat_length; auto.
    - destruct (Nat.eqb_spec V 1); lia.
    - split; [lia|]. intros r I. apply repeat_spec in I. subst r. rewrite repeat_length. lia. }
  sp; auto.
Qed.

Lemma cleared_reads V l v c : reads V (lv_inputs (cleared V l)) v c = 0%Q /\ reads V (lv_outputs (cleared V l)) v c = 0%Q.
Proof.
  assert (R : forall n i, nth i (repeat 0%Q n) 0%Q = 0%Q) by (intros n; induction n; intros [|i]; cbn; auto).
  assert (RR : forall n m i j, nth j (nth i (repeat (repeat 0%Q n) m) []) 0%Q = 0%Q).
  { intros n m. induction m as [|m IH]; intros [|i] j; cbn [repeat nth]; auto; destruct j; reflexivity. }
  unfold cleared. cbn [lv_inputs lv_outputs]. destruct (lv_names l =? 1); [|destruct (V =? 1) eqn:E]; unfold reads; try rewrite E; auto. destruct (V =? 1); auto.
Qed.

Section Joint.
Variable V : nat.
Variables (d : level) (data : list level).
Notation all := (d :: data).
Notation lens := (map lv_names all).
Notation unc := (map lv_unc all).
Notation P := (depth lens).
Notation clear := (map (cleared V) all).
Hypothesis ok : Forall level_named all.
Hypothesis certain : lv_unc d = false.

Lemma joint_pos : Forall (fun n => 0 < n) lens.
Proof. apply Forall_map. eapply Forall_impl; [|exact ok]. intros l [_ H]. exact H. Qed.
Lemma joint_depth : P = S (List.length data).
Proof. unfold depth. cbn. now rewrite map_length. Qed.
Lemma clear_names : map lv_names clear = lens.
Proof. now rewrite map_map. Qed.
Lemma clear_unc : map lv_unc clear = unc.
Proof. now rewrite map_map. Qed.
Lemma clear_ok : Forall (level_ok V) clear.
Proof. apply Forall_map. eapply Forall_impl; [|exact ok]. intros l. apply cleared_ok. Qed.

Definition jsz : sizes := sz_of lens V (EnergyTreeSpec.base lens (List.length all)).

Lemma energy_of_spec : exists t, is_tree lens unc t /\
  energy_of V all = Ok (mkEnergy jsz t (links_spec lens t (List.length (marked lens t) - 1))
    (map (in_at clear V t) (seq 0 (EnergyTreeProofs.nodes lens))) (map (out_at clear V t) (seq 0 (EnergyTreeProofs.nodes lens))) (map (weight_at clear t) (seq 0 (EnergyTreeProofs.nodes lens)))).
Proof.
  pose proof joint_pos as pos. assert (D0 : 0 < P) by (rewrite joint_depth; lia). assert (UL : List.length unc = P) by (unfold depth; now rewrite !map_length).
  destruct (connect_spec lens pos V (EnergyTreeSpec.base lens (List.length all)) unc UL D0) as (t & E & T). exists t. split; auto.
  unfold energy_of. rewrite measure_spec. cbn [rbind sz_periods sz_len sz_sum sz_scenarios sz_nodes sz_of]. 
  match goal with |- context [process ?s _] => change s with jsz end. unfold jsz at 1.
  pose proof (process_spec V clear clear_ok) as PS. rewrite clear_names, map_length in PS. rewrite PS. cbn [rbind]. unfold jsz. rewrite E. cbn [rbind].
  pose proof (parameters_spec clear V clear_ok unc t) as PP. rewrite clear_names in PP. rewrite (PP T) by auto. cbn [rbind fst snd].
  rewrite (link_spec lens pos unc UL D0 V _ t T) by (unfold uncertain; exact certain). reflexivity.
Qed.

Section Weights.
Variable t : tree.
Hypothesis T : is_tree lens unc t.
Variable e : energy.
Hypothesis En : e = mkEnergy jsz t (links_spec lens t (List.length (marked lens t) - 1))
    (map (in_at clear V t) (seq 0 (EnergyTreeProofs.nodes lens))) (map (out_at clear V t) (seq 0 (EnergyTreeProofs.nodes lens))) (map (weight_at clear t) (seq 0 (EnergyTreeProofs.nodes lens))).
Notation N := (EnergyTreeProofs.nodes lens).
Notation width := (width lens).
Notation node := (node lens).
Notation off := (off lens).
Notation len := (len lens).
Definition jw (n : nat) : Q := weight_at clear t n.
Notation pw := (path_weight lens jw).

Lemma spread_ok w xn a b q : nth_error w xn = Some q -> xn < a -> a <= b + 1 -> b < List.length w ->
  exists w', spread w xn (a, b) = Ok w' /\ List.length w' = List.length w /\
    forall x v, nth_error w x = Some v -> nth_error w' x = Some (if (a <=? x) && (x <=? b) then v * q else v)%Q.
Proof.
  intros Hq Lt Le Lb. unfold spread. cbn [fst snd]. match goal with |- context [foldM ?f _ _] => destruct (seq_inv f (fun m s => List.length s = List.length w /\ forall x v, nth_error w x = Some v -> nth_error s x = Some (if (a <=? x) && (x <? m) then v * q else v)%Q) a (b + 1 - a) w) as (s & E & L & H) end.
  - split; auto. intros x v Hx. rewrite Hx. destruct (Nat.leb_spec a x); cbn [andb]; auto. destruct (Nat.ltb_spec x a); auto; lia.
  - intros i s [I1 I2] [L H]. assert (exists v, nth_error w i = Some v) as [v Hv]. { destruct (nth_error w i) eqn:E; eauto. apply nth_error_None in E. lia. }
    pose proof (H _ _ Hv) as Hi. destruct (Nat.leb_spec a i); [|lia]. destruct (Nat.ltb_spec i i); [lia|]. cbn [andb] in Hi. pose proof (H _ _ Hq) as Hn. destruct (Nat.leb_spec a xn); [lia|]. cbn [andb] in Hn.
    rewrite (proj2 (at_nth _ _ _) Hi). cbn [rbind]. rewrite (proj2 (at_nth _ _ _) Hn). cbn [rbind]. unfold store. assert (i < List.length s) by (apply nth_error_Some; congruence). rewrite (proj2 (Nat.ltb_lt _ _)) by auto.
    eexists. split; [reflexivity|]. rewrite set_nth_length. split; auto. intros x u Hx. rewrite nth_set_nth. destruct (Nat.eqb_spec i x) as [->|Ne].
    + rewrite Hi. rewrite Hv in Hx. injection Hx as <-. destruct (Nat.leb_spec a x); [|lia]. destruct (Nat.ltb_spec x (x + 1)); [|lia]. reflexivity.
    + rewrite (H _ _ Hx). destruct (a <=? x); cbn [andb]; auto. destruct (Nat.ltb_spec x i), (Nat.ltb_spec x (i + 1)); auto; lia.
  - exists s. sp; auto. intros x v Hx. rewrite (H _ _ Hx). destruct (Nat.leb_spec a x); cbn [andb]; auto. destruct (Nat.ltb_spec x (a + (b + 1 - a))), (Nat.leb_spec x b); auto; lia.
Qed.

(** The weight of a node after the first [m] nodes. *)
Definition known (m k j : nat) : Q :=
  match k with O => 1%Q | S k' => if node k' (j / len k') <? m then pw k j else jw (node k j) end.

Lemma known_child m k j c : c < len k -> known m (k + 1) (j * len k + c) = if node k j <? m then pw (k + 1) (j * len k + c) else jw (node (k + 1) (j * len k + c)).
Proof. intros C. rewrite Nat.add_1_r. cbn [known]. now rewrite (proj1 (child_div lens k j c C)). Qed.

Theorem scenario_weights_spec : exists f, scenario_weights (width P) e = Ok f /\ List.length f = width P /\
  forall j, j < width P -> exists q, nth_error f j = Some q /\ (q == pw P j)%Q.
Proof.
  pose proof joint_pos as pos. assert (D0 : 0 < P) by (rewrite joint_depth; lia). unfold scenario_weights. rewrite En. cbn [en_tree en_links en_weight lk_bal links_spec]. assert (N0 : 0 < N) by (apply off_pos; lia). replace (N - 1 + 1) with N by lia.
  match goal with |- context [foldM ?f _ _] => destruct (seq_inv f (fun m st => List.length (fst (fst st)) = N /\ List.length (snd (fst st)) = width P /\ snd st = m - off P /\
     (forall k j, k <= P -> j < width k -> exists q, nth_error (fst (fst st)) (node k j) = Some q /\ (q == known m k j)%Q) /\
     (forall i, i < snd st -> exists q, nth_error (snd (fst st)) i = Some q /\ (q == pw P i)%Q)) 0 N (map (weight_at clear t) (seq 0 N), repeat 1%Q (width P), 0)) as (st & E & _ & L & Xp & _ & H) end.
  - cbn [fst snd]. rewrite map_length, seq_length, repeat_length. sp; auto; [|lia]. intros k j K J. pose proof (node_nodes lens k j K J) as X. exists (weight_at clear t (node k j)). split.
    + rewrite nth_error_map, (nth_error_nth' _ 0), seq_nth by (rewrite ?seq_length; auto). reflexivity.
    + destruct k as [|k]; cbn [known].
      * cbn in J. replace j with 0 by lia. change (node 0 0) with 0. assert (R : weight_at clear t 0 = 1%Q) by (apply (root_data clear V unc t); [rewrite clear_names; exact T|rewrite clear_names; exact D0]). rewrite R. reflexivity.
      * destruct (Nat.ltb_spec (node k (j / len k)) 0); [lia|reflexivity].
  - intros m [[w f] xp] [_ M] (Lw & Lf & Xp & Hw & Hf). cbn [fst snd] in *. destruct (node_surj lens _ m M) as (k & j & K & J & ->). assert (KP : k <= P) by lia.
    destruct (Hw k j KP J) as (q & Hq & Eq). assert (Ep : (q == pw k j)%Q).
    { rewrite Eq. destruct k as [|k]; [reflexivity|]. cbn [known]. destruct (Nat.ltb_spec (node k (j / len k)) (node (S k) j)) as [_|G]; [reflexivity|]. exfalso. replace (S k) with (k + 1) in * by lia. destruct (child_of lens pos k j ltac:(lia) J) as (i & c & Hi & _ & _ & Dv & _). rewrite Dv in G. unfold EnergyTreeSpec.node in G. rewrite off_S in G. lia. }
    destruct (Nat.eq_dec k P) as [->|Ne].
    + assert (OP : off P <= node P j) by (unfold EnergyTreeSpec.node; lia). rewrite (proj2 (at_nth _ _ _) (it_leaf _ _ _ T j J)). cbn [rbind fst Nat.eqb]. rewrite (proj2 (at_nth _ _ _) Hq). cbn [rbind]. assert (XJ : xp = j) by (unfold EnergyTreeSpec.node in Xp; lia). unfold store. rewrite (proj2 (Nat.ltb_lt _ _)) by lia. cbn [rbind]. eexists. split; [reflexivity|]. cbn [fst snd]. rewrite set_nth_length. sp; auto; [lia| |].
      * intros k' j' K' J'. destruct (Hw k' j' K' J') as (q' & A & B). exists q'. split; auto. rewrite B. destruct k' as [|k']; [reflexivity|]. cbn [known]. replace (S k') with (k' + 1) in * by lia. destruct (child_of lens pos k' j' ltac:(lia) J') as (i & c & Hi & _ & _ & Dv & _). rewrite Dv. assert (O : off (k' + 1) <= off P) by (apply off_le; lia). rewrite off_S in O. assert (LT : node k' i < node P j) by (unfold EnergyTreeSpec.node in *; lia).
        destruct (Nat.ltb_spec (node k' i) (node P j)), (Nat.ltb_spec (node k' i) (node P j + 1)); try lia; reflexivity.
      * intros i I. rewrite nth_set_nth. destruct (Nat.eqb_spec xp i) as [->|Ni].
        -- destruct (nth_error f i) eqn:Z; [|apply nth_error_None in Z; lia]. exists q. split; auto. subst j. exact Ep.
        -- apply Hf. lia.
    + assert (KL : k < P) by lia. rewrite (proj2 (at_nth _ _ _) (it_after _ _ _ T k j KL J)). cbn [rbind]. unfold after_spec. cbn [fst]. pose proof (len_pos lens pos k KL) as LP. pose proof (off_pos lens (k + 1) ltac:(lia)) as OK. assert (NZ : node (k + 1) (j * len k) =? 0 = false) by (apply Nat.eqb_neq; unfold EnergyTreeSpec.node; lia). rewrite NZ.
      assert (LL : j * len k + len k <= width (k + 1)) by (rewrite width_S; nia). pose proof (node_nodes lens (k + 1) (j * len k + len k - 1) ltac:(lia) ltac:(lia)) as NN.
      destruct (spread_ok w (node k j) (node (k + 1) (j * len k)) (node (k + 1) (j * len k + len k) - 1) q Hq) as (w' & Ew & Lw' & Hw').
      { unfold EnergyTreeSpec.node. rewrite off_S. lia. } { unfold EnergyTreeSpec.node. lia. } { rewrite Lw. unfold EnergyTreeSpec.node in *. lia. }
      rewrite Ew. cbn [rbind]. eexists. split; [reflexivity|]. cbn [fst snd]. assert (O1 : off (k + 1) <= off P) by (apply off_le; lia). rewrite off_S in O1. assert (NP : node k j < off P) by (unfold EnergyTreeSpec.node; lia). sp; auto; try lia.
      intros k' j' K' J'. destruct (Hw k' j' K' J') as (q' & A & B). pose proof (Hw' _ _ A) as A'. eexists. split; [exact A'|]. destruct k' as [|k'].
      * destruct (Nat.leb_spec (node (k + 1) (j * len k)) (node 0 j')) as [G|G]; [|cbn [andb]; exact B]. exfalso. assert (j' = 0) by (cbn in J'; lia). unfold EnergyTreeSpec.node in G. change (off 0) with 0 in G. lia.
      * replace (S k') with (k' + 1) in * by lia. destruct (child_of lens pos k' j' ltac:(lia) J') as (i & c & Hi & Hc & Ej & _). subst j'. rewrite known_child in * by auto.
        destruct (Nat.leb_spec (node (k + 1) (j * len k)) (node (k' + 1) (i * len k' + c))) as [G1|G1]; cbn [andb]; [destruct (Nat.leb_spec (node (k' + 1) (i * len k' + c)) (node (k + 1) (j * len k + len k) - 1)) as [G2|G2]|].
        -- set (c' := node (k' + 1) (i * len k' + c) - node (k + 1) (j * len k)) in *.
           assert (E' : node (k' + 1) (i * len k' + c) = node (k + 1) (j * len k + c')) by (unfold c', EnergyTreeSpec.node in *; lia). assert (C' : c' < len k) by (unfold c', EnergyTreeSpec.node in *; lia).
           apply node_inj in E' as [Ek Ej]; auto using child_lt. assert (k' = k) by lia. subst k'. assert (i = j) by (rewrite <- (proj1 (child_div lens k i c Hc)), <- (proj1 (child_div lens k j c' C')), Ej; auto). subst i.
           destruct (Nat.ltb_spec (node k j) (node k j)); [lia|]. destruct (Nat.ltb_spec (node k j) (node k j + 1)); [|lia]. rewrite B, Ep, path_S, (proj1 (child_div lens k j c Hc)). ring.
        -- rewrite B. destruct (Nat.ltb_spec (node k' i) (node k j)) as [X|X], (Nat.ltb_spec (node k' i) (node k j + 1)) as [Y|Y]; try lia; try reflexivity. exfalso. assert (Z : node k' i = node k j) by lia. apply node_inj in Z as [-> ->]; auto. unfold EnergyTreeSpec.node in *. lia.
        -- rewrite B. destruct (Nat.ltb_spec (node k' i) (node k j)) as [X|X], (Nat.ltb_spec (node k' i) (node k j + 1)) as [Y|Y]; try lia; try reflexivity. exfalso. assert (Z : node k' i = node k j) by lia. apply node_inj in Z as [-> ->]; auto. unfold EnergyTreeSpec.node in *. lia.
  - rewrite E. cbn [rbind]. exists (snd (fst st)). sp; auto. intros j J. apply H. rewrite Xp. unfold EnergyTreeProofs.nodes. rewrite off_S. lia.
Qed.
End Weights.
End Joint.
