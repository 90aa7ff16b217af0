(** The tables of the network and of the generators. *)
From Coq Require Import List Bool Arith ZArith QArith Lia Lqa.
From Verif Require Import Base ReaderProofs GraphData GraphDataProofs Cases CasesProofs Network InputOutput InputOutputProofs ConverterOpen HydroSpec HydroTables HydroNet ScreeningProofs Linear LinearProofs Devices Power PowerSpec.
Import ListNotations.
Open Scope nat_scope.
Open Scope list_scope.
Local Ltac sp := repeat match goal with |- _ /\ _ => split end.

(** ** Buses *)

Lemma find_bus_first numbers b : forall i, find_bus numbers b = Ok i <-> first_at numbers b i = true.
Proof.
  unfold first_at. induction numbers as [|x r IH]; intros i; cbn [find_bus].
  - destruct i; cbn; split; discriminate.
  - destruct (Nat.eqb_spec x b) as [->|N].
    + split; [intros [= <-]; cbn; now rewrite Nat.eqb_refl|]. destruct i; [reflexivity|]. cbn [nth_error firstn existsb]. rewrite Nat.eqb_refl. cbn. destruct (nth_error r i); [rewrite andb_false_r|]; discriminate.
    + destruct i as [|i]; cbn [nth_error firstn existsb].
      * destruct (Nat.eqb_spec x b); [contradiction|]. cbn. destruct (find_bus r b); cbn; split; discriminate.
      * assert (B : (b =? x) = false) by (apply Nat.eqb_neq; congruence). rewrite B. cbn [orb]. rewrite <- IH. destruct (find_bus r b) as [j|]; cbn; split; try discriminate; intros [= <-]; reflexivity.
Qed.
Lemma find_bus_total numbers b : (exists i, find_bus numbers b = Ok i) <-> In b numbers.
Proof.
  induction numbers as [|x r IH]; cbn [find_bus In]; [split; [intros (i & E); discriminate|tauto]|]. destruct (Nat.eqb_spec x b) as [->|N]; [split; eauto|].
  rewrite <- (or_iff_compat_l _ IH). split; [intros (i & E); apply bind_inv in E as (j & E & _); eauto|]. intros [->|(i & E)]; [contradiction|]. rewrite E. cbn. eauto.
Qed.
Lemma find_bus_err numbers b e : find_bus numbers b = Err e -> e = IndexError /\ ~ In b numbers.
Proof. intros E. split; [|intros I; apply find_bus_total in I as (i & I); congruence]. revert E. induction numbers as [|x r IH]; cbn [find_bus]; [congruence|]. destruct (x =? b); [discriminate|]. destruct (find_bus r b); cbn; [discriminate|]. intros [= ->]. now apply IH. Qed.
Lemma find_bus_lt numbers b i : find_bus numbers b = Ok i -> i < List.length numbers.
Proof. intros E. apply find_bus_first in E. unfold first_at in E. destruct (nth_error numbers i) eqn:N; [|discriminate]. apply nth_error_Some. congruence. Qed.
Lemma first_only numbers b i n : find_bus numbers b = Ok i -> first_at numbers b n = (i =? n).
Proof. intros E. destruct (Nat.eqb_spec i n) as [<-|N]; [now apply find_bus_first|]. destruct (first_at numbers b n) eqn:F; [|reflexivity]. apply find_bus_first in F. congruence. Qed.
Lemma all_buses numbers b q : In b numbers -> (below (List.length numbers) (fun n => if first_at numbers b n then q else 0) == q)%Q.
Proof. intros I. apply find_bus_total in I as (i & E). rewrite (below_ext _ _ (fun n => if Nat.eqb i n then q else 0%Q)). { apply below_one. now apply find_bus_lt with b. } intros n _. now rewrite (first_only _ _ _ _ E). Qed.
(** Summing over the buses counts every member once. *)
Lemma at_bus_total numbers l f : Forall (fun b => In b numbers) l -> (below (List.length numbers) (fun n => at_bus numbers l n f) == below (List.length l) f)%Q.
Proof.
  intros F. unfold at_bus. rewrite below_swap. apply below_ext. intros i Li. apply all_buses. rewrite Forall_forall in F. apply F, nth_In. exact Li.
Qed.

(** ** Lists of members per bus *)

Definition placed (numbers l : list nat) (k : nat) (t : list (list nat)) : Prop :=
  List.length t = List.length numbers /\ forall n, n < List.length numbers -> nth_error t n = Some (filter (fun i => first_at numbers (nth i l 0) n) (seq 0 k)).
Lemma placed_start numbers l : placed numbers l 0 (repeat [] (List.length numbers)).
Proof. split; [apply repeat_length|]. intros n L. now apply HydroTables.nth_repeat. Qed.
Lemma placed_push numbers l k t b i : placed numbers l k t -> nth_error l k = Some b -> find_bus numbers b = Ok i -> exists t', push i k t = Ok t' /\ placed numbers l (S k) t'.
Proof.
  intros (L & P) N F. pose proof (find_bus_lt _ _ _ F) as Li. unfold push. rewrite (proj2 (at_nth _ _ _) (P i Li)). cbn [rbind]. eexists. split; [reflexivity|]. split; [now rewrite set_nth_length|].
  intros n Ln. rewrite nth_set_nth. rewrite seq_S, filter_app. cbn [filter Nat.add]. rewrite (nth_error_nth _ _ 0 N), (first_only _ _ _ n F). destruct (Nat.eqb_spec i n) as [->|Ne].
  - now rewrite (P n Ln).
  - rewrite List.app_nil_r. now apply P.
Qed.
Lemma placed_sum numbers l t n f : placed numbers l (List.length l) t -> n < List.length numbers -> exists is, at_ t n = Ok is /\ (qsum (map f is) == at_bus numbers l n f)%Q.
Proof. intros (L & P) Ln. eexists. split; [apply at_nth, P; exact Ln|]. unfold at_bus, below. now rewrite qsum_filter. Qed.
Lemma placed_bound numbers l k t n is i : placed numbers l k t -> at_ t n = Ok is -> In i is -> i < k.
Proof. intros (L & P) A I. apply at_nth in A. assert (n < List.length numbers) by (rewrite <- L; apply nth_error_Some; congruence). rewrite P in A by auto. injection A as <-. apply filter_In in I as (I & _). apply in_seq in I. lia. Qed.

(** ** Branches *)

Definition ends_ok (numbers : list nat) (brs : list branch) (ends : list (nat * nat)) : Prop :=
  Forall2 (fun br e => find_bus numbers (br_from br) = Ok (fst e) /\ find_bus numbers (br_to br) = Ok (snd e)) brs ends.
Lemma combine_app {A B} (a a' : list A) : forall (b b' : list B), List.length a = List.length b -> combine (a ++ a') (b ++ b') = combine a b ++ combine a' b'.
Proof. induction a as [|x a IH]; intros [|y b] b' L; cbn in *; try discriminate; auto. f_equal. apply IH. lia. Qed.
Lemma link_all numbers brs :
  forall l2 l1 ends fr to, brs = l1 ++ l2 -> ends_ok numbers l1 ends -> placed numbers (map br_from brs) (List.length l1) fr -> placed numbers (map br_to brs) (List.length l1) to ->
  match foldM (link_branch numbers) (combine (seq (List.length l1) (List.length l2)) l2) (ends, fr, to) with
  | Ok (ends', fr', to') => ends_ok numbers brs ends' /\ placed numbers (map br_from brs) (List.length brs) fr' /\ placed numbers (map br_to brs) (List.length brs) to'
  | Err e => e = IndexError /\ exists br, In br l2 /\ ~ (In (br_from br) numbers /\ In (br_to br) numbers)
  end.
Proof.
  induction l2 as [|br l2 IH]; intros l1 ends fr to E O F T.
  - cbn. rewrite List.app_nil_r in E. subst l1. sp; auto.
  - cbn [List.length seq combine foldM]. unfold link_branch at 1. cbn [fst snd].
    destruct (find_bus numbers (br_from br)) as [f|e] eqn:Ff; cbn [rbind].
    2:{ apply find_bus_err in Ff as (-> & Ff). split; [reflexivity|]. exists br. split; [now left|tauto]. }
    destruct (find_bus numbers (br_to br)) as [t|e] eqn:Ft; cbn [rbind].
    2:{ apply find_bus_err in Ft as (-> & Ft). split; [reflexivity|]. exists br. split; [now left|tauto]. }
    assert (N : nth_error brs (List.length l1) = Some br) by (rewrite E, nth_error_app2, Nat.sub_diag by lia; reflexivity).
    destruct (placed_push _ _ _ _ (br_from br) f F) as (fr' & -> & F'); [now rewrite nth_error_map, N|exact Ff|]. cbn [rbind].
    destruct (placed_push _ _ _ _ (br_to br) t T) as (to' & -> & T'); [now rewrite nth_error_map, N|exact Ft|]. cbn [rbind].
    specialize (IH (l1 ++ [br]) (ends ++ [(f, t)]) fr' to'). rewrite app_length, Nat.add_1_r in IH. specialize (IH ltac:(now rewrite <- app_assoc)). specialize (IH ltac:(apply Forall2_app; [exact O|repeat constructor; auto]) F' T').
    destruct (foldM _ _ _) as [((e1, f1), t1)|e]; [exact IH|]. destruct IH as (-> & b & I & X). split; [reflexivity|]. exists b. split; [now right|exact X].
Qed.
Lemma build_grid_cases numbers brs flag sec :
  match build_grid numbers brs flag sec with
  | Ok G => Forall (fun br => In (br_from br) numbers /\ In (br_to br) numbers) brs /\ ends_ok numbers brs (g_ends G) /\ placed numbers (map br_from brs) (List.length brs) (g_from G)
            /\ placed numbers (map br_to brs) (List.length brs) (g_to G) /\ g_n1 G = fst (case_rows (List.length brs) (tripped flag sec (List.length brs)))
  | Err e => e = IndexError /\ exists br, In br brs /\ ~ (In (br_from br) numbers /\ In (br_to br) numbers)
  end.
Proof.
  unfold build_grid. pose proof (link_all numbers brs brs [] [] _ _ eq_refl (Forall2_nil _) (placed_start _ _) (placed_start _ _)) as L. cbn [List.length] in L.
  destruct (foldM _ _ _) as [((e1, f1), t1)|e]; cbn [rbind]; [|exact L]. destruct L as (O & F & T). cbn. sp; auto.
  clear F T. induction O as [|br e l l' (A & B) O IH]; constructor; auto. split; apply find_bus_total; eauto.
Qed.

(** ** Security cases *)

Definition counted (x b : nat) : nat := if (1 <=? x) && (x <=? b) then b - 1 else b.
Lemma case_row_spec n x cou : case_row n x cou =
  (map (fun b => if S b =? x then None else Some (cou + counted x b)) (seq 0 n), cou + counted x n).
Proof.
  unfold case_row. induction n as [|n IH]; [cbn; unfold counted; destruct x; cbn; f_equal; lia|]. rewrite seq_S, fold_left_app, IH. cbn [fold_left Nat.add fst snd]. rewrite map_app. cbn [map]. unfold counted.
  destruct (Nat.eqb_spec (S n) x) as [<-|N].
  - f_equal. replace (1 <=? S n) with true by reflexivity. replace (S n <=? n) with false by (symmetry; apply Nat.leb_gt; lia). replace (S n <=? S n) with true by (symmetry; apply Nat.leb_le; lia). cbn. lia.
  - f_equal. destruct (Nat.leb_spec 1 x), (Nat.leb_spec x n), (Nat.leb_spec x (S n)); cbn [andb]; lia.
Qed.
Lemma case_rows_snoc n cs x : case_rows n (cs ++ [x]) = (fst (case_rows n cs) ++ [fst (case_row n x (snd (case_rows n cs)))], snd (case_row n x (snd (case_rows n cs)))).
Proof. unfold case_rows. now rewrite fold_left_app. Qed.
Lemma case_rows_length n cs : List.length (fst (case_rows n cs)) = S (List.length cs).
Proof. induction cs as [|x cs IH] using rev_ind; [reflexivity|]. rewrite case_rows_snoc. cbn [fst]. rewrite !app_length, IH. reflexivity. Qed.
Lemma case_rows_first n cs : nth_error (fst (case_rows n cs)) 0 = Some (map Some (seq 0 n)).
Proof. induction cs as [|x cs IH] using rev_ind; [reflexivity|]. rewrite case_rows_snoc. cbn [fst]. rewrite nth_error_app1; [exact IH|]. rewrite case_rows_length. lia. Qed.
Lemma case_rows_nth n cs : forall k x, nth_error cs k = Some x -> nth_error (fst (case_rows n cs)) (S k) = Some (fst (case_row n x (snd (case_rows n (firstn k cs))))).
Proof.
  induction cs as [|y cs IH] using rev_ind; intros k x N; [destruct k; discriminate|]. rewrite case_rows_snoc. cbn [fst]. apply nth_snoc in N as [N|(-> & ->)].
  - assert (L : k < List.length cs) by (apply nth_error_Some; congruence). rewrite nth_error_app1 by (rewrite case_rows_length; lia). rewrite (IH k x N). rewrite firstn_app. replace (k - List.length cs) with 0 by lia. cbn [firstn]. now rewrite List.app_nil_r.
  - rewrite nth_error_app2 by (rewrite case_rows_length; lia). rewrite case_rows_length, Nat.sub_diag. cbn [nth_error]. rewrite firstn_app, Nat.sub_diag, firstn_all. cbn [firstn]. now rewrite List.app_nil_r.
Qed.
Lemma case_rows_count n cs : branch_numbers n cs -> snd (case_rows n cs) = n + List.length cs * (n - 1).
Proof.
  induction cs as [|x cs IH] using rev_ind; intros B; [cbn; lia|]. apply Forall_app in B as (B & B1). inversion B1 as [|? ? Bx _]; subst. rewrite case_rows_snoc. cbn [snd]. rewrite case_row_spec, IH by auto. cbn [snd]. unfold counted.
  replace (1 <=? x) with true by (symmetry; apply Nat.leb_le; lia). replace (x <=? n) with true by (symmetry; apply Nat.leb_le; lia). cbn [andb]. rewrite app_length. cbn [List.length]. lia.
Qed.
Lemma branch_numbers_firstn n cs k : branch_numbers n cs -> branch_numbers n (firstn k cs).
Proof. unfold branch_numbers. rewrite !Forall_forall. intros H x I. apply H. rewrite <- (firstn_skipn k cs), in_app_iff. now left. Qed.
Lemma flow_no_spec n sec G xs b : g_n1 G = fst (case_rows n sec) -> branch_numbers n sec -> xs <= List.length sec -> b < n -> flow_no G xs b = Ok (flow_index n sec xs b).
Proof.
  intros E V Lx Lb. unfold flow_no, flow_index. rewrite E. destruct xs as [|k].
  - rewrite (proj2 (at_nth _ _ _) (case_rows_first n sec)). cbn [rbind]. apply at_nth. rewrite nth_error_map, nth_seq0 by exact Lb. reflexivity.
  - destruct (nth_error sec k) as [x|] eqn:N; [|apply nth_error_None in N; lia]. rewrite (proj2 (at_nth _ _ _) (case_rows_nth _ _ _ _ N)). cbn [rbind]. apply at_nth. rewrite case_row_spec. cbn [fst]. rewrite nth_error_map, nth_seq0 by exact Lb. cbn [option_map].
    assert (1 <= x <= n) as Bx by (unfold branch_numbers in V; rewrite Forall_forall in V; apply V; eapply nth_error_In; eauto). destruct (Nat.eqb_spec (S b) x); [reflexivity|]. f_equal. f_equal. rewrite case_rows_count by now apply branch_numbers_firstn.
    rewrite firstn_length_le by lia. unfold counted. replace (1 <=? x) with true by (symmetry; apply Nat.leb_le; lia). cbn [andb]. reflexivity.
Qed.
(** The numbers of the flows: every number below the declared count is used once. *)
Lemma flow_index_lt n sec xs b i : branch_numbers n sec -> b < n -> flow_index n sec xs b = Some i -> i < n + (n - 1) * List.length sec.
Proof.
  intros V Lb E. destruct xs as [|k]; cbn [flow_index] in E; [injection E as <-; lia|]. destruct (nth_error sec k) as [x|] eqn:N; [|discriminate]. assert (k < List.length sec) by (apply nth_error_Some; congruence).
  destruct (Nat.eqb_spec (S b) x); [discriminate|]. injection E as <-. unfold branch_numbers in V. rewrite Forall_forall in V. pose proof (V x (nth_error_In _ _ N)).
  assert ((if x <=? b then b - 1 else b) < n - 1) by (destruct (Nat.leb_spec x b); lia). nia.
Qed.
Lemma flow_index_case n sec k b i : branch_numbers n sec -> b < n -> flow_index n sec (S k) b = Some i -> exists j, j < n - 1 /\ i = n + (k * (n - 1) + j).
Proof.
  intros V Lb E. cbn [flow_index] in E. destruct (nth_error sec k) as [x|] eqn:N; [|discriminate]. destruct (Nat.eqb_spec (S b) x); [discriminate|]. injection E as <-. unfold branch_numbers in V. rewrite Forall_forall in V. pose proof (V x (nth_error_In _ _ N)).
  exists (if x <=? b then b - 1 else b). split; [destruct (Nat.leb_spec x b); lia|lia].
Qed.
Lemma flow_index_inj n sec xs b xs' b' i : branch_numbers n sec -> b < n -> b' < n -> flow_index n sec xs b = Some i -> flow_index n sec xs' b' = Some i -> xs = xs' /\ b = b'.
Proof.
  intros V Lb Lb' E E'. destruct xs as [|k], xs' as [|k'].
  - cbn [flow_index] in *. split; congruence.
  - destruct (flow_index_case _ _ _ _ _ V Lb' E') as (j & _ & ->). cbn [flow_index] in E. injection E as ->. lia.
  - destruct (flow_index_case _ _ _ _ _ V Lb E) as (j & _ & ->). cbn [flow_index] in E'. injection E' as ->. lia.
  - destruct (flow_index_case _ _ _ _ _ V Lb E) as (j & Lj & ->), (flow_index_case _ _ _ _ _ V Lb' E') as (j' & Lj' & X).
    assert (k = k'). { assert (Y : k * (n - 1) + j = k' * (n - 1) + j') by lia. destruct (Nat.lt_trichotomy k k') as [L|[L|L]]; [nia|exact L|nia]. } subst k'. split; [reflexivity|].
    cbn [flow_index] in E, E'. destruct (nth_error sec k) as [x|] eqn:N; [|discriminate]. unfold branch_numbers in V. rewrite Forall_forall in V. pose proof (V x (nth_error_In _ _ N)). destruct (Nat.eqb_spec (S b) x), (Nat.eqb_spec (S b') x); try discriminate. injection E as E. injection E' as E'. revert E E'. destruct (Nat.leb_spec x b), (Nat.leb_spec x b'); intros; lia.
Qed.
Lemma flow_index_onto n sec i : branch_numbers n sec -> i < n + (n - 1) * List.length sec -> exists xs b, xs <= List.length sec /\ b < n /\ flow_index n sec xs b = Some i.
Proof.
  intros V L. destruct (Nat.lt_ge_cases i n) as [Li|Li]; [exists 0, i; repeat split; auto; lia|]. assert (P : n - 1 <> 0) by (intros P; rewrite P in L; lia).
  pose proof (Nat.div_mod (i - n) (n - 1) P) as D. pose proof (Nat.mod_upper_bound (i - n) (n - 1) P) as U. set (k := (i - n) / (n - 1)) in *. set (j := (i - n) mod (n - 1)) in *.
  assert (Lk : k < List.length sec) by nia. destruct (nth_error sec k) as [x|] eqn:N; [|apply nth_error_None in N; lia]. unfold branch_numbers in V. rewrite Forall_forall in V. pose proof (V x (nth_error_In _ _ N)).
  exists (S k), (if S j <? x then j else S j). split; [lia|]. split; [destruct (Nat.ltb_spec (S j) x); lia|]. cbn [flow_index]. rewrite N. destruct (Nat.ltb_spec (S j) x).
  - destruct (Nat.eqb_spec (S j) x); [lia|]. destruct (Nat.leb_spec x j); [lia|]. f_equal. nia.
  - destruct (Nat.eqb_spec (S (S j)) x); [lia|]. destruct (Nat.leb_spec x (S j)); [|lia]. f_equal. nia.
Qed.
Lemma check_rows n sec : forall c, fold_left (fun c xs => c + List.length (filter (fun xb => negb (S xb =? xs)) (seq 0 n))) sec c
  = c + list_sum (map (fun x => if (1 <=? x) && (x <=? n) then n - 1 else n) sec).
Proof.
  induction sec as [|x sec IH]; intros c; cbn [fold_left map list_sum fold_right]; [lia|]. rewrite IH. change (fold_right Nat.add 0) with list_sum. rewrite Nat.add_assoc. f_equal. f_equal. clear.
  assert (X : forall k, List.length (filter (fun xb => negb (S xb =? x)) (seq 0 k)) = if (1 <=? x) && (x <=? k) then k - 1 else k).
  { induction k as [|k IH]; [destruct x; reflexivity|]. rewrite seq_S, filter_app, app_length, IH. cbn [filter Nat.add]. destruct (Nat.eqb_spec (S k) x); cbn [negb List.length]; destruct (Nat.leb_spec 1 x), (Nat.leb_spec x k), (Nat.leb_spec x (S k)); cbn [andb]; lia. }
  apply X.
Qed.
Lemma rows_sum n sec : 1 <= n -> list_sum (map (fun x => if (1 <=? x) && (x <=? n) then n - 1 else n) sec) <= n * List.length sec - List.length sec <-> branch_numbers n sec.
Proof.
  intros Ln. assert (G : forall l, List.length l * (n - 1) <= list_sum (map (fun x => if (1 <=? x) && (x <=? n) then n - 1 else n) l)).
  { induction l as [|x l IH]; [cbn; lia|]. cbn [map list_sum fold_right List.length]. change (fold_right Nat.add 0) with list_sum. destruct ((1 <=? x) && (x <=? n)); lia. }
  induction sec as [|x sec IH]; [cbn; split; [constructor|lia]|]. cbn [map list_sum fold_right List.length]. change (fold_right Nat.add 0) with list_sum. pose proof (G sec).
  unfold branch_numbers. rewrite Forall_cons_iff. change (Forall _ sec) with (branch_numbers n sec). rewrite <- IH. destruct (Nat.leb_spec 1 x), (Nat.leb_spec x n); cbn [andb]; nia.
Qed.
Lemma check_security_spec n sec : (check_security n sec = Ok tt <-> branch_numbers n sec) /\ (1 <= n -> ~ branch_numbers n sec -> check_security n sec = Err IndexError).
Proof.
  unfold check_security. rewrite check_rows. destruct n as [|n].
  - split; [|lia]. cbn [Nat.mul Nat.add]. destruct sec as [|x sec]; cbn [List.length Nat.ltb Nat.leb].
    + split; [constructor|reflexivity].
    + split; [discriminate|]. intros B. inversion B; subst. lia.
  - replace (S n * (1 + List.length sec) <? List.length sec) with false by (symmetry; apply Nat.ltb_ge; nia). pose proof (rows_sum (S n) sec ltac:(lia)) as R.
    match goal with |- context [?a <=? ?b] => destruct (Nat.leb_spec a b) as [L|L] end.
    + split; [split; auto; intros _; apply R; nia|]. intros _ B. destruct B. apply R. nia.
    + split; [split; [discriminate|]|auto]. intros B. apply R in B. nia.
Qed.
