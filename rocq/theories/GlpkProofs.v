(** Commands to GLPK: what is built states what the commands state. *)
From Coq Require Import List String Bool Arith ZArith QArith Lia Lqa.
From Verif Require Import Base Cases Network GraphData InputOutput InputOutputProofs ClusteringProofs HydroTables Glpk GlpkSpec.
Import ListNotations.
Open Scope nat_scope.
Open Scope list_scope.
Ltac sp := repeat match goal with |- _ /\ _ => split end.

Definition size (l : list (name * nat)) : nat := fold_right Nat.add 0 (map snd l).
(** The first number of a block. *)
Fixpoint base (l : list (name * nat)) (n : name) : nat :=
  match l with [] => 0 | (m, k) :: r => if name_dec m n then 0 else k + base r n end.
Definition address (l : list (name * nat)) (p : place) : nat := base l (fst p) + snd p.

Lemma size_app l l' : size (l ++ l') = size l + size l'.
Proof. unfold size. rewrite map_app, fold_right_app. induction (map snd l); cbn; lia. Qed.

Lemma start_base l n : start l n = if in_dec name_dec n (map fst l) then Ok (base l n) else Err KeyError.
Proof.
  induction l as [|[m k] r IH]; [reflexivity|]. cbn [start base map fst]. destruct (name_dec m n) as [->|N].
  - destruct (in_dec name_dec n (n :: map fst r)) as [I|I]; [reflexivity|]. exfalso. apply I. now left.
  - rewrite IH. destruct (in_dec name_dec n (map fst r)) as [I|I]; destruct (in_dec name_dec n (m :: map fst r)) as [J|J]; try reflexivity.
    + exfalso. apply J. now right.
    + exfalso. destruct J; congruence.
Qed.
Lemma start_in l n : In n (map fst l) -> start l n = Ok (base l n).
Proof. intros H. rewrite start_base. destruct (in_dec name_dec n (map fst l)); [reflexivity|contradiction]. Qed.
Lemma known_in l n : known l n = if in_dec name_dec n (map fst l) then true else false.
Proof. unfold known. rewrite start_base. destruct (in_dec name_dec n (map fst l)); reflexivity. Qed.
Lemma inside_in l p : inside l p -> In (fst p) (map fst l).
Proof. intros (k & I & _). change (fst p) with (fst (fst p, k)). now apply in_map. Qed.
Lemma inside_app_l l l' p : inside l p -> inside (l ++ l') p.
Proof. intros (k & I & L). exists k. split; auto. apply in_or_app. now left. Qed.
Lemma inside_app_r l l' p : inside l' p -> inside (l ++ l') p.
Proof. intros (k & I & L). exists k. split; auto. apply in_or_app. now right. Qed.

Lemma base_app_l l l' n : In n (map fst l) -> base (l ++ l') n = base l n.
Proof.
  induction l as [|[m k] r IH]; cbn [map fst In]; [tauto|]. intros H. cbn [List.app base]. destruct (name_dec m n); [reflexivity|]. rewrite IH; [reflexivity|]. destruct H; [congruence|auto].
Qed.
Lemma base_app_r l l' n : ~ In n (map fst l) -> base (l ++ l') n = size l + base l' n.
Proof.
  induction l as [|[m k] r IH]; cbn [map fst In]; [reflexivity|]. intros H. cbn [List.app base]. destruct (name_dec m n); [exfalso; auto|]. rewrite IH by tauto. unfold size. cbn. lia.
Qed.

Lemma address_lt l p : inside l p -> NoDup (map fst l) -> address l p < size l.
Proof.
  destruct p as [n o]. unfold address. cbn [fst snd]. intros (k & I & L). cbn [fst snd] in *. induction l as [|[m j] r IH]; [destruct I|]. cbn [base map fst size]. intros ND. inversion ND as [|? ? N1 N2]; subst. cbn [fst] in *. destruct (name_dec m n) as [->|N].
  - destruct I as [E|I]; [injection E as ->; unfold size; cbn; lia|]. exfalso. apply N1. change n with (fst (n, k)). now apply in_map.
  - destruct I as [E|I]; [injection E as -> ->; congruence|]. specialize (IH I N2). unfold size in *. cbn. lia.
Qed.

Lemma address_inj l p q : NoDup (map fst l) -> inside l p -> inside l q -> address l p = address l q -> p = q.
Proof.
  destruct p as [n o], q as [m i]. unfold address. cbn [fst snd]. intros ND (k & I & L) (j & J & M). cbn [fst snd] in *. induction l as [|[a z] r IH]; [destruct I|]. cbn [base map fst] in *. inversion ND as [|? ? N1 N2]; subst. cbn [fst] in *.
  assert (X : forall b y, In (b, y) r -> In b (map fst r)) by (intros b y H; change b with (fst (b, y)); now apply in_map).
  destruct (name_dec a n) as [->|N]; destruct (name_dec _ m) as [E|M'].
  - subst. intros E. cbn in E. now subst.
  - destruct I as [E|I]; [injection E as ->|exfalso; eauto]. destruct J as [E|J]; [injection E as -> ->; congruence|]. intros. lia.
  - subst. destruct J as [E|J]; [injection E as ->|exfalso; eauto]. destruct I as [E|I]; [injection E as -> ->; congruence|]. intros. lia.
  - destruct I as [E|I]; [injection E as -> ->; congruence|]. destruct J as [E|J]; [injection E as -> ->; congruence|]. intros. apply IH; auto. lia.
Qed.

(** The place of a number. *)
Fixpoint locate (l : list (name * nat)) (i : nat) : place :=
  match l with [] => (("", []), 0)%string | (m, k) :: r => if i <? k then (m, i) else locate r (i - k) end.
Lemma locate_inside l i : i < size l -> inside l (locate l i).
Proof.
  revert i. induction l as [|[m k] r IH]; intros i; unfold size; cbn [map snd fold_right locate]; [lia|]. fold (size r). intros H. destruct (Nat.ltb_spec i k) as [L|L].
  - exists k. cbn [fst snd]. split; [now left|auto].
  - destruct (IH (i - k) ltac:(lia)) as (j & J & M). exists j. split; auto. now right.
Qed.
Lemma locate_address l i : NoDup (map fst l) -> i < size l -> address l (locate l i) = i.
Proof.
  revert i. induction l as [|[m k] r IH]; intros i ND; unfold size; cbn [map snd fold_right locate]; [lia|]. fold (size r). intros H. cbn [map fst] in ND. inversion ND as [|? ? N1 N2]; subst. unfold address. destruct (Nat.ltb_spec i k) as [L|L].
  - cbn [base fst snd]. destruct (name_dec m m); [reflexivity|congruence].
  - cbn [base]. pose proof (inside_in _ _ (locate_inside r (i - k) ltac:(lia))) as I. destruct (name_dec m (fst (locate r (i - k)))) as [->|N]; [contradiction|]. specialize (IH (i - k) N2 ltac:(lia)). unfold address in IH. lia.
Qed.

(** ** Commands one by one *)

Lemma rows_app l l' : rows_of (l ++ l') = rows_of l ++ rows_of l'.
Proof. apply flat_map_app. Qed.
Lemma cols_app l l' : cols_of (l ++ l') = cols_of l ++ cols_of l'.
Proof. apply flat_map_app. Qed.
Lemma entries_app l l' : entries_of (l ++ l') = entries_of l ++ entries_of l'.
Proof. apply flat_map_app. Qed.

Lemma fine_app R C l l' : fine R C (l ++ l') <-> fine R C l /\ fine (R ++ rows_of l) (C ++ cols_of l) l'.
Proof.
  revert R C. induction l as [|c r IH]; intros R C; [cbn; rewrite !app_nil_r; tauto|]. destruct c; cbn [List.app fine rows_of cols_of flat_map]; try (rewrite IH; cbn [List.app]; rewrite <- ?app_assoc; cbn [List.app]; unfold rows_of, cols_of; tauto). tauto.
Qed.

Definition resolve (R C : list (name * nat)) (e : place * place * Q) : nat * nat * Q := (address R (fst (fst e)), address C (snd (fst e)), snd e).

Record built (l : list cmd) (S : solver) : Prop := {
  bl_rows : so_rows S = rows_of l;
  bl_cols : so_cols S = cols_of l;
  bl_nr : NoDup (map fst (rows_of l));
  bl_nc : NoDup (map fst (cols_of l));
  bl_rb : List.length (so_rb S) = size (rows_of l);
  bl_cb : List.length (so_cb S) = size (cols_of l);
  bl_ob : List.length (so_obj S) = size (cols_of l);
  bl_r : forall p, inside (rows_of l) p -> nth_error (so_rb S) (address (rows_of l) p) = Some (row_bound l p);
  bl_c : forall p, inside (cols_of l) p -> nth_error (so_cb S) (address (cols_of l) p) = Some (col_bound l p);
  bl_o : forall p, inside (cols_of l) p -> nth_error (so_obj S) (address (cols_of l) p) = Some (cost_of l p) }.

Lemma built_empty : built [] empty.
Proof. constructor; cbn; auto using NoDup_nil; intros p (k & [] & _). Qed.

Lemma snoc_bound l c p : row_bound (l ++ [c]) p = match c with RowBnd n o b => if place_dec (n, o) p then b else row_bound l p | _ => row_bound l p end.
Proof. unfold row_bound. rewrite fold_left_app. cbn [fold_left]. destruct c; reflexivity. Qed.
Lemma snoc_col l c p : col_bound (l ++ [c]) p = match c with ColBnd n o b => if place_dec (n, o) p then b else col_bound l p | _ => col_bound l p end.
Proof. unfold col_bound. rewrite fold_left_app. cbn [fold_left]. destruct c; reflexivity. Qed.
Lemma snoc_cost l c p : cost_of (l ++ [c]) p = match c with Obj n o b => if place_dec (n, o) p then b else cost_of l p | _ => cost_of l p end.
Proof. unfold cost_of. rewrite fold_left_app. cbn [fold_left]. destruct c; reflexivity. Qed.

(** Bounds of blocks that did not exist were not given. *)
Definition referred (l : list cmd) : Prop := forall n o b, (In (RowBnd n o b) l -> In n (map fst (rows_of l))) /\ (In (ColBnd n o b) l -> In n (map fst (cols_of l))).
Lemma bound_default (l : list cmd) p : (forall o b, ~ In (RowBnd (fst p) o b) l) -> row_bound l p = Free.
Proof.
  induction l as [|c r IH] using rev_ind; [reflexivity|]. intros H. rewrite snoc_bound. assert (R : row_bound r p = Free) by (apply IH; intros o b I; apply (H o b); apply in_or_app; auto). destruct c; auto. destruct (place_dec (n, o) p); auto. exfalso. subst p. apply (H o b). apply in_or_app. right. now left.
Qed.
Lemma col_default (l : list cmd) p : (forall o b, ~ In (ColBnd (fst p) o b) l) -> col_bound l p = Lower 0.
Proof.
  induction l as [|c r IH] using rev_ind; [reflexivity|]. intros H. rewrite snoc_col. assert (R : col_bound r p = Lower 0) by (apply IH; intros o b I; apply (H o b); apply in_or_app; auto). destruct c; auto. destruct (place_dec (n, o) p); auto. exfalso. subst p. apply (H o b). apply in_or_app. right. now left.
Qed.
Lemma cost_default (l : list cmd) p : (forall o b, ~ In (Obj (fst p) o b) l) -> cost_of l p = 0%Q.
Proof.
  induction l as [|c r IH] using rev_ind; [reflexivity|]. intros H. rewrite snoc_cost. assert (R : cost_of r p = 0%Q) by (apply IH; intros o b I; apply (H o b); apply in_or_app; auto). destruct c; auto. destruct (place_dec (n, o) p); auto. exfalso. subst p. apply (H o q). apply in_or_app. right. now left.
Qed.

Lemma in_rows n k l : In (n, k) (rows_of l) <-> In (AddRows n k) l.
Proof.
  unfold rows_of. rewrite in_flat_map. split.
  - intros (c & I & J). destruct c; cbn in J; try tauto. destruct J as [J|[]]. now injection J as <- <-.
  - intros I. exists (AddRows n k). cbn. auto.
Qed.
Lemma in_cols n k l : In (n, k) (cols_of l) <-> In (AddCols n k) l.
Proof.
  unfold cols_of. rewrite in_flat_map. split.
  - intros (c & I & J). destruct c; cbn in J; try tauto. destruct J as [J|[]]. now injection J as <- <-.
  - intros I. exists (AddCols n k). cbn. auto.
Qed.

Lemma fine_refers R C l : fine R C l -> forall n o,
  (forall b, In (RowBnd n o b) l -> In n (map fst (R ++ rows_of l))) /\ (forall b, In (ColBnd n o b) l -> In n (map fst (C ++ cols_of l))) /\ (forall q, In (Obj n o q) l -> In n (map fst (C ++ cols_of l))).
Proof.
  revert R C. induction l as [|c r IH]; intros R C F n o; [cbn; sp; intros; tauto|].
  destruct c; cbn [fine] in F; cbn [In rows_of cols_of flat_map]; fold (rows_of r); fold (cols_of r).
  - destruct F as (_ & _ & F). specialize (IH _ _ F n o). rewrite <- app_assoc in IH. destruct IH as (A & B & D). sp; intros b [E|I]; eauto; discriminate.
  - destruct F as (_ & _ & F). specialize (IH _ _ F n o). rewrite <- app_assoc in IH. destruct IH as (A & B & D). sp; intros b [E|I]; eauto; discriminate.
  - destruct F as (I0 & F). destruct (IH _ _ F n o) as (A & B & D). sp; intros b' [E|I]; eauto; try discriminate. injection E as -> -> _. rewrite map_app. apply in_or_app. left. exact (inside_in _ _ I0).
  - destruct F as (I0 & F). destruct (IH _ _ F n o) as (A & B & D). sp; intros b' [E|I]; eauto; try discriminate. injection E as -> -> _. rewrite map_app. apply in_or_app. left. exact (inside_in _ _ I0).
  - destruct F as (_ & _ & F). destruct (IH _ _ F n o) as (A & B & D). sp; intros b' [E|I]; eauto; discriminate.
  - destruct F.
  - destruct F as (I0 & F). destruct (IH _ _ F n o) as (A & B & D). sp; intros b' [E|I]; eauto; try discriminate. injection E as -> -> _. rewrite map_app. apply in_or_app. left. exact (inside_in _ _ I0).
Qed.

Lemma inside_snoc l n k p : inside (l ++ [(n, k)]) p <-> inside l p \/ (fst p = n /\ snd p < k).
Proof.
  split.
  - intros (j & I & L). apply in_app_or in I as [I|[E|[]]]; [left; exists j; auto|]. injection E as -> ->. right. auto.
  - intros [I|(<- & L)]; [now apply inside_app_l|]. exists k. split; auto. apply in_or_app. right. now left.
Qed.

Lemma address_app_l l l' p : inside l p -> address (l ++ l') p = address l p.
Proof. intros I. unfold address. now rewrite base_app_l by now apply inside_in. Qed.
Lemma address_new l n k o : ~ In n (map fst l) -> address (l ++ [(n, k)]) (n, o) = size l + o.
Proof. intros I. unfold address. cbn [fst snd]. rewrite base_app_r by auto. cbn [base]. destruct (name_dec n n); [lia|congruence]. Qed.

Lemma nth_app_block {A} (l : list A) a k n o : n = List.length l -> o < k -> nth_error (l ++ repeat a k) (n + o) = Some a.
Proof. intros -> L. rewrite nth_error_app2 by lia. replace (List.length l + o - List.length l) with o by lia. now apply nth_repeat. Qed.

Lemma NoDup_snoc {A} (l : list A) a : NoDup l -> ~ In a l -> NoDup (l ++ [a]).
Proof. intros N I. apply NoDup_rev in N. rewrite <- (rev_involutive (l ++ [a])). apply NoDup_rev. rewrite rev_app_distr. cbn. constructor; auto. now rewrite <- in_rev. Qed.

(** One command keeps what is built. *)
Lemma step_built l S c : built l S -> so_ent S = map (resolve (rows_of l) (cols_of l)) (entries_of l) -> fine [] [] (l ++ [c]) ->
  (forall e, In e (entries_of l) -> inside (rows_of l) (fst (fst e)) /\ inside (cols_of l) (snd (fst e))) ->
  exists S', step S c = Ok S' /\ built (l ++ [c]) S' /\ so_ent S' = map (resolve (rows_of (l ++ [c])) (cols_of (l ++ [c]))) (entries_of (l ++ [c])) /\ so_mat S' = so_mat S
    /\ (forall e, In e (entries_of (l ++ [c])) -> inside (rows_of (l ++ [c])) (fst (fst e)) /\ inside (cols_of (l ++ [c])) (snd (fst e))).
Proof.
  intros B EN F IE. destruct S as [rows cols rb cb obj ent mat]. destruct B as [Br Bc Nr Nc Lr Lc Lo Hr Hc Ho]. cbn [so_rows so_cols so_rb so_cb so_obj so_ent so_mat] in *. subst rows cols ent.
  pose proof (fine_refers _ _ _ F) as RF. apply fine_app in F as (F0 & F). cbn [List.app] in F.
  pose proof (fine_refers _ _ _ F0) as RF0. cbn [List.app] in RF0.
  rewrite rows_app, cols_app, entries_app. destruct c; cbn [fine] in F; cbn [rows_of cols_of entries_of flat_map List.app]; rewrite ?app_nil_r.
  - destruct F as (NI & K & _). unfold step. rewrite known_in. destruct (in_dec name_dec n (map fst (rows_of l))); [contradiction|]. destruct (Nat.eqb_spec k 0); [lia|]. eexists. split; [reflexivity|]. sp.
    + constructor; cbn [so_rows so_cols so_rb so_cb so_obj so_ent so_mat]; rewrite ?rows_app, ?cols_app; cbn [rows_of cols_of flat_map List.app]; rewrite ?app_nil_r; auto.
      * rewrite map_app. cbn [map fst]. now apply NoDup_snoc.
      * rewrite app_length, repeat_length, size_app, Lr. unfold size. cbn. lia.
      * intros p I. rewrite snoc_bound. apply inside_snoc in I as [I|(E & L)].
        -- rewrite address_app_l by auto. pose proof (address_lt _ _ I Nr). rewrite nth_error_app1 by lia. auto.
        -- destruct p as [m o]. cbn [fst snd] in *. subst m. rewrite address_new by auto. rewrite nth_app_block by auto. rewrite bound_default; [reflexivity|]. intros o' b I. apply NI. exact (proj1 (RF0 n o') b I).
      * intros p I. rewrite snoc_col. auto.
      * intros p I. rewrite snoc_cost. auto.
    + cbn [so_ent]. apply map_ext_in. intros e I. unfold resolve. destruct (IE e I) as (A & _). now rewrite address_app_l.
    + reflexivity.
    + intros e I. destruct (IE e I). split; auto. now apply inside_app_l.
  - destruct F as (NI & K & _). unfold step. rewrite known_in. destruct (in_dec name_dec n (map fst (cols_of l))); [contradiction|]. destruct (Nat.eqb_spec k 0); [lia|]. eexists. split; [reflexivity|]. sp.
    + constructor; cbn [so_rows so_cols so_rb so_cb so_obj so_ent so_mat]; rewrite ?rows_app, ?cols_app; cbn [rows_of cols_of flat_map List.app]; rewrite ?app_nil_r; auto.
      * rewrite map_app. cbn [map fst]. now apply NoDup_snoc.
      * rewrite app_length, repeat_length, size_app, Lc. unfold size. cbn. lia.
      * rewrite app_length, repeat_length, size_app, Lo. unfold size. cbn. lia.
      * intros p I. rewrite snoc_bound. auto.
      * intros p I. rewrite snoc_col. apply inside_snoc in I as [I|(E & L)].
        -- rewrite address_app_l by auto. pose proof (address_lt _ _ I Nc). rewrite nth_error_app1 by lia. auto.
        -- destruct p as [m o]. cbn [fst snd] in *. subst m. rewrite address_new by auto. rewrite nth_app_block by auto. rewrite col_default; [reflexivity|]. intros o' b I. apply NI. exact (proj1 (proj2 (RF0 n o')) b I).
      * intros p I. rewrite snoc_cost. apply inside_snoc in I as [I|(E & L)].
        -- rewrite address_app_l by auto. pose proof (address_lt _ _ I Nc). rewrite nth_error_app1 by lia. auto.
        -- destruct p as [m o]. cbn [fst snd] in *. subst m. rewrite address_new by auto. rewrite nth_app_block by auto. rewrite cost_default; [reflexivity|]. intros o' b I. apply NI. exact (proj2 (proj2 (RF0 n o')) b I).
    + cbn [so_ent]. apply map_ext_in. intros e I. unfold resolve. destruct (IE e I) as (_ & A). now rewrite (address_app_l (cols_of l)).
    + reflexivity.
    + intros e I. destruct (IE e I). split; auto. now apply inside_app_l.
  - destruct F as (I0 & _). unfold step. rewrite start_in by (exact (inside_in _ _ I0)). rewrite bind_ok. pose proof (address_lt _ _ I0 Nr) as LT. unfold address in LT. cbn [fst snd] in LT. unfold change. destruct (Nat.ltb_spec (base (rows_of l) n + o) (List.length rb)); [|lia]. rewrite bind_ok. eexists. split; [reflexivity|]. sp; auto.
    constructor; cbn [so_rows so_cols so_rb so_cb so_obj so_ent so_mat]; rewrite ?rows_app, ?cols_app; cbn [rows_of cols_of flat_map List.app]; rewrite ?app_nil_r; auto.
    + now rewrite set_nth_length.
    + intros p I. rewrite snoc_bound, nth_set_nth. destruct (place_dec (n, o) p) as [<-|N].
      * unfold address. cbn [fst snd]. rewrite Nat.eqb_refl. specialize (Hr _ I). unfold address in Hr. cbn [fst snd] in Hr. now rewrite Hr.
      * destruct (Nat.eqb_spec (base (rows_of l) n + o) (address (rows_of l) p)) as [E|_]; auto. exfalso. apply N. apply (address_inj (rows_of l)); auto.
    + intros p I. rewrite snoc_col. auto.
    + intros p I. rewrite snoc_cost. auto.
  - destruct F as (I0 & _). unfold step. rewrite start_in by (exact (inside_in _ _ I0)). rewrite bind_ok. pose proof (address_lt _ _ I0 Nc) as LT. unfold address in LT. cbn [fst snd] in LT. unfold change. destruct (Nat.ltb_spec (base (cols_of l) n + o) (List.length cb)); [|lia]. rewrite bind_ok. eexists. split; [reflexivity|]. sp; auto.
    constructor; cbn [so_rows so_cols so_rb so_cb so_obj so_ent so_mat]; rewrite ?rows_app, ?cols_app; cbn [rows_of cols_of flat_map List.app]; rewrite ?app_nil_r; auto.
    + now rewrite set_nth_length.
    + intros p I. rewrite snoc_bound. auto.
    + intros p I. rewrite snoc_col, nth_set_nth. destruct (place_dec (n, o) p) as [<-|N].
      * unfold address. cbn [fst snd]. rewrite Nat.eqb_refl. specialize (Hc _ I). unfold address in Hc. cbn [fst snd] in Hc. now rewrite Hc.
      * destruct (Nat.eqb_spec (base (cols_of l) n + o) (address (cols_of l) p)) as [E|_]; auto. exfalso. apply N. apply (address_inj (cols_of l)); auto.
    + intros p I. rewrite snoc_cost. auto.
  - destruct F as (I0 & I1 & _). unfold step. rewrite start_in by (exact (inside_in _ _ I0)). rewrite bind_ok. rewrite start_in by (exact (inside_in _ _ I1)). rewrite bind_ok. eexists. split; [reflexivity|]. sp; auto.
    + constructor; cbn [so_rows so_cols so_rb so_cb so_obj so_ent so_mat]; rewrite ?rows_app, ?cols_app; cbn [rows_of cols_of flat_map List.app]; rewrite ?app_nil_r; auto; intros p I; [rewrite snoc_bound|rewrite snoc_col|rewrite snoc_cost]; auto.
    + cbn [so_ent]. rewrite map_app. reflexivity.
    + intros e I. apply in_app_or in I as [I|[<-|[]]]; auto.
  - destruct F.
  - destruct F as (I0 & _). unfold step. rewrite start_in by (exact (inside_in _ _ I0)). rewrite bind_ok. pose proof (address_lt _ _ I0 Nc) as LT. unfold address in LT. cbn [fst snd] in LT. unfold change. destruct (Nat.ltb_spec (base (cols_of l) n + o) (List.length obj)); [|lia]. rewrite bind_ok. eexists. split; [reflexivity|]. sp; auto.
    constructor; cbn [so_rows so_cols so_rb so_cb so_obj so_ent so_mat]; rewrite ?rows_app, ?cols_app; cbn [rows_of cols_of flat_map List.app]; rewrite ?app_nil_r; auto.
    + now rewrite set_nth_length.
    + intros p I. rewrite snoc_bound. auto.
    + intros p I. rewrite snoc_col. auto.
    + intros p I. rewrite snoc_cost, nth_set_nth. destruct (place_dec (n, o) p) as [<-|N].
      * unfold address. cbn [fst snd]. rewrite Nat.eqb_refl. specialize (Ho _ I). unfold address in Ho. cbn [fst snd] in Ho. now rewrite Ho.
      * destruct (Nat.eqb_spec (base (cols_of l) n + o) (address (cols_of l) p)) as [E|_]; auto. exfalso. apply N. apply (address_inj (cols_of l)); auto.
Qed.

Lemma entries_inside R C l : fine R C l -> forall e, In e (entries_of l) -> inside (R ++ rows_of l) (fst (fst e)) /\ inside (C ++ cols_of l) (snd (fst e)).
Proof.
  revert R C. induction l as [|c r IH]; intros R C F e I; [destruct I|]. destruct c; cbn [fine] in F; cbn [entries_of rows_of cols_of flat_map List.app] in *; fold (rows_of r) in *; fold (cols_of r) in *; fold (entries_of r) in *.
  - destruct F as (_ & _ & F). specialize (IH _ _ F e I). rewrite <- app_assoc in IH. exact IH.
  - destruct F as (_ & _ & F). specialize (IH _ _ F e I). rewrite <- app_assoc in IH. exact IH.
  - destruct F as (_ & F). apply (IH _ _ F e I).
  - destruct F as (_ & F). apply (IH _ _ F e I).
  - destruct F as (A & B & F). destruct I as [<-|I]; [|apply (IH _ _ F e I)]. cbn [fst snd]. split; now apply inside_app_l.
  - destruct F.
  - destruct F as (_ & F). apply (IH _ _ F e I).
Qed.

(** After the commands before the matrix is loaded. *)
Lemma run_before l : fine [] [] l -> exists S, run l = Ok S /\ built l S /\ so_ent S = map (resolve (rows_of l) (cols_of l)) (entries_of l) /\ so_mat S = [].
Proof.
  induction l as [|c r IH] using rev_ind; intros F.
  - exists empty. split; [reflexivity|]. split; [apply built_empty|]. split; reflexivity.
  - pose proof F as F'. apply fine_app in F' as (F0 & _). destruct (IH F0) as (S & E & B & EN & M). destruct (step_built r S c B EN F) as (S' & E' & B' & EN' & M' & _); [intros e I; apply (entries_inside [] [] r F0 e I)|].
    exists S'. unfold run in *. rewrite foldM_app, E, bind_ok. cbn [foldM]. rewrite E', bind_ok. sp; auto. congruence.
Qed.

Lemma no_repeat_NoDup l : NoDup l -> no_repeat l = true.
Proof.
  induction 1 as [|a r N _ IH]; [reflexivity|]. cbn [no_repeat]. rewrite IH, andb_true_r. apply negb_true_iff. destruct (existsb _ r) eqn:E; [|reflexivity]. exfalso. apply existsb_exists in E as (b & I & H). apply andb_true_iff in H as (H1 & H2). apply Nat.eqb_eq in H1, H2. apply N. destruct a, b. cbn in *. now subst.
Qed.
Lemma NoDup_map_in {A B} (f : A -> B) l : NoDup l -> (forall a b, In a l -> In b l -> f a = f b -> a = b) -> NoDup (map f l).
Proof.
  induction 1 as [|a r N ND IH]; intros H; [constructor|]. cbn [map]. constructor.
  - intros I. apply in_map_iff in I as (b & E & J). apply N. rewrite <- (H b a); cbn; auto.
  - apply IH. intros x y X Y. apply H; cbn; auto.
Qed.

Definition keys (l : list cmd) : list (place * place) := map fst (entries_of l).

Lemma loads_ok l S : built l S -> so_ent S = map (resolve (rows_of l) (cols_of l)) (entries_of l) -> fine [] [] l -> NoDup (keys l) -> loads (List.length (so_rb S)) (List.length (so_cb S)) (so_ent S) = true.
Proof.
  intros B EN F ND. unfold loads. rewrite EN. apply andb_true_iff. split.
  - apply forallb_forall. intros e I. apply in_map_iff in I as (a & <- & I). destruct (entries_inside _ _ _ F a I) as (X & Y). cbn [resolve fst snd]. rewrite (bl_rb _ _ B), (bl_cb _ _ B). apply andb_true_iff. split; apply Nat.ltb_lt; apply address_lt; auto; [apply (bl_nr _ _ B)|apply (bl_nc _ _ B)].
  - apply no_repeat_NoDup. rewrite map_map. replace (map (fun x => fst (resolve (rows_of l) (cols_of l) x)) (entries_of l)) with (map (fun k => (address (rows_of l) (fst k), address (cols_of l) (snd k))) (keys l)) by (unfold keys; rewrite map_map; reflexivity).
    apply NoDup_map_in; auto. intros a b Ia Ib E. unfold keys in *. apply in_map_iff in Ia as (ea & <- & Ia), Ib as (eb & <- & Ib). destruct (entries_inside _ _ _ F ea Ia) as (X & Y). destruct (entries_inside _ _ _ F eb Ib) as (X' & Y'). injection E as E1 E2.
    apply address_inj in E1; [|apply (bl_nr _ _ B)|auto|auto]. apply address_inj in E2; [|apply (bl_nc _ _ B)|auto|auto]. destruct (fst ea), (fst eb). cbn in *. congruence.
Qed.

(** ** All commands *)

Theorem run_ok l1 l2 : fine [] [] (l1 ++ l2) -> forallb final l2 = true -> NoDup (keys l1) ->
  exists S, run (l1 ++ Load :: l2) = Ok S /\ built (l1 ++ l2) S /\ so_mat S = map (resolve (rows_of (l1 ++ l2)) (cols_of (l1 ++ l2))) (entries_of (l1 ++ l2)).
Proof.
  intros F. pose proof F as F'. apply fine_app in F' as (F0 & _). destruct (run_before l1 F0) as (S & E & B & EN & _). intros FI ND.
  pose proof (loads_ok l1 S B EN F0 ND) as LO. unfold run. rewrite foldM_app. unfold run in E. rewrite E, bind_ok. cbn [foldM]. destruct S as [rows cols rb cb obj ent mat]. cbn [step so_rb so_cb so_ent] in *. rewrite LO, bind_ok. clear LO E.
  assert (B' : built l1 (mkSolver rows cols rb cb obj ent ent)) by (destruct B; constructor; auto). clear B.
  revert B' FI F. induction l2 as [|c r IH] using rev_ind; intros B' FI F.
  - rewrite app_nil_r. eexists. split; [reflexivity|]. split; auto.
  - rewrite forallb_app in FI. apply andb_true_iff in FI as (FI & FC). cbn [forallb] in FC. rewrite andb_true_r in FC. rewrite app_assoc in F. pose proof F as F'. apply fine_app in F' as (F1 & _).
    destruct (IH B' FI F1) as (S & E & B & M). rewrite foldM_app, E, bind_ok. cbn [foldM].
    destruct (step_built (l1 ++ r) (mkSolver (so_rows S) (so_cols S) (so_rb S) (so_cb S) (so_obj S) (so_mat S) (so_mat S)) c) as (S' & E' & B'' & EN' & M' & _); [destruct B; constructor; auto|exact M|exact F|intros e I; apply (entries_inside [] [] _ F1 e I)|].
    assert (X : exists S'', step S c = Ok S'' /\ so_rows S'' = so_rows S' /\ so_cols S'' = so_cols S' /\ so_rb S'' = so_rb S' /\ so_cb S'' = so_cb S' /\ so_obj S'' = so_obj S' /\ so_mat S'' = so_mat S' /\ so_ent S' = so_mat S).
    { destruct S as [rw cl b1 b2 ob en mt]. cbn [so_rows so_cols so_rb so_cb so_obj so_ent so_mat] in *. destruct c; try discriminate FC; cbn [step] in *.
      - destruct (start rw n) as [i|]; [rewrite bind_ok in *|discriminate E']. destruct (change b1 (i + o) b) as [y|]; [rewrite bind_ok in *|discriminate E']. injection E' as <-. eexists. split; [reflexivity|]. cbn. sp; auto.
      - destruct (start cl n) as [i|]; [rewrite bind_ok in *|discriminate E']. destruct (change b2 (i + o) b) as [y|]; [rewrite bind_ok in *|discriminate E']. injection E' as <-. eexists. split; [reflexivity|]. cbn. sp; auto.
      - destruct (start cl n) as [i|]; [rewrite bind_ok in *|discriminate E']. destruct (change ob (i + o) q) as [y|]; [rewrite bind_ok in *|discriminate E']. injection E' as <-. eexists. split; [reflexivity|]. cbn. sp; auto. }
    destruct X as (S'' & E'' & X1 & X2 & X3 & X4 & X5 & X6 & X7). rewrite E'', bind_ok. exists S''. split; [reflexivity|]. rewrite app_assoc. split.
    + destruct B''; constructor; rewrite ?X1, ?X2, ?X3, ?X4, ?X5; auto.
    + rewrite X6, M'. cbn [so_mat]. rewrite <- EN'. congruence.
Qed.

(** ** Meaning *)

Definition view (l : list cmd) (x : nat -> Q) : place -> Q := fun p => x (address (cols_of l) p).

Lemma within_ext b p q : (p == q)%Q -> within b p <-> within b q.
Proof. intros E. destruct b; cbn [within]; [tauto|rewrite E; tauto|rewrite E; tauto|rewrite E; tauto]. Qed.

Lemma row_value_sum l S x p : built l S -> so_mat S = map (resolve (rows_of l) (cols_of l)) (entries_of l) -> fine [] [] l -> inside (rows_of l) p ->
  (row_value S x (address (rows_of l) p) == row_sum l (view l x) p)%Q.
Proof.
  intros B M F I. unfold row_value, row_sum. rewrite M. pose proof (entries_inside [] [] l F) as IE. cbn [List.app] in IE. clear M. revert IE. generalize (entries_of l) as L. induction L as [|e r IH]; intros IE; [reflexivity|].
  specialize (IH ltac:(intros; apply IE; now right)). cbn [map filter]. cbn [resolve fst snd] in *. destruct (IE e ltac:(now left)) as (X & Y). destruct (place_dec (fst (fst e)) p) as [E|N].
  - rewrite E, Nat.eqb_refl. cbn [map qsum fold_right]. cbn [snd fst]. unfold qsum in *. cbn [fold_right]. rewrite IH. unfold view. reflexivity.
  - destruct (Nat.eqb_spec (address (rows_of l) (fst (fst e))) (address (rows_of l) p)) as [E|_].
    + exfalso. apply N. apply (address_inj (rows_of l)); auto. apply (bl_nr _ _ B).
    + rewrite IH. unfold qsum. cbn [fold_right]. now rewrite Qplus_0_l.
Qed.

Theorem feasible_states l S x : built l S -> so_mat S = map (resolve (rows_of l) (cols_of l)) (entries_of l) -> fine [] [] l ->
  feasible S x <-> states l (view l x).
Proof.
  intros B M F. unfold feasible, states. rewrite (bl_cb _ _ B), (bl_rb _ _ B). split; intros (H1 & H2); split.
  - intros p I. specialize (H1 _ (address_lt _ _ I (bl_nc _ _ B))). now rewrite (nth_error_nth _ _ _ (bl_c _ _ B p I)) in H1.
  - intros p I. specialize (H2 _ (address_lt _ _ I (bl_nr _ _ B))). rewrite (nth_error_nth _ _ _ (bl_r _ _ B p I)) in H2. eapply within_ext; [|exact H2]. symmetry. now apply row_value_sum.
  - intros c L. pose proof (locate_inside _ _ L) as I. rewrite <- (locate_address _ _ (bl_nc _ _ B) L). rewrite (nth_error_nth _ _ _ (bl_c _ _ B _ I)). apply (H1 _ I).
  - intros r L. pose proof (locate_inside _ _ L) as I. rewrite <- (locate_address _ _ (bl_nr _ _ B) L). rewrite (nth_error_nth _ _ _ (bl_r _ _ B _ I)). eapply within_ext; [|exact (H2 _ I)]. now apply row_value_sum.
Qed.

Lemma forallb_address (f : bnd -> bool) (C : list (name * nat)) (l : list bnd) (v : place -> bnd) : NoDup (map fst C) -> List.length l = size C -> (forall p, inside C p -> nth_error l (address C p) = Some (v p)) ->
  forallb f l = true <-> (forall p, inside C p -> f (v p) = true).
Proof.
  intros ND L H. rewrite forallb_forall. split.
  - intros A p I. apply A. eapply nth_error_In. apply H. exact I.
  - intros A b I. apply In_nth_error in I as (i & E). assert (LT : i < size C) by (rewrite <- L; apply nth_error_Some; congruence). pose proof (locate_inside _ _ LT) as J. specialize (H _ J). rewrite (locate_address _ _ ND LT), E in H. injection H as ->. apply A. exact J.
Qed.
Theorem solvable_proper l S : built l S -> solvable S = true <-> (forall p, inside (rows_of l) p -> proper (row_bound l p) = true) /\ (forall p, inside (cols_of l) p -> proper (col_bound l p) = true).
Proof.
  intros B. unfold solvable. rewrite andb_true_iff. rewrite (forallb_address proper (rows_of l) (so_rb S) (row_bound l)), (forallb_address proper (cols_of l) (so_cb S) (col_bound l)); [tauto|..]; destruct B; auto.
Qed.

Theorem primal_view l S x n o : built l S -> In n (map fst (cols_of l)) -> primal S x n o = Ok (view l x (n, o)).
Proof. intros B I. unfold primal. rewrite (bl_cols _ _ B), start_in by auto. reflexivity. Qed.

(** Any assignment by name is that of some answer. *)
Lemma view_locate l s p : NoDup (map fst (cols_of l)) -> inside (cols_of l) p -> view l (fun i => s (locate (cols_of l) i)) p = s p.
Proof.
  intros ND I. unfold view. f_equal. apply (address_inj (cols_of l)); auto.
  - apply locate_inside. now apply address_lt.
  - apply locate_address; auto. now apply address_lt.
Qed.

Lemma qsum_app' l l' : (qsum (l ++ l') == qsum l + qsum l')%Q.
Proof. unfold qsum. induction l as [|a r IH]; cbn [List.app fold_right]; [now rewrite Qplus_0_l|]. rewrite IH. ring. Qed.
Lemma qsum_ext {A} (f g : A -> Q) l : (forall a, In a l -> (f a == g a)%Q) -> (qsum (map f l) == qsum (map g l))%Q.
Proof. induction l as [|a r IH]; intros H; [reflexivity|]. cbn [map]. unfold qsum in *. cbn [fold_right]. rewrite (H a) by now left. rewrite IH by (intros; apply H; now right). reflexivity. Qed.

Lemma seq_shift_by a k : seq a k = map (fun o => a + o) (seq 0 k).
Proof.
  assert (G : forall b, seq (a + b) k = map (fun o => a + o) (seq b k)). { induction k as [|k IH]; intros b; [reflexivity|]. cbn [seq map]. f_equal. rewrite <- IH. f_equal. lia. }
  specialize (G 0). now rewrite Nat.add_0_r in G.
Qed.
Lemma sum_blocks C (f : nat -> Q) : NoDup (map fst C) -> (qsum (map f (seq 0 (size C))) == qsum (map (fun b => qsum (map (fun o => f (address C (fst b, o))) (seq 0 (snd b)))) C))%Q.
Proof.
  induction C as [|[n k] C IH] using rev_ind; intros ND; [reflexivity|]. rewrite map_app in ND. cbn [map fst] in ND. assert (N : ~ In n (map fst C)) by (apply NoDup_remove_2 in ND; now rewrite app_nil_r in ND). apply NoDup_remove_1 in ND. rewrite app_nil_r in ND.
  rewrite size_app. unfold size at 2. cbn [map snd fold_right]. rewrite Nat.add_0_r, seq_app, !map_app, !qsum_app'. cbn [Nat.add map fst snd]. rewrite IH by auto.
  assert (E1 : (qsum (map (fun b => qsum (map (fun o => f (address C (fst b, o))) (seq 0 (snd b)))) C) == qsum (map (fun b => qsum (map (fun o => f (address (C ++ [(n, k)]) (fst b, o))) (seq 0 (snd b)))) C))%Q).
  { apply qsum_ext. intros b I. apply qsum_ext. intros o J. apply in_seq in J. rewrite address_app_l; [reflexivity|]. exists (snd b). cbn [fst snd]. split; [now destruct b|lia]. }
  rewrite E1. assert (E2 : (qsum (map f (seq (size C) k)) == qsum (map (fun o => f (address (C ++ [(n, k)]) (n, o))) (seq 0 k)))%Q).
  { rewrite seq_shift_by.
    rewrite map_map. apply qsum_ext. intros o _. rewrite address_new by auto. reflexivity. }
  rewrite E2. apply Qplus_comp; [reflexivity|]. unfold qsum. cbn [fold_right]. now rewrite Qplus_0_r.
Qed.

Theorem objective_cost l S x : built l S -> (objective S x == total_cost l (view l x))%Q.
Proof.
  intros B. unfold objective, total_cost. rewrite (bl_ob _ _ B), sum_blocks by apply (bl_nc _ _ B). apply qsum_ext. intros b I. apply qsum_ext. intros o J. apply in_seq in J. assert (P : inside (cols_of l) (fst b, o)) by (exists (snd b); cbn [fst snd]; split; [now destruct b|lia]).
  rewrite (nth_error_nth _ _ _ (bl_o _ _ B _ P)). reflexivity.
Qed.

(** ** Reading lists of commands *)

Lemma col_bound_in l n o b : In (ColBnd n o b) l -> (forall b', In (ColBnd n o b') l -> b' = b) -> col_bound l (n, o) = b.
Proof.
  induction l as [|c r IH] using rev_ind; [intros []|]. intros I U. rewrite snoc_col. apply in_app_or in I as [I|[->|[]]]; [|destruct (place_dec (n, o) (n, o)); [reflexivity|congruence]].
  assert (R : col_bound r (n, o) = b) by (apply IH; auto; intros b' J; apply U; apply in_or_app; auto). destruct c; auto. destruct (place_dec (n0, o0) (n, o)) as [E|_]; auto. injection E as -> ->. apply U. apply in_or_app. right. now left.
Qed.
Lemma col_bound_none l n o : (forall b, ~ In (ColBnd n o b) l) -> col_bound l (n, o) = Lower 0.
Proof.
  induction l as [|c r IH] using rev_ind; [reflexivity|]. intros U. rewrite snoc_col.
  assert (R : col_bound r (n, o) = Lower 0) by (apply IH; intros b' J; apply (U b'); apply in_or_app; auto). destruct c; auto. destruct (place_dec (n0, o0) (n, o)) as [E|_]; auto. injection E as -> ->. exfalso. apply (U b). apply in_or_app. right. now left.
Qed.
Lemma row_bound_in l n o b : In (RowBnd n o b) l -> (forall b', In (RowBnd n o b') l -> b' = b) -> row_bound l (n, o) = b.
Proof.
  induction l as [|c r IH] using rev_ind; [intros []|]. intros I U. rewrite snoc_bound. apply in_app_or in I as [I|[->|[]]]; [|destruct (place_dec (n, o) (n, o)); [reflexivity|congruence]].
  assert (R : row_bound r (n, o) = b) by (apply IH; auto; intros b' J; apply U; apply in_or_app; auto). destruct c; auto. destruct (place_dec (n0, o0) (n, o)) as [E|_]; auto. injection E as -> ->. apply U. apply in_or_app. right. now left.
Qed.
Lemma cost_in l n o b : In (Obj n o b) l -> (forall b', In (Obj n o b') l -> b' = b) -> cost_of l (n, o) = b.
Proof.
  induction l as [|c r IH] using rev_ind; [intros []|]. intros I U. rewrite snoc_cost. apply in_app_or in I as [I|[->|[]]]; [|destruct (place_dec (n, o) (n, o)); [reflexivity|congruence]].
  assert (R : cost_of r (n, o) = b) by (apply IH; auto; intros b' J; apply U; apply in_or_app; auto). destruct c; auto. destruct (place_dec (n0, o0) (n, o)) as [E|_]; auto. injection E as -> ->. apply U. apply in_or_app. right. now left.
Qed.
Lemma cost_none l n o : (forall q, ~ In (Obj n o q) l) -> cost_of l (n, o) = 0%Q.
Proof.
  induction l as [|c r IH] using rev_ind; [reflexivity|]. intros U. rewrite snoc_cost.
  assert (R : cost_of r (n, o) = 0%Q) by (apply IH; intros b' J; apply (U b'); apply in_or_app; auto). destruct c; auto. destruct (place_dec (n0, o0) (n, o)) as [E|_]; auto. injection E as -> ->. exfalso. apply (U q). apply in_or_app. right. now left.
Qed.

Lemma row_sum_app l l' s p : (row_sum (l ++ l') s p == row_sum l s p + row_sum l' s p)%Q.
Proof. unfold row_sum. now rewrite entries_app, map_app, qsum_app'. Qed.
Lemma row_sum_flat {A} (f : A -> list cmd) L s p : (row_sum (flat_map f L) s p == qsum (map (fun a => row_sum (f a) s p) L))%Q.
Proof. induction L as [|a r IH]; [reflexivity|]. cbn [flat_map map]. rewrite row_sum_app, IH. reflexivity. Qed.
Lemma row_sum_0 l s p : (forall e, In e (entries_of l) -> fst (fst e) <> p) -> (row_sum l s p == 0)%Q.
Proof.
  unfold row_sum. generalize (entries_of l) as L. induction L as [|e r IH]; intros H; [reflexivity|]. cbn [map]. unfold qsum in *. cbn [fold_right]. rewrite IH by (intros; apply H; now right). destruct (place_dec (fst (fst e)) p) as [E|_]; [exfalso; apply (H e); cbn; auto|]. ring.
Qed.
Lemma qsum_zero {A} (f : A -> Q) L : (forall a, In a L -> (f a == 0)%Q) -> (qsum (map f L) == 0)%Q.
Proof. induction L as [|a r IH]; intros H; [reflexivity|]. cbn [map]. unfold qsum in *. cbn [fold_right]. rewrite (H a) by now left. rewrite IH by (intros; apply H; now right). ring. Qed.
Lemma qsum_single {A} (f : A -> Q) L a : NoDup L -> In a L -> (forall b, In b L -> b <> a -> (f b == 0)%Q) -> (qsum (map f L) == f a)%Q.
Proof.
  induction 1 as [|b r N ND IH]; intros I H; [destruct I|]. cbn [map]. unfold qsum in *. cbn [fold_right]. destruct I as [->|I].
  - assert (Z : (qsum (map f r) == 0)%Q) by (apply qsum_zero; intros b J; apply H; [now right|]; intros ->; contradiction). unfold qsum in Z. rewrite Z. ring.
  - rewrite IH; auto; [|intros c J; apply H; now right]. rewrite (H b); [ring|now left|]. intros ->. contradiction.
Qed.

Lemma NoDup_app' {A} (l l' : list A) : NoDup l -> NoDup l' -> (forall a, In a l -> ~ In a l') -> NoDup (l ++ l').
Proof. induction 1 as [|a r N ND IH]; intros N' H; [exact N'|]. cbn. constructor; [|apply IH; auto; intros; apply H; now right]. intros I. apply in_app_or in I as [I|I]; [contradiction|]. apply (H a); cbn; auto. Qed.
Lemma NoDup_flat_map {A B} (f : A -> list B) L : NoDup L -> (forall a, In a L -> NoDup (f a)) -> (forall a b x, In a L -> In b L -> In x (f a) -> In x (f b) -> a = b) -> NoDup (flat_map f L).
Proof.
  induction 1 as [|a r N ND IH]; intros H1 H2; [constructor|]. cbn [flat_map]. apply NoDup_app'.
  - apply H1. now left.
  - apply IH; [intros; apply H1; now right|]. intros x y z X Y. apply H2; now right.
  - intros x X Y. apply in_flat_map in Y as (b & J & Y). apply N. rewrite (H2 a b x); cbn; auto.
Qed.
Lemma keys_app l l' : keys (l ++ l') = keys l ++ keys l'.
Proof. unfold keys. now rewrite entries_app, map_app. Qed.
Lemma keys_flat {A} (f : A -> list cmd) L : keys (flat_map f L) = flat_map (fun a => keys (f a)) L.
Proof. induction L as [|a r IH]; [reflexivity|]. cbn [flat_map]. now rewrite keys_app, IH. Qed.
Lemma rows_flat {A} (f : A -> list cmd) L : rows_of (flat_map f L) = flat_map (fun a => rows_of (f a)) L.
Proof. induction L as [|a r IH]; [reflexivity|]. cbn [flat_map]. now rewrite rows_app, IH. Qed.
Lemma cols_flat {A} (f : A -> list cmd) L : cols_of (flat_map f L) = flat_map (fun a => cols_of (f a)) L.
Proof. induction L as [|a r IH]; [reflexivity|]. cbn [flat_map]. now rewrite cols_app, IH. Qed.

(** ** Commands in sequence *)

Definition uses (R C : list (name * nat)) (c : cmd) : Prop :=
  match c with
  | RowBnd n o _ => inside R (n, o) | ColBnd n o _ | Obj n o _ => inside C (n, o) | Entry n o m p _ => inside R (n, o) /\ inside C (m, p)
  | _ => False
  end.
Lemma fine_uses R C l : (forall c, In c l -> uses R C c) -> fine R C l.
Proof.
  induction l as [|c r IH]; intros H; [exact I|]. specialize (IH ltac:(intros; apply H; now right)). pose proof (H c ltac:(now left)) as U. destruct c; cbn [fine uses] in *; tauto.
Qed.
Lemma uses_rows R C l : (forall c, In c l -> uses R C c) -> rows_of l = [].
Proof. induction l as [|c r IH]; intros H; [reflexivity|]. specialize (IH ltac:(intros; apply H; now right)). pose proof (H c ltac:(now left)) as U. destruct c; cbn in *; tauto. Qed.
Lemma uses_cols R C l : (forall c, In c l -> uses R C c) -> cols_of l = [].
Proof. induction l as [|c r IH]; intros H; [reflexivity|]. specialize (IH ltac:(intros; apply H; now right)). pose proof (H c ltac:(now left)) as U. destruct c; cbn in *; tauto. Qed.

Lemma fine_cols R C L : NoDup (map fst (C ++ L)) -> (forall n k, In (n, k) L -> 0 < k) -> fine R C (map (fun b => AddCols (fst b) (snd b)) L).
Proof.
  revert C. induction L as [|[n k] r IH]; intros C ND H; [exact I|]. cbn [map fine fst snd]. sp.
  - rewrite map_app in ND. cbn [map fst] in ND. apply NoDup_remove_2 in ND. intros J. apply ND. apply in_or_app. now left.
  - apply (H n). now left.
  - apply IH; [now rewrite <- app_assoc|]. intros m j J. apply (H m). now right.
Qed.
Lemma fine_rows R C L : NoDup (map fst (R ++ L)) -> (forall n k, In (n, k) L -> 0 < k) -> fine R C (map (fun b => AddRows (fst b) (snd b)) L).
Proof.
  revert R. induction L as [|[n k] r IH]; intros R ND H; [exact I|]. cbn [map fine fst snd]. sp.
  - rewrite map_app in ND. cbn [map fst] in ND. apply NoDup_remove_2 in ND. intros J. apply ND. apply in_or_app. now left.
  - apply (H n). now left.
  - apply IH; [now rewrite <- app_assoc|]. intros m j J. apply (H m). now right.
Qed.
Lemma cols_of_adds L : cols_of (map (fun b => AddCols (fst b) (snd b)) L) = L.
Proof. induction L as [|[n k] r IH]; [reflexivity|]. unfold cols_of, rows_of, entries_of in *. cbn [map flat_map List.app fst snd]. now rewrite IH. Qed.
Lemma rows_of_adds L : rows_of (map (fun b => AddRows (fst b) (snd b)) L) = L.
Proof. induction L as [|[n k] r IH]; [reflexivity|]. unfold cols_of, rows_of, entries_of in *. cbn [map flat_map List.app fst snd]. now rewrite IH. Qed.
Lemma rows_of_addcols L : rows_of (map (fun b => AddCols (fst b) (snd b)) L) = [].
Proof. induction L as [|[n k] r IH]; [reflexivity|]. unfold cols_of, rows_of, entries_of in *. cbn [map flat_map List.app fst snd]. now rewrite IH. Qed.
Lemma cols_of_addrows L : cols_of (map (fun b => AddRows (fst b) (snd b)) L) = [].
Proof. induction L as [|[n k] r IH]; [reflexivity|]. unfold cols_of, rows_of, entries_of in *. cbn [map flat_map List.app fst snd]. now rewrite IH. Qed.
Lemma entries_of_addcols L : entries_of (map (fun b => AddCols (fst b) (snd b)) L) = [].
Proof. induction L as [|[n k] r IH]; [reflexivity|]. unfold cols_of, rows_of, entries_of in *. cbn [map flat_map List.app fst snd]. now rewrite IH. Qed.
Lemma entries_of_addrows L : entries_of (map (fun b => AddRows (fst b) (snd b)) L) = [].
Proof. induction L as [|[n k] r IH]; [reflexivity|]. unfold cols_of, rows_of, entries_of in *. cbn [map flat_map List.app fst snd]. now rewrite IH. Qed.

Lemma col_bound_app_none l l' n o : (forall b, ~ In (ColBnd n o b) l') -> col_bound (l ++ l') (n, o) = col_bound l (n, o).
Proof.
  induction l' as [|c r IH] using rev_ind; intros H; [now rewrite app_nil_r|]. rewrite app_assoc, snoc_col. rewrite IH by (intros b I; apply (H b); apply in_or_app; auto). destruct c; auto. destruct (place_dec (n0, o0) (n, o)) as [E|_]; auto. injection E as -> ->. exfalso. apply (H b). apply in_or_app. right. now left.
Qed.
Lemma col_bound_app_some l l' n o b : In (ColBnd n o b) l' -> (forall b', In (ColBnd n o b') l' -> b' = b) -> col_bound (l ++ l') (n, o) = b.
Proof.
  intros I U. induction l' as [|c r IH] using rev_ind; [destruct I|]. rewrite app_assoc, snoc_col. apply in_app_or in I as [I|[->|[]]]; [|destruct (place_dec (n, o) (n, o)); [reflexivity|congruence]].
  rewrite IH; auto; [|intros b' J; apply U; apply in_or_app; auto]. destruct c; auto. destruct (place_dec (n0, o0) (n, o)) as [E|_]; auto. injection E as -> ->. apply U. apply in_or_app. right. now left.
Qed.
Lemma row_sum_none l s p : entries_of l = [] -> (row_sum l s p == 0)%Q.
Proof. unfold row_sum. now intros ->. Qed.
Lemma row_sum_nil s p : row_sum [] s p = 0%Q.
Proof. reflexivity. Qed.
Lemma row_sum_cons r ro c co q l s p : (row_sum (Entry r ro c co q :: l) s p == (if place_dec (r, ro) p then q * s (c, co) else 0) + row_sum l s p)%Q.
Proof. unfold row_sum. cbn [entries_of flat_map List.app map fst snd]. unfold qsum. cbn [fold_right]. reflexivity. Qed.
Lemma entries_flat {A} (f : A -> list cmd) L : entries_of (flat_map f L) = flat_map (fun a => entries_of (f a)) L.
Proof. induction L as [|a r IH]; [reflexivity|]. cbn [flat_map]. now rewrite entries_app, IH. Qed.
Lemma flat_map_nil {A B} (f : A -> list B) L : (forall a, In a L -> f a = []) -> flat_map f L = [].
Proof. induction L as [|a r IH]; intros H; [reflexivity|]. cbn [flat_map]. rewrite (H a) by now left. rewrite IH by (intros; apply H; now right). reflexivity. Qed.
Lemma entries_in l e : In e (entries_of l) <-> In (Entry (fst (fst (fst e))) (snd (fst (fst e))) (fst (snd (fst e))) (snd (snd (fst e))) (snd e)) l.
Proof.
  unfold entries_of. rewrite in_flat_map. split.
  - intros (c & I & J). destruct c; cbn in J; try tauto. destruct J as [<-|[]]. exact I.
  - intros I. eexists. split; [exact I|]. destruct e as [[[? ?] [? ?]] ?]. cbn. now left.
Qed.
Lemma mapM_pure {A B} (f : A -> res B) (g : A -> B) l : (forall a, In a l -> f a = Ok (g a)) -> mapM f l = Ok (map g l).
Proof.
  induction l as [|a r IH]; intros H; [reflexivity|]. cbn [mapM map]. rewrite (H a) by now left. rewrite bind_ok, IH by (intros; apply H; now right). reflexivity.
Qed.
Lemma mapM_first {A B} (f : A -> res B) l e : (exists a l1 l2, l = l1 ++ a :: l2 /\ f a = Err e /\ forall b, In b l1 -> exists y, f b = Ok y) -> mapM f l = Err e.
Proof.
  intros (a & l1 & l2 & -> & E & H). induction l1 as [|b r IH]; cbn [List.app mapM]; [now rewrite E|]. destruct (H b ltac:(now left)) as (y & ->). rewrite bind_ok, IH by (intros; apply H; now right). reflexivity.
Qed.
