(** Lists of commands described by their columns, bounds, rows with terms, and objective. *)
From Coq Require Import List String Bool Arith ZArith QArith Lia Lqa.
From Verif Require Import Base Cases GraphData GraphDataProofs ClusteringProofs HydroTables Glpk GlpkSpec GlpkProofs GlpkEnergy GlpkRows.
Import ListNotations.
Open Scope nat_scope.
Open Scope list_scope.
Local Ltac sp := repeat match goal with |- _ /\ _ => split end.

Definition spec_entries (r : rowspec) : list (place * place * Q) := map (fun t => (rs_place r, fst t, snd t)) (rs_terms r).
Definition term_sum (s : place -> Q) (l : list (place * Q)) : Q := qsum (map (fun t => (snd t * s (fst t))%Q) l).

Record described (l : list cmd) (C : list (name * nat)) (CB : list (place * bnd)) (R : list (name * nat)) (SP : list rowspec) (OB : list (place * Q)) : Prop := {
  ds_cols : cols_of l = C;
  ds_rows : rows_of l = R;
  ds_cb : forall n o b, In (ColBnd n o b) l <-> In ((n, o), b) CB;
  ds_rb : forall n o b, In (RowBnd n o b) l <-> In ((n, o), b) (map (fun r => (rs_place r, rs_bnd r)) SP);
  ds_ent : entries_of l = flat_map spec_entries SP;
  ds_obj : forall n o q, In (Obj n o q) l <-> In ((n, o), q) OB }.

Lemma described_nil : described [] [] [] [] [] [].
Proof. constructor; try reflexivity. Qed.
Lemma described_app l C CB R SP OB l' C' CB' R' SP' OB' : described l C CB R SP OB -> described l' C' CB' R' SP' OB' -> described (l ++ l') (C ++ C') (CB ++ CB') (R ++ R') (SP ++ SP') (OB ++ OB').
Proof.
  intros [A1 A2 A3 A4 A5 A6] [B1 B2 B3 B4 B5 B6]. constructor.
  - now rewrite cols_app, A1, B1.
  - now rewrite rows_app, A2, B2.
  - intros n o b. rewrite !in_app_iff, A3, B3. reflexivity.
  - intros n o b. rewrite map_app, !in_app_iff, A4, B4. reflexivity.
  - now rewrite entries_app, flat_map_app, A5, B5.
  - intros n o b. rewrite !in_app_iff, A6, B6. reflexivity.
Qed.
Lemma no_in_map {A B} (f : A -> B) l b : (forall a, f a <> b) -> ~ In b (map f l).
Proof. intros H I. apply in_map_iff in I as (a & E & _). now apply (H a). Qed.
Lemma described_cols L : described (add_cols L) L [] [] [] [].
Proof.
  unfold add_cols. constructor; [apply cols_of_adds|apply rows_of_addcols| | |apply entries_of_addcols|]; intros; (split; [intros I; apply in_map_iff in I as (? & E & _); discriminate E|intros []]).
Qed.
Lemma described_rows L : described (add_rows L) [] [] L [] [].
Proof.
  unfold add_rows. constructor; [apply cols_of_addrows|apply rows_of_adds| | |apply entries_of_addrows|]; intros; (split; [intros I; apply in_map_iff in I as (? & E & _); discriminate E|intros []]).
Qed.
Lemma map_nil_by {A B C} (f : B -> list C) (g : A -> B) l : (forall a, f (g a) = []) -> flat_map f (map g l) = [].
Proof. intros H. induction l as [|a l IH]; [reflexivity|]. cbn [map flat_map]. now rewrite H, IH. Qed.
Lemma described_bnds L : described (map col_cmd L) [] L [] [] [].
Proof.
  constructor.
  - now apply map_nil_by.
  - now apply map_nil_by.
  - intros n o b. rewrite in_map_iff. split; [intros (((m & p) & c) & E & I); injection E as -> -> ->; exact I|]. intros I. exists ((n, o), b). auto.
  - intros n o b. split; [intros I; apply in_map_iff in I as (? & E & _); discriminate E|intros []].
  - now apply map_nil_by.
  - intros n o b. split; [intros I; apply in_map_iff in I as (? & E & _); discriminate E|intros []].
Qed.
Lemma described_objs L : described (map obj_cmd L) [] [] [] [] L.
Proof.
  constructor.
  - now apply map_nil_by.
  - now apply map_nil_by.
  - intros n o b. split; [intros I; apply in_map_iff in I as (? & E & _); discriminate E|intros []].
  - intros n o b. split; [intros I; apply in_map_iff in I as (? & E & _); discriminate E|intros []].
  - now apply map_nil_by.
  - intros n o b. rewrite in_map_iff. split; [intros (((m & p) & c) & E & I); injection E as -> -> ->; exact I|]. intros I. exists ((n, o), b). auto.
Qed.
Lemma in_row_cmds c r : In c (row_cmds r) -> (exists t, In t (rs_terms r) /\ c = row_entry (rs_place r) t) \/ c = RowBnd (fst (rs_place r)) (snd (rs_place r)) (rs_bnd r).
Proof. unfold row_cmds. rewrite in_app_iff. intros [I|[<-|[]]]; [|now right]. apply in_map_iff in I as (t & <- & I). left. eauto. Qed.
Lemma described_specs L : described (flat_map row_cmds L) [] [] [] L [].
Proof.
  constructor.
  - rewrite cols_flat. apply flat_map_nil. intros r _. unfold row_cmds. rewrite cols_app. cbn. rewrite app_nil_r. now apply map_nil_by.
  - rewrite rows_flat. apply flat_map_nil. intros r _. unfold row_cmds. rewrite rows_app. cbn. rewrite app_nil_r. now apply map_nil_by.
  - intros n o b. split; [|intros []]. intros I. apply in_flat_map in I as (r & _ & I). apply in_row_cmds in I as [(t & _ & E)|E]; discriminate E.
  - intros n o b. rewrite in_flat_map, in_map_iff. split.
    + intros (r & I & J). apply in_row_cmds in J as [(t & _ & E)|E]; [discriminate E|]. injection E as -> -> ->. exists r. split; [now destruct (rs_place r)|exact I].
    + intros (r & E & I). injection E as E1 E2. exists r. split; [exact I|]. unfold row_cmds. rewrite in_app_iff. right. left. rewrite E1, E2. reflexivity.
  - rewrite entries_flat. apply flat_map_ext. intros r. unfold row_cmds. rewrite entries_app. cbn. rewrite app_nil_r. unfold spec_entries. induction (rs_terms r) as [|t k IH]; [reflexivity|]. cbn [map entries_of flat_map row_entry List.app]. fold (entries_of (map (row_entry (rs_place r)) k)). rewrite IH. now destruct (rs_place r), t as ((? & ?) & ?).
  - intros n o b. split; [|intros []]. intros I. apply in_flat_map in I as (r & _ & I). apply in_row_cmds in I as [(t & _ & E)|E]; discriminate E.
Qed.

Lemma NoDup_fst {A B} (l : list (A * B)) a b c : NoDup (map fst l) -> In (a, b) l -> In (a, c) l -> b = c.
Proof.
  induction l as [|[x y] l IH]; cbn [map fst]; intros N I J; [destruct I|]. inversion N as [|? ? N1 N2]; subst. destruct I as [I|I], J as [J|J]; try congruence; [| |now apply IH].
  - injection I as <- <-. exfalso. apply N1. apply (in_map fst) in J. exact J.
  - injection J as <- <-. exfalso. apply N1. apply (in_map fst) in I. exact I.
Qed.

Section Described.
Variables (l : list cmd) (C : list (name * nat)) (CB : list (place * bnd)) (R : list (name * nat)) (SP : list rowspec) (OB : list (place * Q)).
Hypothesis D : described l C CB R SP OB.
Hypothesis NC : NoDup (map fst CB).
Hypothesis NR : NoDup (map rs_place SP).
Hypothesis NO : NoDup (map fst OB).

Lemma desc_col p b : In (p, b) CB -> col_bound l p = b.
Proof.
  intros I. destruct p as [n o]. apply col_bound_in; [now apply (ds_cb _ _ _ _ _ _ D)|]. intros b' J. apply (ds_cb _ _ _ _ _ _ D) in J. exact (NoDup_fst CB (n, o) b' b NC J I).
Qed.
Lemma desc_col_none p : ~ In p (map fst CB) -> col_bound l p = Lower 0.
Proof. intros H. destruct p as [n o]. apply col_bound_none. intros b J. apply (ds_cb _ _ _ _ _ _ D) in J. apply H. apply (in_map fst) in J. exact J. Qed.
Lemma desc_pairs : NoDup (map fst (map (fun r => (rs_place r, rs_bnd r)) SP)).
Proof. rewrite map_map. exact NR. Qed.
Lemma desc_row r : In r SP -> row_bound l (rs_place r) = rs_bnd r.
Proof.
  intros I. assert (J : In (rs_place r, rs_bnd r) (map (fun r => (rs_place r, rs_bnd r)) SP)) by (apply in_map_iff; eauto). destruct (rs_place r) as [n o] eqn:E. apply row_bound_in; [now apply (ds_rb _ _ _ _ _ _ D)|]. intros b' K. apply (ds_rb _ _ _ _ _ _ D) in K. exact (NoDup_fst _ (n, o) b' (rs_bnd r) desc_pairs K J).
Qed.
Lemma desc_row_none p : ~ In p (map rs_place SP) -> row_bound l p = Free.
Proof.
  intros H. destruct p as [n o]. assert (X : forall b, ~ In (RowBnd n o b) l). { intros b J. apply (ds_rb _ _ _ _ _ _ D) in J. apply (in_map fst) in J. rewrite map_map in J. now apply H. }
  clear - X. unfold row_bound. revert X. induction l as [|c k IH] using rev_ind; intros X; [reflexivity|]. rewrite fold_left_app. cbn [fold_left]. destruct c; try (apply IH; intros b1 J; apply (X b1); apply in_or_app; now left).
  destruct (place_dec (n0, o0) (n, o)) as [E|_]; [injection E as -> ->; exfalso; apply (X b); apply in_or_app; right; now left|]. apply IH. intros b' J. apply (X b'). apply in_or_app. now left.
Qed.
Lemma desc_sum r s : In r SP -> (row_sum l s (rs_place r) == term_sum s (rs_terms r))%Q.
Proof.
  intros I. unfold row_sum. rewrite (ds_ent _ _ _ _ _ _ D). clear D. induction SP as [|a k IH]; [destruct I|]. cbn [map] in NR. inversion NR as [|? ? N1 N2]; subst. cbn [flat_map]. rewrite map_app, qsum_app'.
  assert (SAME : forall q, (qsum (map (fun e => if place_dec (fst (fst e)) (rs_place q) then (snd e * s (snd (fst e)))%Q else 0%Q) (spec_entries q)) == term_sum s (rs_terms q))%Q).
  { intros q. unfold spec_entries, term_sum. rewrite map_map. apply qsum_ext. intros t _. cbn [fst snd]. destruct (place_dec (rs_place q) (rs_place q)); [reflexivity|congruence]. }
  assert (ZERO : forall q p, rs_place q <> p -> (qsum (map (fun e => if place_dec (fst (fst e)) p then (snd e * s (snd (fst e)))%Q else 0%Q) (spec_entries q)) == 0)%Q).
  { intros q p N. unfold spec_entries. rewrite map_map. apply qsum_zero. intros t _. cbn [fst snd]. destruct (place_dec (rs_place q) p); [contradiction|reflexivity]. }
  destruct I as [->|I].
  - rewrite SAME. assert (Z : (qsum (map (fun e => if place_dec (fst (fst e)) (rs_place r) then (snd e * s (snd (fst e)))%Q else 0%Q) (flat_map spec_entries k)) == 0)%Q).
    { clear IH NR N2. induction k as [|b k IHk]; [reflexivity|]. cbn [flat_map]. rewrite map_app, qsum_app', IHk by (intros X; apply N1; now right). rewrite ZERO; [reflexivity|]. intros E. apply N1. now left. }
    rewrite Z. ring.
  - rewrite IH by auto. rewrite ZERO; [ring|]. intros E. apply N1. rewrite E. now apply in_map.
Qed.
Lemma desc_sum_none p s : ~ In p (map rs_place SP) -> (row_sum l s p == 0)%Q.
Proof.
  intros H. apply row_sum_0. rewrite (ds_ent _ _ _ _ _ _ D). intros e I E. apply in_flat_map in I as (r & I & J). unfold spec_entries in J. apply in_map_iff in J as (t & <- & _). cbn [fst] in E. apply H. rewrite <- E. now apply in_map.
Qed.

(** What the commands state. *)
Lemma desc_states s : (forall p b, In (p, b) CB -> inside C p) -> (forall r, In r SP -> inside R (rs_place r)) ->
  states l s <-> (forall p b, In (p, b) CB -> within b (s p)) /\ (forall p, inside C p -> ~ In p (map fst CB) -> (0 <= s p)%Q) /\ (forall r, In r SP -> within (rs_bnd r) (term_sum s (rs_terms r))).
Proof.
  intros IC IR. unfold states. rewrite (ds_cols _ _ _ _ _ _ D), (ds_rows _ _ _ _ _ _ D). split.
  - intros (A & B). sp.
    + intros p b I. rewrite <- (desc_col p b I). apply A. now apply (IC p b).
    + intros p I N. specialize (A p I). now rewrite (desc_col_none p N) in A.
    + intros r I. rewrite <- (desc_row r I). apply (within_ext _ (row_sum l s (rs_place r))); [now apply desc_sum|]. apply B. now apply IR.
  - intros (A & B & E). split.
    + intros p I. destruct (in_dec place_dec p (map fst CB)) as [J|J].
      * apply in_map_iff in J as ((q & b) & X & J). cbn in X. subst q. rewrite (desc_col p b J). now apply A.
      * rewrite (desc_col_none p J). now apply B.
    + intros p I. destruct (in_dec place_dec p (map rs_place SP)) as [J|J].
      * apply in_map_iff in J as (r & <- & J). rewrite (desc_row r J). apply (within_ext _ (row_sum l s (rs_place r)) (term_sum s (rs_terms r))); [now apply desc_sum|]. now apply E.
      * rewrite (desc_row_none p J). constructor.
Qed.
Lemma desc_proper : (forall p b, In (p, b) CB -> proper b = true) -> (forall r, In r SP -> proper (rs_bnd r) = true) ->
  (forall p, inside (rows_of l) p -> proper (row_bound l p) = true) /\ (forall p, inside (cols_of l) p -> proper (col_bound l p) = true).
Proof.
  intros PC PR. split.
  - intros p _. destruct (in_dec place_dec p (map rs_place SP)) as [J|J]; [|now rewrite (desc_row_none p J)]. apply in_map_iff in J as (r & <- & J). rewrite (desc_row r J). now apply PR.
  - intros p _. destruct (in_dec place_dec p (map fst CB)) as [J|J]; [|now rewrite (desc_col_none p J)]. apply in_map_iff in J as ((q & b) & X & J). cbn in X. subst q. rewrite (desc_col p b J). now apply (PC p).
Qed.
Lemma desc_improper : (exists p b, In (p, b) CB /\ inside C p /\ proper b = false) \/ (exists r, In r SP /\ inside R (rs_place r) /\ proper (rs_bnd r) = false) ->
  ~ ((forall p, inside (rows_of l) p -> proper (row_bound l p) = true) /\ (forall p, inside (cols_of l) p -> proper (col_bound l p) = true)).
Proof.
  rewrite (ds_cols _ _ _ _ _ _ D), (ds_rows _ _ _ _ _ _ D). intros [(p & b & I & J & E)|(r & I & J & E)] (A & B).
  - specialize (B p J). rewrite (desc_col p b I) in B. congruence.
  - specialize (A _ J). rewrite (desc_row r I) in A. congruence.
Qed.
Lemma desc_keys : (forall r, In r SP -> NoDup (map fst (rs_terms r))) -> NoDup (keys l).
Proof.
  intros N. unfold keys. rewrite (ds_ent _ _ _ _ _ _ D). rewrite flat_map_concat_map, concat_map, map_map, <- flat_map_concat_map.
  assert (ND : NoDup SP) by (eapply NoDup_map_inv; exact NR).
  apply NoDup_flat_map; auto.
  - intros r I. unfold spec_entries. rewrite map_map. cbn [fst]. specialize (N r I). rewrite <- (map_map fst (fun q => (rs_place r, q))). apply NoDup_map_in; auto. intros a b _ _ E. now injection E.
  - intros a b x Ia Ib Xa Xb. unfold spec_entries in *. rewrite map_map in *. apply in_map_iff in Xa as (t & Et & _), Xb as (u & Eu & _). cbn [fst] in *. rewrite <- Et in Eu. injection Eu as E _.
    clear - NR Ia Ib E. induction SP as [|c k IH]; [destruct Ia|]. cbn [map] in NR. inversion NR as [|? ? N1 N2]; subst. destruct Ia as [->|Ia], Ib as [->|Ib]; auto.
    + exfalso. apply N1. rewrite <- E. now apply in_map.
    + exfalso. apply N1. rewrite E. now apply in_map.
Qed.
Lemma desc_cost p q : In (p, q) OB -> cost_of l p = q.
Proof. intros I. destruct p as [n o]. apply cost_in; [now apply (ds_obj _ _ _ _ _ _ D)|]. intros b' J. apply (ds_obj _ _ _ _ _ _ D) in J. exact (NoDup_fst OB (n, o) b' q NO J I). Qed.
Lemma desc_cost_none p : ~ In p (map fst OB) -> cost_of l p = 0%Q.
Proof. intros H. destruct p as [n o]. apply cost_none. intros b J. apply (ds_obj _ _ _ _ _ _ D) in J. apply H. apply (in_map fst) in J. exact J. Qed.
End Described.

(** The objective as the sum of its terms. *)
Lemma sum_over (f g : place -> Q) (L : list place) OB : NoDup L -> NoDup (map fst OB) -> (forall p q, In (p, q) OB -> In p L /\ (f p == q)%Q) -> (forall p, In p L -> ~ In p (map fst OB) -> (f p == 0)%Q) ->
  (qsum (map (fun p => (f p * g p)%Q) L) == qsum (map (fun t => (snd t * g (fst t))%Q) OB))%Q.
Proof.
  intros NL. revert OB. induction L as [|p L IH]; intros OB NO A B.
  - destruct OB as [|[p q] OB]; [reflexivity|]. destruct (A p q ltac:(now left)) as ([] & _).
  - inversion NL as [|? ? N1 N2]; subst. cbn [map]. change (qsum (?a :: ?b)) with (a + qsum b)%Q. destruct (in_dec place_dec p (map fst OB)) as [J|J].
    + apply in_map_iff in J as ((p' & q) & E & J). cbn in E. subst p'. destruct (in_split _ _ J) as (O1 & O2 & ->). rewrite map_app in *. cbn [map fst snd] in *. apply NoDup_remove in NO as (NO & NI). rewrite qsum_app'. change (qsum (?a :: ?b)) with (a + qsum b)%Q. destruct (A p q J) as (_ & ->). rewrite (IH N2 (O1 ++ O2)).
      * rewrite map_app, qsum_app'. ring.
      * now rewrite map_app.
      * intros p' q' I. destruct (A p' q') as (X & Y); [apply in_app_or in I as [I|I]; apply in_or_app; [now left|right; now right]|]. split; auto. destruct X as [->|X]; auto. exfalso. apply NI. rewrite <- map_app. apply (in_map fst) in I. exact I.
      * intros p' I N. apply B; [now right|]. intros X. apply N. rewrite map_app. apply in_app_or in X as [X|[->|X]]; [apply in_or_app; now left|contradiction|apply in_or_app; now right].
    + rewrite (B p ltac:(now left) J). rewrite (IH N2 OB); auto; [ring| |].
      * intros p' q' I. destruct (A p' q' I) as ([->|X] & Y); auto. exfalso. apply J. apply (in_map fst) in I. exact I.
      * intros p' I. apply B. now right.
Qed.
Definition places_of (C : list (name * nat)) : list place := flat_map (fun b => map (fun o => (fst b, o)) (seq 0 (snd b))) C.
Lemma in_places C p : In p (places_of C) <-> inside C p.
Proof.
  unfold places_of, inside. rewrite in_flat_map. destruct p as [n o]. cbn [fst snd]. split.
  - intros ((m & k) & I & J). apply in_map_iff in J as (o' & E & J). cbn in E, J. injection E as -> ->. apply in_seq in J. exists k. split; [exact I|lia].
  - intros (k & I & L). exists (n, k). split; auto. apply in_map_iff. exists o. split; [reflexivity|]. apply in_seq. cbn. lia.
Qed.
Lemma places_nodup C : NoDup (map fst C) -> NoDup (places_of C).
Proof.
  intros N. unfold places_of. apply NoDup_flat_map.
  - eapply NoDup_map_inv. exact N.
  - intros b _. apply NoDup_map_in; [apply seq_NoDup|]. intros x y _ _ E. now injection E.
  - intros [n k] [m h] x I J X Y. apply in_map_iff in X as (o & <- & _), Y as (q & E & _). cbn in E. injection E as -> ->. f_equal. exact (NoDup_fst C n k h N I J).
Qed.
Lemma desc_total l C CB R SP OB s : described l C CB R SP OB -> NoDup (map fst OB) -> NoDup (map fst C) -> (forall p q, In (p, q) OB -> inside C p) ->
  (total_cost l s == term_sum s OB)%Q.
Proof.
  intros D NO NC IO. unfold total_cost. rewrite (ds_cols _ _ _ _ _ _ D). unfold term_sum. rewrite <- (sum_over (cost_of l) s (places_of C) OB).
  - unfold places_of. rewrite flat_map_concat_map, concat_map, map_map. clear. induction C as [|b k IH]; [reflexivity|]. cbn [map List.concat]. change (qsum (?a :: ?b)) with (a + qsum b)%Q. rewrite qsum_app', map_map, IH. reflexivity.
  - now apply places_nodup.
  - exact NO.
  - intros p q I. split; [apply in_places; now apply (IO p q)|]. rewrite (desc_cost l C CB R SP OB D NO p q I). reflexivity.
  - intros p _ N. rewrite (desc_cost_none l C CB R SP OB D p N). reflexivity.
Qed.

(** Commands that use what is there. *)
Lemma fine_bnds R C L : (forall p b, In (p, b) L -> inside C p) -> fine R C (map col_cmd L).
Proof. intros H. apply fine_uses. intros c I. apply in_map_iff in I as (((n & o) & b) & <- & I). cbn. now apply (H (n, o) b). Qed.
Lemma fine_objs R C L : (forall p q, In (p, q) L -> inside C p) -> fine R C (map obj_cmd L).
Proof. intros H. apply fine_uses. intros c I. apply in_map_iff in I as (((n & o) & b) & <- & I). cbn. now apply (H (n, o) b). Qed.
Lemma fine_specs R C L : (forall r, In r L -> inside R (rs_place r) /\ forall t, In t (rs_terms r) -> inside C (fst t)) -> fine R C (flat_map row_cmds L).
Proof.
  intros H. apply fine_uses. intros c I. apply in_flat_map in I as (r & I & J). destruct (H r I) as (A & B). apply in_row_cmds in J as [(t & J & ->)| ->]; cbn.
  - rewrite <- !surjective_pairing. split; auto.
  - now rewrite <- surjective_pairing.
Qed.
Lemma final_objs L : forallb final (map obj_cmd L) = true.
Proof. apply forallb_forall. intros c I. apply in_map_iff in I as (t & <- & _). reflexivity. Qed.

(** ** Problems made of parts *)

(** A part reserves columns, bounds them, reserves rows and fills them. *)
Record part := mkPart { pt_cols : list (name * nat); pt_cb : list (place * bnd); pt_rows : list (name * nat); pt_sp : list rowspec }.
Definition part_cmds (p : part) : list cmd := add_cols (pt_cols p) ++ map col_cmd (pt_cb p) ++ add_rows (pt_rows p) ++ flat_map row_cmds (pt_sp p).
Fixpoint sound_parts (R C : list (name * nat)) (ps : list part) : Prop :=
  match ps with
  | [] => True
  | p :: r =>
      (forall q b, In (q, b) (pt_cb p) -> inside (C ++ pt_cols p) q) /\
      (forall s, In s (pt_sp p) -> inside (R ++ pt_rows p) (rs_place s) /\ forall t, In t (rs_terms s) -> inside (C ++ pt_cols p) (fst t)) /\
      sound_parts (R ++ pt_rows p) (C ++ pt_cols p) r
  end.

Lemma described_part p : described (part_cmds p) (pt_cols p) (pt_cb p) (pt_rows p) (pt_sp p) [].
Proof.
  unfold part_cmds. pose proof (described_app _ _ _ _ _ _ _ _ _ _ _ _ (described_cols (pt_cols p)) (described_app _ _ _ _ _ _ _ _ _ _ _ _ (described_bnds (pt_cb p)) (described_app _ _ _ _ _ _ _ _ _ _ _ _ (described_rows (pt_rows p)) (described_specs (pt_sp p))))) as D.
  cbn [List.app] in D. rewrite !app_nil_r in D. exact D.
Qed.
Lemma described_parts ps : described (flat_map part_cmds ps) (flat_map pt_cols ps) (flat_map pt_cb ps) (flat_map pt_rows ps) (flat_map pt_sp ps) [].
Proof. induction ps as [|p r IH]; [apply described_nil|]. cbn [flat_map]. exact (described_app _ _ _ _ _ _ _ _ _ _ _ _ (described_part p) IH). Qed.

Lemma fine_part R C p : NoDup (map fst (R ++ pt_rows p)) -> NoDup (map fst (C ++ pt_cols p)) -> (forall n k, In (n, k) (pt_rows p) \/ In (n, k) (pt_cols p) -> 0 < k) ->
  (forall q b, In (q, b) (pt_cb p) -> inside (C ++ pt_cols p) q) ->
  (forall s, In s (pt_sp p) -> inside (R ++ pt_rows p) (rs_place s) /\ forall t, In t (rs_terms s) -> inside (C ++ pt_cols p) (fst t)) -> fine R C (part_cmds p).
Proof.
  intros NR NC PO HB HS. unfold part_cmds, add_cols, add_rows. rewrite !fine_app, cols_of_adds, rows_of_addcols. rewrite (ds_cols _ _ _ _ _ _ (described_bnds _)), (ds_rows _ _ _ _ _ _ (described_bnds _)). rewrite rows_of_adds, cols_of_addrows, !app_nil_r. sp.
  - apply fine_cols; auto. intros n k I. apply (PO n k). auto.
  - apply fine_bnds. exact HB.
  - apply fine_rows; auto. intros n k I. apply (PO n k). auto.
  - apply fine_specs. exact HS.
Qed.
Lemma NoDup_app_l {A} (l l' : list A) : NoDup (l ++ l') -> NoDup l.
Proof. induction l as [|a l IH]; [constructor|]. cbn. intros N. inversion N as [|? ? N1 N2]; subst. constructor; auto. intros I. apply N1. apply in_or_app. now left. Qed.
Lemma fine_parts ps : forall R C, NoDup (map fst (R ++ flat_map pt_rows ps)) -> NoDup (map fst (C ++ flat_map pt_cols ps)) ->
  (forall n k, In (n, k) (flat_map pt_rows ps) \/ In (n, k) (flat_map pt_cols ps) -> 0 < k) -> sound_parts R C ps -> fine R C (flat_map part_cmds ps).
Proof.
  induction ps as [|p r IH]; intros R C NR NC PO SO; [constructor|]. cbn [flat_map] in *. destruct SO as (S1 & S2 & S3). rewrite app_assoc in NR, NC.
  rewrite fine_app, (ds_cols _ _ _ _ _ _ (described_part p)), (ds_rows _ _ _ _ _ _ (described_part p)). split.
  - apply fine_part; auto.
    + rewrite map_app in NR. now apply NoDup_app_l in NR.
    + rewrite map_app in NC. now apply NoDup_app_l in NC.
    + intros n k [I|I]; apply (PO n k); [left|right]; apply in_or_app; now left.
  - apply IH; auto. intros n k [I|I]; apply (PO n k); [left|right]; apply in_or_app; now right.
Qed.

(** Parts with names that differ, places that exist and no place used twice are taken by GLPK, and the answers are the assignments within all bounds. *)
Theorem parts_run ps OB : let C := flat_map pt_cols ps in let CB := flat_map pt_cb ps in let R := flat_map pt_rows ps in let SP := flat_map pt_sp ps in
  NoDup (map fst C) -> NoDup (map fst R) -> (forall n k, In (n, k) R \/ In (n, k) C -> 0 < k) -> sound_parts [] [] ps ->
  NoDup (map fst CB) -> NoDup (map rs_place SP) -> NoDup (map fst OB) -> (forall p q, In (p, q) OB -> inside C p) ->
  (forall r, In r SP -> NoDup (map fst (rs_terms r))) ->
  (forall p b, In (p, b) CB -> inside C p) -> (forall r, In r SP -> inside R (rs_place r)) ->
  exists S, run (flat_map part_cmds ps ++ Load :: map obj_cmd OB) = Ok S /\
    (solvable S = true <-> (forall p b, In (p, b) CB -> proper b = true) /\ (forall r, In r SP -> proper (rs_bnd r) = true)) /\
    exists vw : (nat -> Q) -> place -> Q,
      (forall x, feasible S x <-> (forall p b, In (p, b) CB -> within b (vw x p)) /\ (forall p, inside C p -> ~ In p (map fst CB) -> (0 <= vw x p)%Q) /\ (forall r, In r SP -> within (rs_bnd r) (term_sum (vw x) (rs_terms r)))) /\
      (forall x n o, In n (map fst C) -> primal S x n o = Ok (vw x (n, o))) /\
      (forall s, exists x, forall p, inside C p -> vw x p = s p) /\
      (forall x, (objective S x == term_sum (vw x) OB)%Q).
Proof.
  intros C CB R SP NC NR PO SO NB NP NO IO NT IB IS. set (l1 := flat_map part_cmds ps). pose proof (described_parts ps) as D1.
  pose proof (described_app _ _ _ _ _ _ _ _ _ _ _ _ D1 (described_objs OB)) as D. rewrite !app_nil_r in D. cbn [List.app] in D. fold C CB R SP l1 in D, D1.
  assert (F : fine [] [] (l1 ++ map obj_cmd OB)).
  { rewrite fine_app. split; [apply fine_parts; auto|]. rewrite (ds_rows _ _ _ _ _ _ D1), (ds_cols _ _ _ _ _ _ D1). now apply fine_objs. }
  destruct (run_ok l1 (map obj_cmd OB) F (final_objs OB)) as (S & ES & B & M); [apply (desc_keys _ _ _ _ _ _ D1); auto|]. exists S. split; [exact ES|]. split.
  { rewrite (solvable_proper _ _ B). split.
    - intros H. split.
      + intros p b I. destruct (proper b) eqn:E; [reflexivity|exfalso]. revert H. apply (desc_improper _ _ _ _ _ _ D NB NP). left. eauto 6.
      + intros r I. destruct (proper (rs_bnd r)) eqn:E; [reflexivity|exfalso]. revert H. apply (desc_improper _ _ _ _ _ _ D NB NP). right. eauto 6.
    - intros (H1 & H2). apply (desc_proper _ _ _ _ _ _ D NB NP); auto. }
  exists (view (l1 ++ map obj_cmd OB)). pose proof (ds_cols _ _ _ _ _ _ D) as EC. sp.
  - intros x. rewrite (feasible_states _ _ x B M F). apply (desc_states _ _ _ _ _ _ D); auto.
  - intros x n o I. apply primal_view; auto. rewrite EC. exact I.
  - intros s. exists (fun i => s (locate C i)). intros p I. rewrite <- EC. apply view_locate; rewrite EC; auto.
  - intros x. rewrite (objective_cost _ _ x B). apply (desc_total _ _ _ _ _ _ _ D); auto.
Qed.

Definition conds (C : list (name * nat)) (CB : list (place * bnd)) (SP : list rowspec) (s : place -> Q) : Prop :=
  (forall p b, In (p, b) CB -> within b (s p)) /\ (forall p, inside C p -> ~ In p (map fst CB) -> (0 <= s p)%Q) /\ (forall r, In r SP -> within (rs_bnd r) (term_sum s (rs_terms r))).
Lemma term_sum_ext s s' l : (forall t, In t l -> (s (fst t) == s' (fst t))%Q) -> (term_sum s l == term_sum s' l)%Q.
Proof. intros H. apply qsum_ext. intros t I. now rewrite (H t I). Qed.
Lemma conds_ext C CB SP s s' : (forall p b, In (p, b) CB -> inside C p) -> (forall r t, In r SP -> In t (rs_terms r) -> inside C (fst t)) -> (forall p, inside C p -> s p = s' p) -> conds C CB SP s -> conds C CB SP s'.
Proof.
  intros IB IT H (A & B & D). unfold conds. sp.
  - intros p b I. rewrite <- H by (now apply (IB p b)). now apply A.
  - intros p I N. rewrite <- H by auto. now apply B.
  - intros r I. eapply within_ext; [|exact (D r I)]. apply term_sum_ext. intros t J. rewrite H; [reflexivity|]. now apply (IT r).
Qed.
Lemma term_sum_app s l l' : (term_sum s (l ++ l') == term_sum s l + term_sum s l')%Q.
Proof. unfold term_sum. rewrite map_app. apply qsum_app'. Qed.
Lemma term_sum_flat {A} s (f : A -> list (place * Q)) L : (term_sum s (flat_map f L) == qsum (map (fun a => term_sum s (f a)) L))%Q.
Proof. induction L as [|a L IH]; [reflexivity|]. cbn [flat_map map]. rewrite term_sum_app, IH. reflexivity. Qed.
Lemma term_sum_map {A} s (f : A -> place * Q) L : (term_sum s (map f L) == qsum (map (fun a => snd (f a) * s (fst (f a))) L))%Q.
Proof. unfold term_sum. rewrite map_map. reflexivity. Qed.

(** ** Places that differ *)

Lemma map_flat {A B D} (g : B -> D) (f : A -> list B) L : map g (flat_map f L) = flat_map (fun a => map g (f a)) L.
Proof. induction L as [|a L IH]; [reflexivity|]. cbn [flat_map]. now rewrite map_app, IH. Qed.
Lemma NoDup_keyed {A B K} (key : B -> K) (kf : A -> K) (f : A -> list B) L : NoDup L -> (forall a b, In a L -> In b L -> kf a = kf b -> a = b) -> (forall a, In a L -> NoDup (f a)) -> (forall a x, In a L -> In x (f a) -> key x = kf a) -> NoDup (flat_map f L).
Proof. intros N I F H. apply NoDup_flat_map; auto. intros a b x Ia Ib Xa Xb. apply I; auto. rewrite <- (H a x), <- (H b x); auto. Qed.
Lemma NoDup_map_filter {A B} (g : A -> B) f (l : list A) : NoDup (map g l) -> NoDup (map g (filter f l)).
Proof. induction l as [|a l IH]; [constructor|]. cbn [map filter]. intros N. inversion N as [|? ? N1 N2]; subst. destruct (f a); [|auto]. cbn [map]. constructor; auto. intros I. apply N1. apply in_map_iff in I as (b & E & I). apply filter_In in I as (I & _). apply in_map_iff. eauto. Qed.
