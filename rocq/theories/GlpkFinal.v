(** Lists of commands in which a bound of a column may be given again. *)
From Coq Require Import List String Bool Arith ZArith QArith Lia Lqa.
From Verif Require Import Base Cases GraphData GraphDataProofs ClusteringProofs HydroTables Glpk GlpkSpec GlpkProofs GlpkEnergy GlpkRows GlpkParts.
Import ListNotations.
Open Scope nat_scope.
Open Scope list_scope.
Local Ltac sp := repeat match goal with |- _ /\ _ => split end.

Section Final.
Variables (l : list cmd) (C : list (name * nat)) (CB CF : list (place * bnd)) (R : list (name * nat)) (SP : list rowspec) (OB : list (place * Q)).
Hypothesis D : described l C CB R SP OB.
Hypothesis NR : NoDup (map rs_place SP).
Hypothesis LAST : forall p b, In (p, b) CF -> col_bound l p = b.
Hypothesis NONE : forall p, inside C p -> ~ In p (map fst CF) -> col_bound l p = Lower 0.
Hypothesis IC : forall p b, In (p, b) CF -> inside C p.
Hypothesis IR : forall r, In r SP -> inside R (rs_place r).

Lemma final_states s : states l s <-> conds C CF SP s.
Proof.
  unfold states, conds. rewrite (ds_cols _ _ _ _ _ _ D), (ds_rows _ _ _ _ _ _ D). split.
  - intros (A & B). sp.
    + intros p b I. rewrite <- (LAST p b I). apply A. now apply (IC p b).
    + intros p I N. specialize (A p I). now rewrite (NONE p I N) in A.
    + intros r I. rewrite <- (desc_row _ _ _ _ _ _ D NR r I). apply (within_ext _ (row_sum l s (rs_place r))); [now apply (desc_sum _ _ _ _ _ _ D NR)|]. apply B. now apply IR.
  - intros (A & B & E). split.
    + intros p I. destruct (in_dec place_dec p (map fst CF)) as [J|J].
      * apply in_map_iff in J as ((q & b) & X & J). cbn in X. subst q. rewrite (LAST p b J). now apply A.
      * rewrite (NONE p I J). now apply B.
    + intros p I. destruct (in_dec place_dec p (map rs_place SP)) as [J|J].
      * apply in_map_iff in J as (r & <- & J). rewrite (desc_row _ _ _ _ _ _ D NR r J). apply (within_ext _ (row_sum l s (rs_place r)) (term_sum s (rs_terms r))); [now apply (desc_sum _ _ _ _ _ _ D NR)|]. now apply E.
      * rewrite (desc_row_none _ _ _ _ _ _ D p J). constructor.
Qed.
Lemma final_proper : ((forall p, inside (rows_of l) p -> proper (row_bound l p) = true) /\ (forall p, inside (cols_of l) p -> proper (col_bound l p) = true)) <->
  ((forall p b, In (p, b) CF -> proper b = true) /\ (forall r, In r SP -> proper (rs_bnd r) = true)).
Proof.
  rewrite (ds_cols _ _ _ _ _ _ D), (ds_rows _ _ _ _ _ _ D). split.
  - intros (A & B). split.
    + intros p b I. rewrite <- (LAST p b I). apply B. now apply (IC p b).
    + intros r I. rewrite <- (desc_row _ _ _ _ _ _ D NR r I). apply A. now apply IR.
  - intros (A & B). split.
    + intros p _. destruct (in_dec place_dec p (map rs_place SP)) as [J|J]; [|now rewrite (desc_row_none _ _ _ _ _ _ D p J)]. apply in_map_iff in J as (r & <- & J). rewrite (desc_row _ _ _ _ _ _ D NR r J). now apply B.
    + intros p I. destruct (in_dec place_dec p (map fst CF)) as [J|J]; [|now rewrite (NONE p I J)]. apply in_map_iff in J as ((q & b) & X & J). cbn in X. subst q. rewrite (LAST p b J). now apply (A p).
Qed.
End Final.

(** Commands with names that differ, places that exist and no coefficient given twice are taken by GLPK, and the answers are the assignments within the last bounds. *)
Theorem final_run l1 C CB CF R SP OB : described l1 C CB R SP [] -> fine [] [] l1 -> NoDup (map fst C) ->
  NoDup (map rs_place SP) -> NoDup (map fst OB) -> (forall p q, In (p, q) OB -> inside C p) -> (forall r, In r SP -> NoDup (map fst (rs_terms r))) ->
  (forall p b, In (p, b) CF -> col_bound l1 p = b) -> (forall p, inside C p -> ~ In p (map fst CF) -> col_bound l1 p = Lower 0) ->
  (forall p b, In (p, b) CF -> inside C p) -> (forall r, In r SP -> inside R (rs_place r)) ->
  exists S, run (l1 ++ Load :: map obj_cmd OB) = Ok S /\
    (solvable S = true <-> (forall p b, In (p, b) CF -> proper b = true) /\ (forall r, In r SP -> proper (rs_bnd r) = true)) /\
    exists vw : (nat -> Q) -> place -> Q,
      (forall x, feasible S x <-> conds C CF SP (vw x)) /\
      (forall x n o, In n (map fst C) -> primal S x n o = Ok (vw x (n, o))) /\
      (forall s, exists x, forall p, inside C p -> vw x p = s p) /\
      (forall x, (objective S x == term_sum (vw x) OB)%Q).
Proof.
  intros D1 F1 NC NP NO IO NT LAST NONE IC IR. pose proof (described_app _ _ _ _ _ _ _ _ _ _ _ _ D1 (described_objs OB)) as D. rewrite !app_nil_r in D. cbn [List.app] in D.
  assert (F : fine [] [] (l1 ++ map obj_cmd OB)) by (rewrite fine_app; split; [exact F1|]; rewrite (ds_rows _ _ _ _ _ _ D1), (ds_cols _ _ _ _ _ _ D1); now apply fine_objs).
  assert (SAME : forall p, col_bound (l1 ++ map obj_cmd OB) p = col_bound l1 p). { intros (n & o). apply col_bound_app_none. intros b I. apply in_map_iff in I as (t & E & _). discriminate E. }
  assert (LAST' : forall p b, In (p, b) CF -> col_bound (l1 ++ map obj_cmd OB) p = b) by (intros p b I; rewrite SAME; now apply LAST).
  assert (NONE' : forall p, inside C p -> ~ In p (map fst CF) -> col_bound (l1 ++ map obj_cmd OB) p = Lower 0) by (intros p I N; rewrite SAME; now apply NONE).
  destruct (run_ok l1 (map obj_cmd OB) F (final_objs OB)) as (S & ES & B & M); [apply (desc_keys _ _ _ _ _ _ D1); auto|]. exists S. split; [exact ES|]. split.
  { rewrite (solvable_proper _ _ B). apply (final_proper _ C CB CF R SP OB); auto. }
  exists (view (l1 ++ map obj_cmd OB)). pose proof (ds_cols _ _ _ _ _ _ D) as EC. sp.
  - intros x. rewrite (feasible_states _ _ x B M F). apply (final_states _ C CB CF R SP OB); auto.
  - intros x n o I. apply primal_view; auto. rewrite EC. exact I.
  - intros s. exists (fun i => s (locate C i)). intros p I. rewrite <- EC. apply view_locate; rewrite EC; auto.
  - intros x. rewrite (objective_cost _ _ x B). apply (desc_total _ _ _ _ _ _ _ D); auto.
Qed.
