(** Lemmas about the clusters of investments. *)
From Coq Require Import List String Ascii Bool Arith ZArith QArith Qround Qabs Lia Lqa Permutation Sorted.
From Verif Require Import Base Graph GraphData GraphDataProofs Reader ReaderProofs Cases CasesSpec CasesProofs.
Import ListNotations.
Open Scope nat_scope.
Open Scope list_scope.

Local Ltac sp := repeat match goal with |- _ /\ _ => split end.

(** ** Rounding *)

Lemma qgt_true a b : qgt a b = true <-> (b < a)%Q.
Proof.
  unfold qgt. destruct (Qle_bool a b) eqn:E; cbn.
  - apply Qle_bool_iff in E. split; [discriminate|intros; lra].
  - split; auto. intros _. destruct (Qlt_le_dec b a); auto. apply Qle_bool_iff in q. congruence.
Qed.

Lemma qgt_false a b : qgt a b = false <-> (a <= b)%Q.
Proof.
  unfold qgt. destruct (Qle_bool a b) eqn:E; cbn.
  - apply Qle_bool_iff in E. tauto.
  - split; [discriminate|]. intros H. apply Qle_bool_iff in H. congruence.
Qed.

Lemma qmin_spec l : l <> [] -> exists q, qmin l = Ok q /\ In q l /\ forall x, In x l -> (q <= x)%Q.
Proof.
  destruct l as [|a l]; [congruence|intros _]. cbn [qmin]. eexists; split; [reflexivity|].
  assert (G : forall l a, let m := fold_left (fun a b : Q => if Qle_bool a b then a else b) l a in
    (m = a \/ In m l) /\ (m <= a)%Q /\ forall x, In x l -> (m <= x)%Q).
  { clear. induction l as [|b l IH]; intros a; cbn [fold_left].
    - cbn. sp; auto; [lra|contradiction].
    - destruct (IH (if Qle_bool a b then a else b)) as (I & L & F). destruct (Qle_bool a b) eqn:E.
      + apply Qle_bool_iff in E. sp; auto; [destruct I; cbn; auto|]. intros x [<-|Ix]; auto. lra.
      + assert (b < a)%Q by (apply qgt_true; unfold qgt; now rewrite E). sp; [destruct I; cbn; auto|lra|]. intros x [<-|Ix]; auto. }
  specialize (G l a) as (I & L & F). split; [destruct I as [->|]; cbn; auto|]. intros x [<-|Ix]; auto.
Qed.

Lemma least_size_ok cat v r : least_size cat v = Ok r -> least_sufficient cat v r.
Proof.
  unfold least_size. intros H. set (l := filter (fun i => Qle_bool v i) cat) in *.
  destruct (qmin_spec l) as (q & E & I & F); [intros X; rewrite X in H; discriminate|]. rewrite H in E. inversion E; subst q.
  apply filter_In in I as [I1 I2]. apply Qle_bool_iff in I2. split; auto. split; auto. intros c Ic Lc. apply F.
  apply filter_In. split; auto. now apply Qle_bool_iff.
Qed.

Lemma least_size_cases cat v : (exists r, least_size cat v = Ok r) \/ (least_size cat v = Err ValueError /\ forall c, In c cat -> (c < v)%Q).
Proof.
  unfold least_size. destruct (filter (fun i => Qle_bool v i) cat) as [|x l] eqn:E.
  - right. split; auto. intros c Ic. destruct (Qlt_le_dec c v); auto. exfalso.
    assert (In c (filter (fun i => Qle_bool v i) cat)) by (apply filter_In; split; auto; now apply Qle_bool_iff). now rewrite E in H.
  - left. destruct (qmin_spec (x :: l)) as (q & Eq & _); [congruence|]. eauto.
Qed.

Lemma round_cluster_ok cat taps vect c : round_cluster cat taps vect = Ok c ->
  Forall2 (fun tv r => rounded cat (fst tv) (snd tv) r) (combine taps vect) c.
Proof.
  intros H. apply mapM_Ok in H. induction H as [|tv r l c H _ IH]; constructor; auto. destruct (qgt (snd tv) 0) eqn:G.
  - apply qgt_true in G. split; [lra|]. intros _. now apply least_size_ok.
  - apply qgt_false in G. inversion H; subst. split; auto. lra.
Qed.

Lemma round_cluster_cases cat taps vect : (exists c, round_cluster cat taps vect = Ok c) \/
  (round_cluster cat taps vect = Err ValueError /\ exists tv, In tv (combine taps vect) /\ oversized cat (fst tv) (snd tv)).
Proof.
  unfold round_cluster. induction (combine taps vect) as [|tv l IH]; cbn [mapM]; [left; eauto|].
  destruct (qgt (snd tv) 0) eqn:G.
  - pose proof (least_size_cases (if Qeq_bool (fst tv) 0 then fst cat else snd cat) (snd tv)) as LC. change (least_size _ (snd tv)) with (round_up cat (fst tv) (snd tv)) in LC.
    destruct LC as [[r E]|[E O]]; rewrite E; cbn [rbind].
    + destruct IH as [[c Ec]|[Ee (tv' & I & O)]]; [rewrite Ec|rewrite Ee]; cbn [rbind]; [left; eauto|]. right. split; auto. exists tv'. split; auto. now right.
    + right. split; auto. exists tv. split; [now left|]. split; auto. now apply qgt_true.
  - cbn [rbind]. destruct IH as [[c Ec]|[Ee (tv' & I & O)]]; [rewrite Ec|rewrite Ee]; cbn [rbind]; [left; eauto|]. right. split; auto. exists tv'. split; auto. now right.
Qed.

(** ** The screening loop *)

Section Screening.
Context {M : Type}.
Variable screen : nat -> nat -> list Q -> M -> res (list Q * list Q).
Variable cat : list Q * list Q.
Variable taps : list Q.

(** The screening runs, in order: year, scenario, multiplier. *)
Definition scenarios_of (xy : nat) (l : list M) : list (nat * nat * M) := map (fun sm => (xy, fst sm, snd sm)) (combine (seq 0 (List.length l)) l).
Definition runs_from (k : nat) (mult : list (list M)) : list (nat * nat * M) :=
  flat_map (fun ym => scenarios_of (fst ym) (snd ym)) (combine (seq k (List.length mult)) mult).

Definition good (run : nat * nat * M) (c : list Q) : Prop :=
  exists prev r, screen (fst (fst run)) (snd (fst run)) prev (snd run) = Ok r /\
                 Forall2 (fun tv x => rounded cat (fst tv) (snd tv) x) (combine taps (snd r)) c.
Definition bad (run : nat * nat * M) : Prop :=
  exists prev r, screen (fst (fst run)) (snd (fst run)) prev (snd run) = Ok r /\
                 exists tv, In tv (combine taps (snd r)) /\ oversized cat (fst tv) (snd tv).

Hypothesis total : forall xy xsc prev m, exists r, screen xy xsc prev m = Ok r.

Lemma scenario_step xy prev temp dict clust k m : screen_scenario screen cat taps xy (prev, temp, dict, clust) (k, m) =
  do r <- screen xy k prev m; do c <- round_cluster cat taps (snd r);
  Ok (prev, Some (fst r), map (fun dv => qsort (fst dv ++ [snd dv])) (combine dict (fst r)), clust ++ [c]).
Proof. reflexivity. Qed.

Lemma year_step k l st : screen_year screen cat taps st (k, l) =
  do st <- foldM (screen_scenario screen cat taps k) (combine (seq 0 (List.length l)) l) st;
  let '(prev, temp, dict, clust) := st in
  match temp with
  | None => Err UnboundLocalError
  | Some t => Ok (map (fun ab => (fst ab + snd ab)%Q) (combine t prev), temp, dict, clust)
  end.
Proof. reflexivity. Qed.

Lemma year_loop xy : forall l k prev temp dict clust,
  (exists temp' dict' cs, foldM (screen_scenario screen cat taps xy) (combine (seq k (List.length l)) l) (prev, temp, dict, clust) = Ok (prev, temp', dict', clust ++ cs) /\
     (l <> [] -> temp' <> None) /\ (temp <> None -> temp' <> None) /\
     Forall2 good (map (fun sm => (xy, fst sm, snd sm)) (combine (seq k (List.length l)) l)) cs) \/
  (foldM (screen_scenario screen cat taps xy) (combine (seq k (List.length l)) l) (prev, temp, dict, clust) = Err ValueError /\
     exists run, In run (map (fun sm => (xy, fst sm, snd sm)) (combine (seq k (List.length l)) l)) /\ bad run).
Proof.
  induction l as [|m l IH]; intros k prev temp dict clust; cbn [List.length seq combine foldM map fst snd].
  - left. exists temp, dict, []. rewrite List.app_nil_r. sp; auto; congruence.
  - rewrite scenario_step. destruct (total xy k prev m) as [r E]. rewrite E. cbn [rbind].
    destruct (round_cluster_cases cat taps (snd r)) as [[c Ec]|[Ee B]].
    + rewrite Ec. cbn [rbind].
      destruct (IH (S k) prev (Some (fst r)) (map (fun dv => qsort (fst dv ++ [snd dv])) (combine dict (fst r))) (clust ++ [c])) as [(t' & d' & cs & Ef & N1 & N2 & F)|(Ef & run & I & B)].
      * left. rewrite Ef. exists t', d', (c :: cs). rewrite <- app_assoc. sp; auto.
        -- intros _. apply N2. discriminate.
        -- intros _. apply N2. discriminate.
        -- constructor; auto. exists prev, r. split; auto. now apply round_cluster_ok.
      * right. rewrite Ef. split; auto. exists run. split; auto. now right.
    + rewrite Ee. cbn [rbind]. right. split; auto. exists (xy, k, m). split; [now left|]. exists prev, r. auto.
Qed.

Lemma screening_loop : forall mult k prev temp dict clust, Forall (fun l => l <> []) mult ->
  (exists prev' temp' dict' cs, foldM (screen_year screen cat taps) (combine (seq k (List.length mult)) mult) (prev, temp, dict, clust) = Ok (prev', temp', dict', clust ++ cs) /\
     Forall2 good (runs_from k mult) cs) \/
  (foldM (screen_year screen cat taps) (combine (seq k (List.length mult)) mult) (prev, temp, dict, clust) = Err ValueError /\ exists run, In run (runs_from k mult) /\ bad run).
Proof.
  induction mult as [|l mult IH]; intros k prev temp dict clust NE; cbn [List.length seq combine foldM].
  - left. exists prev, temp, dict, []. rewrite List.app_nil_r. split; auto. constructor.
  - inversion NE as [|? ? N1 N2]; subst. rewrite year_step.
    unfold runs_from. cbn [List.length seq combine flat_map fst snd]. fold (runs_from (S k) mult).
    destruct (year_loop k l 0 prev temp dict clust) as [(t' & d' & cs & E & Nt & _ & F)|(E & run & I & B)]; rewrite E; cbn [rbind].
    + destruct t' as [t|]; [|now apply Nt in N1]. cbn [rbind].
      destruct (IH (S k) (map (fun ab => (fst ab + snd ab)%Q) (combine t prev)) (Some t) d' (clust ++ cs) N2) as [(p2 & t2 & d2 & cs2 & E2 & F2)|(E2 & run & I & B)]; rewrite E2.
      * left. exists p2, t2, d2, (cs ++ cs2). rewrite app_assoc. split; auto. now apply Forall2_app.
      * right. split; auto. exists run. split; auto. apply in_app_iff. now right.
    + right. split; auto. exists run. split; auto. apply in_app_iff. now left.
Qed.

Lemma main_screening_cases mult : Forall (fun l => l <> []) mult ->
  (exists dict cs, main_screening screen cat taps mult = Ok (dict, cs) /\ Forall2 good (runs_from 0 mult) cs) \/
  (main_screening screen cat taps mult = Err ValueError /\ exists run, In run (runs_from 0 mult) /\ bad run).
Proof.
  intros NE. unfold main_screening.
  destruct (screening_loop mult 0 (map (fun _ => 0%Q) taps) None (map (fun _ => []) taps) [] NE) as [(p & t & d & cs & E & F)|(E & B)]; rewrite E; cbn [rbind]; eauto.
Qed.
End Screening.

(** ** Removing repetitions *)

Lemma qlist_eqb_spec a : forall b, qlist_eqb a b = true <-> same_cluster a b.
Proof.
  induction a as [|x a IH]; intros [|y b]; cbn; split; intros H; try discriminate; try (now inversion H); try constructor.
  - apply andb_true_iff in H as [H _]. now apply Qeq_bool_iff.
  - apply andb_true_iff in H as [_ H]. now apply IH.
  - inversion H; subst. apply andb_true_iff. split; [now apply Qeq_bool_iff|now apply IH].
Qed.

Lemma same_refl a : same_cluster a a.
Proof. induction a; constructor; auto. reflexivity. Qed.

Lemma same_sym a b : same_cluster a b -> same_cluster b a.
Proof. induction 1; constructor; auto. now symmetry. Qed.

Lemma dedupe_gen : forall l acc, ForallOrdPairs (fun a b => ~ same_cluster a b) acc ->
  let r := fold_left (fun acc c => if existsb (qlist_eqb c) acc then acc else acc ++ [c]) l acc in
  ForallOrdPairs (fun a b => ~ same_cluster a b) r /\
  (forall c, In c r -> In c acc \/ In c l) /\ (forall c, In c acc -> In c r) /\ (forall c, In c l -> exists c', In c' r /\ same_cluster c c').
Proof.
  induction l as [|c l IH]; intros acc F; cbn [fold_left].
  - cbn. sp; auto. contradiction.
  - destruct (existsb (qlist_eqb c) acc) eqn:E.
    + destruct (IH acc F) as (A & B & C & D). sp; auto.
      * intros x I. destruct (B x I); auto. right. now right.
      * intros x [<-|I]; auto. apply existsb_exists in E as (c' & I & E). apply qlist_eqb_spec in E. exists c'. auto.
    + assert (F' : ForallOrdPairs (fun a b => ~ same_cluster a b) (acc ++ [c])).
      { clear - F E. induction acc as [|x acc IHa]; cbn; [repeat constructor|]. inversion F; subst. cbn in E. apply orb_false_iff in E as [E1 E2].
        constructor; auto. apply Forall_app. split; auto. constructor; auto. intros S. apply same_sym in S. apply qlist_eqb_spec in S. congruence. }
      destruct (IH _ F') as (A & B & C & D). sp; auto.
      * intros x I. destruct (B x I) as [I'|]; [|right; now right]. apply in_app_iff in I' as [|[<-|[]]]; auto. right; now left.
      * intros x I. apply C, in_app_iff. auto.
      * intros x [<-|I]; auto. exists c. split; [apply C, in_app_iff; right; now left|apply same_refl].
Qed.

Lemma dedupe_spec l : ForallOrdPairs (fun a b => ~ same_cluster a b) (dedupe l) /\ (forall c, In c (dedupe l) -> In c l) /\
  forall c, In c l -> exists c', In c' (dedupe l) /\ same_cluster c c'.
Proof.
  destruct (dedupe_gen l [] (FOP_nil _)) as (A & B & _ & D). unfold dedupe. sp; auto. intros c I. destruct (B c I) as [[]|]; auto.
Qed.

(** ** Ordering *)

Lemma put_length {A} : forall (l : list A) i v, List.length (put l i v) = List.length l.
Proof. induction l as [|x l IH]; intros [|i] v; cbn; auto. Qed.

Lemma put_app {A} (p : list A) a r v : put (p ++ a :: r) (List.length p) v = p ++ v :: r.
Proof. induction p as [|x p IH]; cbn; auto. now rewrite IH. Qed.

Lemma nth_split_at {A} (l : list A) i a : nth_error l i = Some a -> exists p r, l = p ++ a :: r /\ List.length p = i.
Proof.
  revert i. induction l as [|x l IH]; intros [|i] H; cbn in H; try discriminate.
  - inversion H; subst. exists [], l. auto.
  - destruct (IH i H) as (p & r & -> & L). exists (x :: p), r. cbn. auto.
Qed.

Lemma swap_perm {A} (l : list A) i j a b : i < j -> nth_error l i = Some a -> nth_error l j = Some b -> Permutation l (put (put l i b) j a).
Proof.
  intros L Hi Hj. destruct (nth_split_at _ _ _ Hi) as (p & r & -> & Lp).
  rewrite nth_error_app2 in Hj by lia. destruct (j - List.length p) as [|k] eqn:K; [lia|]. cbn in Hj.
  destruct (nth_split_at _ _ _ Hj) as (q & t & -> & Lq). rewrite <- Lp, put_app.
  replace (p ++ b :: q ++ b :: t) with ((p ++ b :: q) ++ b :: t) by (rewrite <- app_assoc; reflexivity).
  replace j with (List.length (p ++ b :: q)) by (rewrite app_length; cbn; lia). rewrite put_app, <- app_assoc. apply Permutation_app_head. cbn.
  etransitivity; [apply perm_skip; symmetry; apply Permutation_middle|]. etransitivity; [apply perm_swap|]. apply perm_skip. apply Permutation_middle.
Qed.

Lemma exchange_perm n l ij l' : fst ij < snd ij -> exchange n l ij = Ok l' -> Permutation l l'.
Proof.
  destruct ij as [i j]. cbn [fst snd]. intros L. unfold exchange. cbn [fst snd].
  destruct (at_ l i) as [a|] eqn:Ea; cbn [rbind]; [|discriminate]. destruct (at_ l j) as [b|] eqn:Eb; cbn [rbind]; [|discriminate].
  destruct (exceeds (seq 0 n) a b) as [g|]; cbn [rbind]; [|discriminate]. intros H. inversion H; subst. destruct g; auto.
  apply swap_perm; auto; now apply at_nth.
Qed.

Lemma pairs_lt n ij : In ij (index_pairs n) -> fst ij < snd ij < n.
Proof. unfold index_pairs. intros I. apply in_flat_map in I as (i & Ii & I). apply in_map_iff in I as (j & <- & Ij). apply in_seq in Ii. apply in_seq in Ij. cbn. lia. Qed.

Lemma order_perm l l' : order_clusters l = Ok l' -> Permutation l l'.
Proof.
  unfold order_clusters. destruct (at_ l 0) as [first|]; cbn [rbind]; [|discriminate].
  assert (G : forall ps, (forall ij, In ij ps -> fst ij < snd ij) -> forall s s', foldM (exchange (List.length first)) ps s = Ok s' -> Permutation s s').
  { induction ps as [|ij ps IH]; intros H s s' F; cbn [foldM] in F; [inversion F; auto|].
    destruct (exchange (List.length first) s ij) as [s1|] eqn:E; cbn [rbind] in F; [|discriminate].
    etransitivity; [eapply exchange_perm; [|exact E]; apply H; now left|]. apply (IH (fun x I => H x (or_intror I)) _ _ F). }
  apply G. intros ij I. now apply pairs_lt in I.
Qed.

(** All clusters have one entry per branch. *)

Lemma exceeds_total cols : forall a b, (forall x, In x cols -> x < List.length a /\ x < List.length b) -> exists g, exceeds cols a b = Ok g.
Proof.
  induction cols as [|x cols IH]; intros a b H; cbn [exceeds]; eauto. destruct (H x (or_introl eq_refl)) as [La Lb].
  destruct (at_total a x La) as (p & -> & _). destruct (at_total b x Lb) as (q & -> & _). cbn [rbind]. destruct (qgt p q); eauto.
  apply IH. intros; apply H. now right.
Qed.

Lemma rectangular_perm n l l' : Permutation l l' -> rectangular n l -> rectangular n l'.
Proof. unfold rectangular. rewrite !Forall_forall. intros P H c I. apply H. eapply Permutation_in; [symmetry|]; eauto. Qed.

Lemma rectangular_nth n l i c : rectangular n l -> nth_error l i = Some c -> List.length c = n.
Proof. intros R H. unfold rectangular in R. rewrite Forall_forall in R. apply R. eapply nth_error_In; eauto. Qed.

Lemma exchange_total n l ij : rectangular n l -> fst ij < snd ij < List.length l -> exists l', exchange n l ij = Ok l'.
Proof.
  intros R [L1 L2]. unfold exchange. destruct (at_total l (fst ij)) as (a & -> & Ha); [lia|]. destruct (at_total l (snd ij) L2) as (b & -> & Hb). cbn [rbind].
  destruct (exceeds_total (seq 0 n) a b) as [g ->]; cbn [rbind]; eauto. intros x I. apply in_seq in I.
  rewrite (rectangular_nth _ _ _ _ R Ha), (rectangular_nth _ _ _ _ R Hb). lia.
Qed.

Lemma order_total n l : l <> [] -> rectangular n l -> exists l', order_clusters l = Ok l'.
Proof.
  intros NE R. unfold order_clusters. destruct (at_total l 0) as (first & -> & Hf); [destruct l; [congruence|cbn; lia]|]. cbn [rbind].
  rewrite (rectangular_nth _ _ _ _ R Hf).
  assert (G : forall ps, (forall ij, In ij ps -> fst ij < snd ij < List.length l) -> forall s, rectangular n s -> List.length s = List.length l -> exists s', foldM (exchange n) ps s = Ok s').
  { induction ps as [|ij ps IH]; intros H s Rs Ls; cbn [foldM]; eauto.
    destruct (exchange_total n s ij Rs) as [s1 E]; [rewrite Ls; apply H; now left|]. rewrite E. cbn [rbind].
    assert (P : Permutation s s1) by (eapply exchange_perm; [|exact E]; apply H; now left).
    apply IH; [intros; apply H; now right|eapply rectangular_perm; eauto|]. rewrite <- Ls. symmetry. now apply Permutation_length. }
  apply G; auto. intros ij. apply pairs_lt.
Qed.

(** *** Nested clusters are sorted *)

Lemma below_refl a : below a a.
Proof. induction a; constructor; auto. apply Qle_refl. Qed.

Lemma below_trans a b c : below a b -> below b c -> below a c.
Proof.
  intros H. revert c. induction H as [|x y a b Hxy _ IH]; intros c K; inversion K; subst; constructor; [eapply Qle_trans; eauto|now apply IH].
Qed.

Lemma exceeds_gen : forall a b p q, List.length a = List.length b -> List.length p = List.length q ->
  (exceeds (seq (List.length p) (List.length a)) (p ++ a) (q ++ b) = Ok true /\ ~ below a b) \/
  (exceeds (seq (List.length p) (List.length a)) (p ++ a) (q ++ b) = Ok false /\ below a b).
Proof.
  induction a as [|x a IH]; intros [|y b] p q L Lp; cbn in L; try discriminate.
  - right. split; auto. constructor.
  - cbn [List.length seq exceeds]. unfold at_. rewrite nth_error_app2, Nat.sub_diag by lia. cbn [nth_error rbind].
    rewrite Lp, nth_error_app2, Nat.sub_diag by lia. cbn [nth_error rbind]. destruct (qgt x y) eqn:G.
    + left. split; auto. apply qgt_true in G. intros B. inversion B; subst. lra.
    + apply qgt_false in G. specialize (IH b (p ++ [x]) (q ++ [y])). rewrite !app_length, <- !app_assoc in IH. cbn [List.length app] in IH. rewrite Lp, Nat.add_1_r in IH.
      destruct (IH ltac:(lia) ltac:(lia)) as [[E B]|[E B]]; rewrite E; [left|right]; split; auto.
      * intros K. inversion K; subst. auto.
      * constructor; auto.
Qed.

Lemma exceeds_spec n a b : List.length a = n -> List.length b = n ->
  (exceeds (seq 0 n) a b = Ok true /\ ~ below a b) \/ (exceeds (seq 0 n) a b = Ok false /\ below a b).
Proof. intros <- L. exact (exceeds_gen a b [] [] (eq_sym L) eq_refl). Qed.

Lemma foldM_app {A S} (f : S -> A -> res S) l l' s : foldM f (l ++ l') s = (do s' <- foldM f l s; foldM f l' s').
Proof. revert s. induction l as [|a l IH]; intros s; cbn [foldM app rbind]; auto. destruct (f s a); cbn [rbind]; auto. Qed.

Section Chain.
Variable n : nat.

Lemma nth_app_mid {A} (p : list A) a r : nth_error (p ++ a :: r) (List.length p) = Some a.
Proof. rewrite nth_error_app2, Nat.sub_diag by lia. reflexivity. Qed.

Lemma exchange_mid p a d x r : exchange n (p ++ a :: d ++ x :: r) (List.length p, List.length p + 1 + List.length d) =
  do g <- exceeds (seq 0 n) a x; Ok (if g then p ++ x :: d ++ a :: r else p ++ a :: d ++ x :: r).
Proof.
  unfold exchange. cbn [fst snd]. unfold at_. rewrite nth_app_mid. cbn [rbind].
  assert (E1 : forall u v, p ++ u :: d ++ v :: r = (p ++ u :: d) ++ v :: r) by (intros; now rewrite <- app_assoc).
  assert (L1 : forall u, List.length p + 1 + List.length d = List.length (p ++ u :: d)) by (intros; rewrite app_length; cbn; lia).
  rewrite (E1 a x) at 1. rewrite (L1 a) at 1. rewrite nth_app_mid. cbn [rbind]. rewrite put_app, E1, (L1 x), put_app, <- !E1. reflexivity.
Qed.

Lemma pass_spec : forall r p d a, rectangular n (p ++ a :: d ++ r) -> (forall x y, In x (a :: r) -> In y (a :: r) -> below x y \/ below y x) ->
  exists m t, foldM (exchange n) (map (fun j => (List.length p, j)) (seq (List.length p + 1 + List.length d) (List.length r))) (p ++ a :: d ++ r) = Ok (p ++ m :: d ++ t) /\
    Permutation (a :: r) (m :: t) /\ forall x, In x (a :: r) -> below m x.
Proof.
  induction r as [|x r IH]; intros p d a R C; cbn [List.length seq map foldM].
  - exists a, []. sp; auto. intros y [<-|[]]. apply below_refl.
  - assert (Ra : List.length a = n /\ List.length x = n).
    { unfold rectangular in R. rewrite Forall_forall in R. split; apply R; rewrite in_app_iff; cbn; rewrite in_app_iff; cbn; auto. }
    rewrite exchange_mid. destruct (exceeds_spec n a x) as [[-> B]|[-> B]]; try tauto; cbn [rbind].
    + assert (Bx : below x a) by (destruct (C a x) as [|]; cbn; auto; contradiction).
      replace (p ++ x :: d ++ a :: r) with (p ++ x :: (d ++ [a]) ++ r) by (now rewrite <- !app_assoc).
      replace (S (List.length p + 1 + List.length d)) with (List.length p + 1 + List.length (d ++ [a])) by (rewrite !app_length; cbn; lia).
      destruct (IH p (d ++ [a]) x) as (m & t & E & P & F).
      * eapply rectangular_perm; [|exact R]. apply Permutation_app_head. rewrite <- app_assoc. cbn. etransitivity; [apply perm_skip; symmetry; apply Permutation_middle|].
        etransitivity; [apply perm_swap|]. apply perm_skip, Permutation_middle.
      * intros u v Iu Iv. apply C; now right.
      * exists m, (a :: t). rewrite E. rewrite <- app_assoc. sp; auto.
        -- etransitivity; [|apply perm_swap]. apply perm_skip. exact P.
        -- intros u [<-|I]; auto. eapply below_trans; [|exact Bx]. apply F. now left.
    + replace (p ++ a :: d ++ x :: r) with (p ++ a :: (d ++ [x]) ++ r) by (now rewrite <- !app_assoc).
      replace (S (List.length p + 1 + List.length d)) with (List.length p + 1 + List.length (d ++ [x])) by (rewrite !app_length; cbn; lia).
      destruct (IH p (d ++ [x]) a) as (m & t & E & P & F).
      * now rewrite <- app_assoc.
      * intros u v Iu Iv. apply C; [destruct Iu|destruct Iv]; cbn; auto.
      * exists m, (x :: t). rewrite E. rewrite <- app_assoc. sp; auto.
        -- etransitivity; [apply perm_swap|]. etransitivity; [|apply perm_swap]. apply perm_skip. exact P.
        -- intros u [<-|[<-|I]]; [apply F; now left| |apply F; now right]. eapply below_trans; [apply F; now left|exact B].
Qed.

Lemma passes_spec : forall k l p, List.length l = k -> rectangular n (p ++ l) -> chain l ->
  exists l', foldM (exchange n) (flat_map (fun i => map (fun j => (i, j)) (seq (S i) (List.length p + k - S i))) (seq (List.length p) k)) (p ++ l) = Ok (p ++ l') /\
    Permutation l l' /\ StronglySorted below l'.
Proof.
  induction k as [|k IH]; intros l p L R C.
  - destruct l; [|discriminate]. exists []. cbn. sp; auto. constructor.
  - destruct l as [|a r]; [discriminate|]. cbn in L. cbn [seq flat_map]. rewrite foldM_app.
    replace (List.length p + S k - S (List.length p)) with (List.length r) by lia.
    destruct (pass_spec r p [] a R C) as (m & t & E & P & F). cbn [List.length app] in E. replace (List.length p + 1 + 0) with (S (List.length p)) in E by lia. rewrite E. cbn [rbind].
    assert (Lt : List.length t = k). { apply Permutation_length in P. cbn in P. lia. }
    destruct (IH t (p ++ [m]) Lt) as (l' & E' & P' & S').
    + rewrite <- app_assoc. eapply rectangular_perm; [|exact R]. now apply Permutation_app_head.
    + intros x y Ix Iy. apply C; (eapply Permutation_in; [symmetry; exact P|]; now right).
    + rewrite app_length, <- !app_assoc in E'. cbn [List.length app] in E'. rewrite Nat.add_1_r in E'.
      exists (m :: l'). sp.
      * replace (List.length p + S k) with (S (List.length p) + k) by lia. exact E'.
      * etransitivity; [exact P|]. now apply perm_skip.
      * constructor; auto. apply Forall_forall. intros x I. apply F. eapply Permutation_in; [symmetry; exact P|]. right.
        eapply Permutation_in; [symmetry; exact P'|]. auto.
Qed.
End Chain.

Lemma order_sorts n l : l <> [] -> rectangular n l -> chain l -> exists l', order_clusters l = Ok l' /\ Permutation l l' /\ StronglySorted below l'.
Proof.
  intros NE R C. unfold order_clusters. destruct (at_total l 0) as (first & -> & Hf); [destruct l; [congruence|cbn; lia]|]. cbn [rbind].
  rewrite (rectangular_nth _ _ _ _ R Hf). exact (passes_spec n (List.length l) l [] eq_refl R C).
Qed.

(** ** Choosing clusters *)

(** [x] is the first free position at least distance from the ideal cost. *)
Definition nearest (ideal : Q) (costs : list Q) (free : list bool) (x : nat) : Prop :=
  exists c, nth_error costs x = Some c /\ nth_error free x = Some true /\
  forall x' c', nth_error costs x' = Some c' -> nth_error free x' = Some true ->
    (dist ideal c <= dist ideal c')%Q /\ ((x' < x)%nat -> dist ideal c < dist ideal c')%Q.

Lemma consider_gen ideal : forall costs free k st, List.length costs = List.length free ->
  let r := fold_left (consider ideal) (combine (seq k (List.length costs)) (combine costs free)) st in
  (r = st /\ (forall x c, nth_error costs x = Some c -> nth_error free x = Some true -> exists a, fst st = Some a /\ (dist ideal a <= dist ideal c)%Q)) \/
  (exists x c, r = (Some c, k + x) /\ nth_error costs x = Some c /\ nth_error free x = Some true /\
     (forall a, fst st = Some a -> dist ideal c < dist ideal a)%Q /\
     (forall x' c', nth_error costs x' = Some c' -> nth_error free x' = Some true -> (dist ideal c <= dist ideal c')%Q /\ ((x' < x)%nat -> dist ideal c < dist ideal c')%Q)).
Proof.
  induction costs as [|c costs IH]; intros [|f free] k st L; cbn in L; try discriminate.
  - left. split; auto. intros [|x] c H; discriminate.
  - cbn [List.length seq combine fold_left]. specialize (IH free (S k)). remember (consider ideal st (k, (c, f))) as st1 eqn:D1.
    assert (Cases : (st1 = st /\ (f = true -> exists a, fst st = Some a /\ (dist ideal a <= dist ideal c)%Q)) \/
                    (f = true /\ st1 = (Some c, k) /\ forall a, fst st = Some a -> (dist ideal c < dist ideal a)%Q)).
    { rewrite D1. unfold consider. destruct f; [|left; split; auto; discriminate]. destruct (fst st) as [a|] eqn:E.
      - destruct (qgt (Qabs (ideal - a)) (Qabs (ideal - c))) eqn:G.
        + right. sp; auto. intros a' H; inversion H; subst a'. now apply qgt_true in G.
        + left. split; auto. intros _. exists a. split; auto. now apply qgt_false in G.
      - right. sp; auto. discriminate. }
    clear D1. destruct (IH st1 ltac:(lia)) as [[Er Hn]|(x & d & Er & Hx & Fx & Hs & Hm)].
    + rewrite Er. destruct Cases as [[Es Hf]|(Ef & Es & Hs)].
      * left. split; auto. intros [|x] v Hv Fv.
        -- cbn in Hv, Fv. injection Hv as ->; injection Fv as ->. now apply Hf.
        -- rewrite <- Es. eapply Hn; eauto.
      * right. exists 0, c. rewrite Es, Nat.add_0_r. sp; auto.
        -- cbn. now rewrite Ef.
        -- intros [|x'] c' Hc Fc; cbn in Hc, Fc.
           ++ inversion Hc; subst. split; [lra|lia].
           ++ destruct (Hn _ _ Hc Fc) as (a & Ha & La). rewrite Es in Ha. inversion Ha; subst. split; [auto|lia].
    + right. exists (S x), d. rewrite Er. replace (S k + x) with (k + S x) by lia. sp; auto.
      * intros a Ha. destruct Cases as [[Es Hf]|(Ef & Es & Hs')].
        -- apply Hs. now rewrite Es.
        -- specialize (Hs' a Ha). specialize (Hs c). rewrite Es in Hs. specialize (Hs eq_refl). lra.
      * intros [|x'] c' Hc Fc; cbn in Hc, Fc.
        -- injection Hc as ->; injection Fc as ->. destruct Cases as [[Es Hf]|(_ & Es & Hs')].
           ++ destruct (Hf eq_refl) as (a & Ha & La). rewrite Es in Hs. specialize (Hs a Ha). split; intros; lra.
           ++ specialize (Hs c'). rewrite Es in Hs. specialize (Hs eq_refl). split; intros; lra.
        -- destruct (Hm _ _ Hc Fc) as [Lm Sm]. split; auto. intros K. apply Sm. lia.
Qed.

Lemma closest_nearest ideal costs free : List.length costs = List.length free -> In true free -> nearest ideal costs free (closest ideal costs free).
Proof.
  intros L I. unfold closest. destruct (consider_gen ideal costs free 0 (None, 1) L) as [[E H]|(x & c & E & Hx & Fx & _ & Hm)].
  - exfalso. apply In_nth_error in I as [x Fx]. destruct (nth_error costs x) as [c|] eqn:Hc.
    + destruct (H x c Hc Fx) as (a & Ha & _). discriminate.
    + apply nth_error_None in Hc. assert (x < List.length free) by (apply nth_error_Some; congruence). lia.
  - rewrite E. cbn [snd]. exists c. auto.
Qed.

Lemma put_nth {A} : forall (l : list A) i j v, nth_error (put l i v) j = if i =? j then (if i <? List.length l then Some v else None) else nth_error l j.
Proof.
  induction l as [|x l IH]; intros [|i] [|j] v; cbn; auto.
  - destruct (i =? j); auto.
  - rewrite IH. reflexivity.
Qed.

Definition count_true (l : list bool) : nat := List.length (filter (fun b => b) l).

Lemma count_put : forall l x, nth_error l x = Some true -> S (count_true (put l x false)) = count_true l.
Proof.
  unfold count_true. induction l as [|b l IH]; intros [|x] H; cbn in H; try discriminate.
  - inversion H; subst. reflexivity.
  - cbn. specialize (IH x H). destruct b; cbn; lia.
Qed.

Lemma count_In l : 0 < count_true l -> In true l.
Proof. unfold count_true. destruct (filter (fun b => b) l) as [|b r] eqn:E; cbn; [lia|intros _]. assert (I : In b (filter (fun b => b) l)) by (rewrite E; now left). apply filter_In in I as [I ->]. auto. Qed.

Lemma choose_spec costs : forall ideals free, List.length costs = List.length free -> List.length ideals <= count_true free ->
  List.length (choose ideals costs free) = List.length ideals /\ NoDup (choose ideals costs free) /\
  forall x, In x (choose ideals costs free) -> nth_error free x = Some true.
Proof.
  induction ideals as [|i ideals IH]; intros free L H; cbn [choose List.length].
  - sp; auto. constructor. contradiction.
  - cbn [List.length] in H. set (x := closest i costs free). destruct (closest_nearest i costs free L) as (c & Hc & Fx & _); [apply count_In; lia|]. fold x in Hc, Fx.
    pose proof (count_put free x Fx) as CP.
    destruct (IH (put free x false)) as (A & B & C); [now rewrite put_length|lia|].
    assert (C' : forall z, In z (choose ideals costs (put free x false)) -> z <> x /\ nth_error free z = Some true).
    { intros z Iz. apply C in Iz. rewrite put_nth in Iz. destruct (Nat.eqb_spec x z); [destruct (x <? List.length free); discriminate|]. auto. }
    sp; auto.
    + constructor; auto. intros Ix. now apply C' in Ix.
    + intros z [<-|Iz]; auto. now apply C'.
Qed.

Lemma ninsert_perm x l : Permutation (ninsert x l) (x :: l).
Proof. induction l as [|y l IH]; cbn; auto. destruct (x <=? y); auto. rewrite IH. apply perm_swap. Qed.
Lemma nsort_perm l : Permutation (nsort l) l.
Proof. induction l as [|x l IH]; cbn; auto. rewrite ninsert_perm. now constructor. Qed.
Lemma ninsert_sorted x l : StronglySorted le l -> StronglySorted le (ninsert x l).
Proof.
  induction 1 as [|y l S IH F]; cbn; [repeat constructor|]. destruct (Nat.leb_spec x y).
  - constructor; [constructor; auto|]. constructor; auto. eapply Forall_impl; [|exact F]. cbn. intros; lia.
  - constructor; auto. apply Forall_forall. intros z I. apply (Permutation_in _ (ninsert_perm x l)) in I as [<-|I]; [lia|]. rewrite Forall_forall in F. auto.
Qed.
Lemma nsort_sorted l : StronglySorted le (nsort l).
Proof. induction l; cbn; [constructor|]. now apply ninsert_sorted. Qed.

Lemma sorted_strict l : StronglySorted le l -> NoDup l -> StronglySorted lt l.
Proof.
  induction 1 as [|x l S IH F]; intros N; [constructor|]. inversion N; subst. constructor; auto. rewrite Forall_forall in *. intros y I. specialize (F y I).
  assert (x <> y) by (intros ->; contradiction). lia.
Qed.

Lemma linspace_length a b n : List.length (linspace a b n) = n.
Proof. unfold linspace. now rewrite map_length, seq_length. Qed.

Lemma reduce_spec cat cost ncols limit l costs : mapM (cluster_cost cat cost ncols) l = Ok costs -> 0 < limit < List.length l ->
  exists kept is, reduce_clusters cat cost ncols limit l = Ok kept /\ List.length is = limit /\ StronglySorted lt is /\
    Forall2 (fun i c => nth_error l i = Some c) is kept /\
    exists top, nth_error costs (List.length l - 1) = Some top /\
      is = nsort (choose (linspace (top / inject_Z (Z.of_nat limit)) top limit) costs (map (fun _ => true) l)).
Proof.
  intros E [L1 L2]. unfold reduce_clusters. rewrite E. cbn [rbind].
  assert (Lc : List.length costs = List.length l) by (apply mapM_Ok in E; symmetry; eapply Forall2_length; eauto).
  replace (Z.of_nat (List.length l) - 1)%Z with (Z.of_nat (List.length l - 1)) by lia. rewrite py_index_nat.
  destruct (nth_error costs (List.length l - 1)) as [top|] eqn:Et; [|apply nth_error_None in Et; lia]. cbn [rbind].
  destruct limit as [|m]; [lia|]. set (limit := S m) in *. set (ideals := linspace _ _ _).
  destruct (choose_spec costs ideals (map (fun _ => true) l)) as (A & B & C).
  - now rewrite map_length.
  - unfold ideals. rewrite linspace_length. unfold count_true. replace (filter (fun b => b) (map (fun _ => true) l)) with (map (fun _ : list Q => true) l); [rewrite map_length; lia|].
    clear. induction l as [|c l IH]; cbn; auto. now rewrite <- IH.
  - set (ch := choose ideals costs (map (fun _ => true) l)) in *. set (is := nsort ch).
    assert (P : Permutation is ch) by apply nsort_perm.
    assert (Hin : forall i, In i is -> i < List.length l).
    { intros i I. apply (Permutation_in _ P) in I. apply C in I. rewrite <- (map_length (fun _ => true) l). apply nth_error_Some. congruence. }
    destruct (mapM_total (at_ l) is) as [kept K]; [intros i I; destruct (at_total l i (Hin i I)) as (c & Ec & _); eauto|].
    exists kept, is. sp; auto.
    + rewrite (Permutation_length P), A. apply linspace_length.
    + apply sorted_strict; [apply nsort_sorted|]. eapply Permutation_NoDup; [symmetry; exact P|]. auto.
    + apply mapM_Ok in K. clear - K. induction K; constructor; auto. now apply at_nth.
    + exists top. auto.
Qed.
