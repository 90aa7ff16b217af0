(** Properties of the reader of workbooks: profiles applied to parameters. *)
From Coq Require Import List String Ascii Bool Arith ZArith QArith Lia Permutation.
From Verif Require Import Base GraphDataProofs ExcelSheet ExcelProfiles ExcelProofs ExcelProfileProofs.
Import ListNotations.
Open Scope string_scope.
Open Scope nat_scope.
Open Scope list_scope.

Local Ltac sp := repeat match goal with |- _ /\ _ => split end.

(* ------------------------------------------------------------------ *)
(** ** C256 *)

Definition of_type (t : string) (p : profile) : bool := ostr_is (pr_type p) t.
(** The profiles [ps] fit the parameters of [d]: groups and zones are texts, values are numbers, and a profile of one element is the
    only one of its name, type and element, which is there once. *)
Definition fitting (d : store) (ps : list profile) : Prop :=
  (forall p, In p ps -> texts p /\ exists t l, pr_type p = Some t /\ sget d (Some t) = Ok l /\ Forall as_read l /\ number (pr_value p) <> None /\
     (forall i, In i l -> is_cell (get i "name") (CStr (pr_name p)) = true -> has i "name" = true /\ number (in_value i) <> None) /\
     (for_all p = false -> exists i, filter (concerns p) l = [i])) /\
  (forall p q, In p ps -> In q ps -> pr_type p = pr_type q -> pr_name p = pr_name q -> for_all p = false -> together p q = true).
(** The first profile of the same type, subtype, name and ID. *)
Definition leader (ps : list profile) (p : profile) : profile := match find (fun q => together q p) ps with Some q => q | None => p end.
(** The parameters of a type that no profile is about, and those of all values of profiles; [lead] gives the profile whose group and
    zone count. *)
Definition untouched_by (lead : profile -> profile) (ps : list profile) (t : string) (l : list info) : list info :=
  filter (fun i => negb (existsb (fun p => of_type t p && concerns (lead p) i) ps)) l.
Definition applied_by (lead : profile -> profile) (ps : list profile) (t : string) (l : list info) : list info :=
  flat_map (fun p => map (fun i => scaled i p) (filter (concerns (lead p)) l)) (filter (of_type t) ps).
Definition untouched := untouched_by (fun p => p).
Definition applied := applied_by (fun p => p).

Lemma is_cell_name i p q : is_cell (get i "name") (CStr p) = true -> p <> q -> is_cell (get i "name") (CStr q) = false.
Proof.
  unfold is_cell. destruct (get i "name") as [v|l]; [|discriminate]. cbn [cval_eqb]. destruct v; cbn; try discriminate. intros H N. apply String.eqb_eq in H. subst. apply String.eqb_neq. congruence.
Qed.
Lemma concerns_name p i : concerns p i = true -> is_cell (get i "name") (CStr (pr_name p)) = true.
Proof. unfold concerns. intros H. now apply andb_true_iff in H as (H & _). Qed.
Lemma concerns_no p i : is_cell (get i "name") (CStr (pr_name p)) = false -> concerns p i = false.
Proof. unfold concerns. now intros ->. Qed.

Lemma mapM_eq {A B} (f : A -> res B) (g : A -> B) l : (forall a, In a l -> f a = Ok (g a)) -> mapM f l = Ok (map g l).
Proof. induction l as [|a l IH]; intros H; [reflexivity|]. cbn [mapM map]. rewrite (H a (or_introl eq_refl)). cbn [rbind]. rewrite IH by (intros; apply H; now right). reflexivity. Qed.

(** One round. *)
Lemma step_ok net d p profs t l new :
  pr_type p = Some t -> sget net (Some t) = Ok l -> Forall as_read l -> texts p ->
  (forall i, In i l -> concerns p i = true -> number (in_value i) <> None) ->
  (forall q, In q profs -> number (pr_value q) <> None) ->
  (for_all p = false -> exists i, filter (concerns p) l = [i]) ->
  forall g, sget d (Some t) = Ok (filter g l ++ new) ->
  (for_all p = false -> forall i, In i l -> concerns p i = true -> g i = true) ->
  (forall x, In x new -> has x "pt" = true /\ (for_all p = true -> exists b, selected p x = Ok b) /\ (for_all p = false -> is_cell (get x "name") (CStr (pr_name p)) = false)) ->
  correlate_step net d p profs = Ok (sput d t (filter (fun i => g i && negb (concerns p i)) l ++ new ++ flat_map (fun i => map (scaled i) profs) (filter (concerns p) l))).
Proof.
  intros T NT AR TX NV NP ONE g DT GC NN. unfold correlate_step. rewrite T, NT. cbn [rbind]. rewrite Forall_forall in AR.
  assert (EX : extract p l = Ok (Some (filter (concerns p) l))).
  { unfold extract. destruct (for_all p) eqn:F.
    - rewrite (filterM_ok _ (concerns p)); [reflexivity|]. intros i I. apply selected_ok; auto.
    - destruct (ONE eq_refl) as (i & E). rewrite (find_filter _ _ i); [cbn; now rewrite E|]. rewrite <- E. apply filter_ext. intros a. symmetry. now apply concerns_named. }
  rewrite EX. cbn [rbind]. rewrite DT. cbn [rbind].
  assert (TH : filter (there p) (filter g l ++ new) = []).
  { apply filter_false. intros i I. unfold there. apply in_app_iff in I as [I|I].
    - apply filter_In in I as (I & _). destruct (AR i I) as (_ & H & _). rewrite H. now rewrite andb_false_r.
    - destruct (NN i I) as (H & _). rewrite H. cbn. now rewrite andb_false_r. }
  unfold existing. rewrite TH. cbn [rbind fst snd].
  assert (DE : delete p (filter g l ++ new) = Ok (filter (fun i => g i && negb (concerns p i)) l ++ new)).
  { unfold delete. destruct (for_all p) eqn:F.
    - rewrite (filterM_ok _ (fun i => negb (concerns p i) || has i "pt")).
      + rewrite filter_app, filter_filter. do 2 f_equal.
        * apply filter_ext_in. intros i I. destruct (AR i I) as (-> & _). now rewrite orb_false_r.
        * apply filter_true. intros x X. destruct (NN x X) as (-> & _). apply orb_true_r.
      + intros i I. apply in_app_iff in I as [I|I].
        * apply filter_In in I as (I & _). rewrite selected_ok by auto. destruct (AR i I) as (A & B & _). rewrite A, B. cbn [rbind negb]. now rewrite !andb_true_r, orb_false_r.
        * destruct (NN i I) as (A & B & _). destruct (B eq_refl) as (b & ->). rewrite A. cbn [rbind negb]. now rewrite andb_false_r, orb_true_r.
    - destruct (ONE eq_refl) as (i & E).
      assert (E' : filter (named p) (filter g l ++ new) = [i]).
      { rewrite filter_app, filter_filter. replace (filter (named p) new) with (@nil info).
        - rewrite app_nil_r, <- E. apply filter_ext_in. intros a A. rewrite <- concerns_named by exact F. destruct (concerns p a) eqn:C; [now rewrite (GC eq_refl a A C)|apply andb_false_r].
        - symmetry. apply filter_false. intros x X. destruct (NN x X) as (_ & _ & B). unfold named. rewrite (B eq_refl). apply andb_false_r. }
      rewrite (delete_first_one _ _ _ E'). rewrite filter_app, filter_filter. do 2 f_equal.
      + apply filter_ext. intros a. now rewrite concerns_named.
      + apply filter_true. intros x X. destruct (NN x X) as (_ & _ & B). unfold named. rewrite (B eq_refl). now rewrite andb_false_r. }
  rewrite DE. cbn [rbind].
  assert (NE : concatM (fun i => mapM (profiled i) profs) (filter (concerns p) l) = Ok (flat_map (fun i => map (scaled i) profs) (filter (concerns p) l))).
  { unfold concatM. rewrite (mapM_eq _ (fun i => map (scaled i) profs)).
    - cbn [rbind]. now rewrite flat_map_concat_map.
    - intros i I. apply filter_In in I as (I & C). apply mapM_eq. intros q Q. apply profiled_ok; auto. }
  rewrite NE. cbn [rbind]. now rewrite app_assoc.
Qed.

Lemma filter_split {A} (f : A -> bool) l : Permutation l (filter f l ++ filter (fun a => negb (f a)) l).
Proof. induction l as [|a l IH]; [constructor|]. cbn [filter]. destruct (f a); cbn [negb app]; [now constructor|]. now apply Permutation_cons_app. Qed.
Lemma filter_perm {A} (f : A -> bool) l m : Permutation l m -> Permutation (filter f l) (filter f m).
Proof. induction 1; cbn [filter]; [constructor|destruct (f x); auto|destruct (f x), (f y); auto; constructor|eapply perm_trans; eauto]. Qed.
Lemma existsb_perm {A} (f : A -> bool) l m : Permutation l m -> existsb f l = existsb f m.
Proof. induction 1; cbn; try congruence. - destruct (f x), (f y); reflexivity. Qed.

Lemma stays_shape n o x : In n ["subtype"; "group"; "zone"] -> (has x n = true -> (exists l, get x n = VList l) \/ exists t, get x n = VCell (CStr t)) -> exists b, stays n (option_map CStr o) x = Ok b.
Proof. intros I S. unfold stays. destruct o as [s|]; [|eexists; reflexivity]. cbn [option_map]. destruct (has x n); [|eexists; reflexivity]. destruct (S eq_refl) as [(l & ->)|(t & ->)]; eexists; reflexivity. Qed.
Lemma has_scaled i q n : In n ["subtype"; "group"; "zone"] -> has (scaled i q) n = has i n.
Proof. intros I. unfold has, has_char, scaled. cbn [in_chars]. rewrite existsb_app. destruct I as [<-|[<-|[<-|[]]]]; cbn; apply orb_false_r. Qed.
Lemma selected_scaled p i q : as_read i -> texts p -> exists b, selected p (scaled i q) = Ok b.
Proof.
  intros (_ & _ & C) (T1 & T2). unfold selected. destruct (is_cell _ _); [|eexists; reflexivity].
  assert (S : forall n, In n ["subtype"; "group"; "zone"] -> has (scaled i q) n = true -> (exists l, get (scaled i q) n = VList l) \/ exists t, get (scaled i q) n = VCell (CStr t)).
  { intros n I H. rewrite has_scaled in H by exact I. rewrite scaled_get by exact H. now apply C. }
  rewrite (texts_map _ T1), (texts_map _ T2).
  destruct (stays_shape "subtype" (pr_subtype p) (scaled i q)) as (b1 & ->); [cbn; auto|apply S; cbn; auto|]. cbn [rbind]. destruct b1; [|eexists; reflexivity].
  destruct (stays_shape "group" (text_of (pr_group p)) (scaled i q)) as (b2 & ->); [cbn; auto|apply S; cbn; auto|]. cbn [rbind]. destruct b2; [|eexists; reflexivity].
  apply stays_shape; [cbn; auto|apply S; cbn; auto].
Qed.
Lemma existsb_ext_in {A} (f g : A -> bool) l : (forall a, In a l -> f a = g a) -> existsb f l = existsb g l.
Proof. induction l as [|a l IH]; intros H; [reflexivity|]. cbn. rewrite (H a (or_introl eq_refl)). f_equal. apply IH. intros; apply H; now right. Qed.
Lemma find_skip {A} (f g : A -> bool) l : (forall a, f a = true -> g a = true) -> find f (filter g l) = find f l.
Proof. intros H. induction l as [|a l IH]; [reflexivity|]. cbn. destruct (g a) eqn:G; cbn; [now rewrite IH|]. destruct (f a) eqn:F; [rewrite (H a F) in G; discriminate|exact IH]. Qed.

Lemma correlate_ok net lead : forall n ps done d, List.length ps <= n -> fitting net (ps ++ done) ->
  (forall p q, In p ps -> In q done -> together p q = false) ->
  (forall q, In q ps -> find (fun r => together r q) ps = Some (lead q)) ->
  (forall q, In q done -> pr_name (lead q) = pr_name q) ->
  (forall t l, sget net (Some t) = Ok l -> exists new, sget d (Some t) = Ok (untouched_by lead done t l ++ new) /\ Permutation new (applied_by lead done t l)) ->
  exists d', correlate n net d ps = Ok d' /\
  forall t l, sget net (Some t) = Ok l -> exists new, sget d' (Some t) = Ok (untouched_by lead (ps ++ done) t l ++ new) /\ Permutation new (applied_by lead (ps ++ done) t l).
Proof.
  induction n as [|n IH]; intros ps done d L (F1 & F2) SEP LD LN INV.
  - destruct ps; [|cbn in L; lia]. exists d. split; [reflexivity|exact INV].
  - destruct ps as [|p ps0] eqn:EPS; [exists d; split; [reflexivity|exact INV]|]. rewrite <- EPS in *. assert (PI : In p ps) by (rewrite EPS; now left).
    set (profs := filter (together p) ps). set (rest := filter (fun q => negb (together p q)) ps).
    destruct (F1 p) as (TX & t & l & T & NT & AR & NV & CN & ONE); [apply in_app_iff; auto|].
    destruct (INV t l NT) as (new & DT & PN).
    assert (NMD : forall q, In q done -> of_type t q = true -> for_all p = false -> pr_name (lead q) <> pr_name p).
    { intros q Q OT FA E. rewrite LN in E by exact Q. unfold of_type, ostr_is in OT. destruct (pr_type q) as [tq|] eqn:TQ; [|discriminate]. apply String.eqb_eq in OT. subst tq. assert (TG : together p q = true) by (apply F2; [apply in_app_iff; auto|apply in_app_iff; auto|congruence|congruence|exact FA]). rewrite (SEP p q PI Q) in TG. discriminate. }
    assert (PRF : forall q, In q profs -> In q ps /\ together p q = true) by (intros q Q; apply filter_In in Q; exact Q).
    assert (LP : forall q, In q profs -> lead q = p).
    { intros q Q. destruct (PRF q Q) as (Q1 & Q2). specialize (LD q Q1). rewrite EPS in LD. cbn [find] in LD. rewrite Q2 in LD. congruence. }
    set (g := fun i => negb (existsb (fun q => of_type t q && concerns (lead q) i) done)).
    set (out := sput d t (filter (fun i => g i && negb (concerns p i)) l ++ new ++ flat_map (fun i => map (scaled i) profs) (filter (concerns p) l))).
    assert (ST : correlate_step net d p profs = Ok out).
    { assert (NN : forall x, In x new -> has x "pt" = true /\ (for_all p = true -> exists b, selected p x = Ok b) /\ (for_all p = false -> is_cell (get x "name") (CStr (pr_name p)) = false)).
      { intros x X. apply (Permutation_in x PN) in X. unfold applied_by in X. apply in_flat_map in X as (q & Q & X). apply filter_In in Q as (Q & OT). apply in_map_iff in X as (i & <- & I). apply filter_In in I as (I & C). sp.
        - apply scaled_pt.
        - intros _. apply selected_scaled; [|exact TX]. rewrite Forall_forall in AR. now apply AR.
        - intros FA. rewrite scaled_get; [exact (is_cell_name i _ _ (concerns_name _ _ C) (NMD q Q OT FA))|].
          destruct (F1 q) as (_ & t' & l' & T' & NT' & _ & _ & CN' & _); [apply in_app_iff; auto|]. assert (t' = t) by (unfold of_type, ostr_is in OT; rewrite T' in OT; now apply String.eqb_eq in OT). subst t'. assert (l' = l) by congruence. subst l'. apply (CN' i I). rewrite <- (LN q Q). apply concerns_name, C. }
      apply (step_ok net d p profs t l new T NT AR TX); auto.
      - intros i I C. apply (CN i I), concerns_name, C.
      - intros q Q. destruct (PRF q Q) as (Q1 & _). destruct (F1 q) as (_ & t' & l' & _ & _ & _ & V & _); [apply in_app_iff; auto|exact V].
      - intros FA i I C. unfold g. apply negb_true_iff. destruct (existsb _ done) eqn:E; [|reflexivity]. apply existsb_exists in E as (q & Q & E). apply andb_true_iff in E as (E1 & E2). exfalso. pose proof (is_cell_name i _ _ (concerns_name _ _ E2) (NMD q Q E1 FA)) as H. rewrite (concerns_name _ _ C) in H. discriminate. }
    rewrite EPS. cbn [correlate]. rewrite <- EPS. fold profs rest. rewrite ST. cbn [rbind].
    assert (PM : Permutation (ps ++ done) (rest ++ profs ++ done)).
    { rewrite app_assoc. apply Permutation_app_tail. eapply perm_trans; [apply (filter_split (together p))|]. apply Permutation_app_comm. }
    destruct (IH rest (profs ++ done) out) as (d' & R & INV').
    + assert (LR : List.length rest < List.length ps); [|lia]. unfold rest. rewrite EPS. cbn [filter]. rewrite together_refl. cbn [negb List.length]. assert (forall (f : profile -> bool) m, List.length (filter f m) <= List.length m) as FL by (intros f m; induction m as [|a m IHm]; cbn; [lia|destruct (f a); cbn; lia]). specialize (FL (fun q => negb (together p q)) ps0). lia.
    + split.
      * intros q Q. apply F1. exact (Permutation_in q (Permutation_sym PM) Q).
      * intros q r Q R. apply F2; [exact (Permutation_in q (Permutation_sym PM) Q)|exact (Permutation_in r (Permutation_sym PM) R)].
    + intros q r Q R. unfold rest in Q. apply filter_In in Q as (Q & N). apply negb_true_iff in N. apply in_app_iff in R as [R|R]; [|now apply SEP].
      destruct (PRF r R) as (_ & TR). destruct (together q r) eqn:E; [|reflexivity]. rewrite together_sym in E. rewrite (together_trans _ _ _ TR E) in N. discriminate.
    + intros q Q. unfold rest in *. apply filter_In in Q as (Q & N). apply negb_true_iff in N. rewrite find_skip; [now apply LD|]. intros r TR. apply negb_true_iff. destruct (together p r) eqn:E; [|reflexivity]. rewrite (together_trans _ _ _ E TR) in N. discriminate.
    + intros q Q. apply in_app_iff in Q as [Q|Q]; [|now apply LN]. rewrite (LP q Q). destruct (PRF q Q) as (_ & TQ). now apply together_iff in TQ as (_ & _ & TQ & _).
    + intros t' l' NT'. unfold out. rewrite sget_sput. destruct (String.eqb_spec t t') as [<-|NE].
      * assert (l' = l) by congruence. subst l'.
        assert (TP : forall q, In q profs -> of_type t q = true).
        { intros q Q. destruct (PRF q Q) as (Q1 & Q2). apply together_iff in Q2 as (Q4 & _). unfold of_type. rewrite <- Q4, T. apply String.eqb_refl. }
        assert (PP : In p profs) by (apply filter_In; split; [exact PI|apply together_refl]).
        exists (new ++ flat_map (fun i => map (scaled i) profs) (filter (concerns p) l)). split.
        -- apply f_equal, (f_equal (fun z => z ++ new ++ flat_map (fun i => map (scaled i) profs) (filter (concerns p) l))). unfold untouched_by. apply filter_ext. intros i. rewrite existsb_app. rewrite negb_orb, andb_comm. f_equal. f_equal. destruct (concerns p i) eqn:C.
           ++ symmetry. apply existsb_exists. exists p. split; [exact PP|]. now rewrite (TP p PP), (LP p PP), C.
           ++ destruct (existsb _ profs) eqn:E; [|reflexivity]. apply existsb_exists in E as (q & Q & E). rewrite (LP q Q), C, andb_false_r in E. discriminate.
        -- unfold applied_by. rewrite filter_app, flat_map_app. eapply perm_trans; [apply Permutation_app_comm|]. apply Permutation_app; [|exact PN].
           rewrite (filter_true _ profs) by exact TP. eapply perm_trans; [apply flat_map_swap|]. rewrite !flat_map_concat_map. replace (map (fun q => map (fun i => scaled i q) (filter (concerns (lead q)) l)) profs) with (map (fun q => map (fun i => scaled i q) (filter (concerns p) l)) profs); [apply Permutation_refl|].
           apply map_ext_in. intros q Q. now rewrite (LP q Q).
      * destruct (INV t' l' NT') as (new' & D' & P'). exists new'. rewrite D'.
        assert (NP : filter (of_type t') profs = []) by (apply filter_false; intros q Q; destruct (PRF q Q) as (_ & Q2); apply together_iff in Q2 as (Q2 & _); unfold of_type; rewrite <- Q2, T; cbn; now apply String.eqb_neq).
        split.
        -- do 2 f_equal. unfold untouched_by. apply filter_ext. intros i. rewrite existsb_app. replace (existsb _ profs) with false; [reflexivity|]. symmetry. destruct (existsb _ profs) eqn:E; [|reflexivity]. apply existsb_exists in E as (q & Q & E). apply andb_true_iff in E as (E & _). assert (In q (filter (of_type t') profs)) as X by (apply filter_In; auto). rewrite NP in X. destruct X.
        -- unfold applied_by. rewrite filter_app, NP. exact P'.
    + exists d'. split; [exact R|]. intros t' l' NT'. destruct (INV' t' l' NT') as (new' & D' & P'). exists new'. split.
      * rewrite D'. do 2 f_equal. unfold untouched_by. apply filter_ext. intros i. f_equal. apply existsb_perm. now apply Permutation_sym.
      * eapply perm_trans; [exact P'|]. unfold applied_by. apply Permutation_flat_map, filter_perm, Permutation_sym, PM.
Qed.
Lemma use_ok opts d ps : fitting d ps -> wanted opts = true -> exists d', use_profiles opts d ps = Ok d' /\
  forall t l, sget d (Some t) = Ok l -> exists new, sget d' (Some t) = Ok (untouched_by (leader ps) ps t l ++ new) /\ Permutation new (applied_by (leader ps) ps t l).
Proof.
  intros F W. unfold use_profiles. rewrite W.
  destruct (correlate_ok d (leader ps) (List.length ps) ps [] d) as (d' & R & P); rewrite ?app_nil_r; auto.
  - intros p q _ [].
  - intros q Q. unfold leader. destruct (find _ ps) eqn:E; [reflexivity|]. pose proof (find_none _ _ E q Q) as N. cbn in N. rewrite together_refl in N. discriminate.
  - intros q [].
  - intros t l NT. exists []. split; [|constructor]. rewrite app_nil_r, NT. f_equal. symmetry. apply filter_true. reflexivity.
  - exists d'. split; [exact R|]. intros t l NT. destruct (P t l NT) as (new & A & B). rewrite app_nil_r in A, B. exists new. auto.
Qed.

(** C256: with the option for representative periods, profiles that fit the parameters (and those of the same type, subtype, name and ID
    have the same group and zone) are used: of every type the parameters that no profile is about stay, in order, and behind them comes
    every other parameter once for each value of the profiles about it, times the value, with its day and hour.  Without the option
    nothing changes. *)
Theorem C256_use : forall opts d ps, fitting d ps ->
  (forall p q, In p ps -> In q ps -> together p q = true -> pr_group p = pr_group q /\ pr_zone p = pr_zone q) ->
  (wanted opts = false -> use_profiles opts d ps = Ok d) /\
  (wanted opts = true -> exists d', use_profiles opts d ps = Ok d' /\
     forall t l, sget d (Some t) = Ok l -> exists new, sget d' (Some t) = Ok (untouched ps t l ++ new) /\ Permutation new (applied ps t l)).
Proof.
  intros opts d ps F S. split; [unfold use_profiles; now intros ->|]. intros W. destruct (use_ok opts d ps F W) as (d' & R & P). exists d'. split; [exact R|].
  assert (LC : forall p, In p ps -> forall i, concerns (leader ps p) i = concerns p i).
  { intros p PI i. unfold leader. destruct (find _ ps) as [q|] eqn:E; [|reflexivity]. apply find_some in E as (Q & E). destruct (S q p Q PI E) as (G & Z). now apply concerns_together. }
  intros t l NT. destruct (P t l NT) as (new & A & B). exists new. split.
  - rewrite A. do 2 f_equal. unfold untouched, untouched_by. apply filter_ext. intros i. f_equal. apply existsb_ext_in. intros p PI. now rewrite LC.
  - eapply perm_trans; [exact B|]. unfold applied, applied_by. rewrite !flat_map_concat_map. replace (map (fun p => map (fun i => scaled i p) (filter (concerns (leader ps p)) l)) (filter (of_type t) ps)) with (map (fun p => map (fun i => scaled i p) (filter (concerns p) l)) (filter (of_type t) ps)); [apply Permutation_refl|].
    apply map_ext_in. intros p PI. apply filter_In in PI as (PI & _). f_equal. apply filter_ext. intros i. symmetry. now apply LC.
Qed.
Print Assumptions C256_use.

(** Two buses of which one is in the north; the demand of the north has a profile of two hours. *)
Definition ex_bus (id group : string) (v : cell) : info :=
  mkInfo [mkChar "name" (VCell (CStr "Pd")) "string"; mkChar "ID" (VCell (CStr id)) "string"; mkChar "group" (VCell (CStr group)) "string"] v "double".
Definition ex_store : store := [("bus", [ex_bus "b1" "north" (CInt 10); ex_bus "b2" "south" (CInt 20)]); ("branch", [])].
Definition ex_prof (id group : string) (h : Z) (v : cell) : profile :=
  mkProf "Pd" ["winter"] (CInt h) (CStr id) (Some "bus") None (Some (CStr group)) None v.
Definition ex_use : list mopt := [mkOpt (Some "representative periods") (CBool true) None].
Lemma ex_as_read id group v : as_read (ex_bus id group v).
Proof. unfold as_read. sp; try reflexivity. intros n [<-|[<-|[<-|[]]]] H; try discriminate H. right. exists group. reflexivity. Qed.
Lemma ex_texts id group h v : texts (ex_prof id group h v).
Proof. split; intros w H; [injection H as <-; eexists; reflexivity|discriminate H]. Qed.
Example C256_witness : fitting ex_store [ex_prof "all" "north" 1 (CNum (1 # 2)); ex_prof "all" "north" 2 (CInt 1)] /\ wanted ex_use = true /\
  use_profiles ex_use ex_store [ex_prof "all" "north" 1 (CNum (1 # 2)); ex_prof "all" "north" 2 (CInt 1)] =
    Ok [("bus", [ex_bus "b2" "south" (CInt 20); scaled (ex_bus "b1" "north" (CInt 10)) (ex_prof "all" "north" 1 (CNum (1 # 2))); scaled (ex_bus "b1" "north" (CInt 10)) (ex_prof "all" "north" 2 (CInt 1))]); ("branch", [])].
Proof.
  sp; try reflexivity. split.
  - intros p [<-|[<-|[]]]; (split; [apply ex_texts|]; exists "bus"; eexists; sp; [reflexivity|reflexivity|apply Forall_cons; [apply ex_as_read|apply Forall_cons; [apply ex_as_read|constructor]]|discriminate|intros i [<-|[<-|[]]] C; (split; [reflexivity|discriminate])|discriminate]).
  - intros p q [<-|[<-|[]]] [<-|[<-|[]]] _ _; sp; reflexivity.
Qed.

(* ------------------------------------------------------------------ *)
(** ** C257 *)

Lemma in_applied lead ps t l q i : In q ps -> pr_type q = Some t -> In i l -> concerns (lead q) i = true -> In (scaled i q) (applied_by lead ps t l).
Proof.
  intros Q T I C. unfold applied_by. apply in_flat_map. exists q. split; [apply filter_In; split; [exact Q|unfold of_type; rewrite T; apply String.eqb_refl]|]. apply in_map_iff. exists i. split; [reflexivity|]. apply filter_In. auto.
Qed.

(** C257 (refuted): the group and the zone of a profile do not tell which elements it is for: of the profiles of the same type, subtype,
    name and ID those of the first count, so its elements get the values of all and the elements of the others may get none. *)
Theorem C257_groups_refuted : forall opts d ps p q t l, fitting d ps -> wanted opts = true -> In q ps -> find (fun r => together r q) ps = Some p ->
  pr_type q = Some t -> sget d (Some t) = Ok l ->
  exists d' l', use_profiles opts d ps = Ok d' /\ sget d' (Some t) = Ok l' /\
  (forall i, In i l -> concerns p i = true -> In (scaled i q) l') /\
  (forall i, In i l -> (forall r, In r ps -> concerns (leader ps r) i = false) -> In i l').
Proof.
  intros opts d ps p q t l F W Q L T S. destruct (use_ok opts d ps F W) as (d' & R & P). destruct (P t l S) as (new & A & B). exists d'. eexists. sp; [exact R|exact A| |].
  - intros i I C. apply in_app_iff. right. apply (Permutation_in _ (Permutation_sym B)). apply in_applied; auto. unfold leader. rewrite L. exact C.
  - intros i I N. apply in_app_iff. left. unfold untouched_by. apply filter_In. split; [exact I|]. apply negb_true_iff. destruct (existsb _ ps) eqn:E; [|reflexivity]. apply existsb_exists in E as (r & Q' & E). rewrite (N r Q'), andb_false_r in E. discriminate.
Qed.
Print Assumptions C257_groups_refuted.
(** The demand of the north is halved and that of the south doubled: the bus of the north gets both, that of the south none. *)
Lemma ex_fitting g1 g2 h1 h2 v1 v2 : number v1 <> None -> number v2 <> None -> fitting ex_store [ex_prof "all" g1 h1 v1; ex_prof "all" g2 h2 v2].
Proof.
  intros N1 N2. split.
  - intros p [<-|[<-|[]]]; (split; [apply ex_texts|]; exists "bus"; eexists; sp; [reflexivity|reflexivity|apply Forall_cons; [apply ex_as_read|apply Forall_cons; [apply ex_as_read|constructor]]|assumption|intros i [<-|[<-|[]]] C; (split; [reflexivity|discriminate])|discriminate]).
  - intros p q [<-|[<-|[]]] _ _ _ H; discriminate H.
Qed.
Example C257_witness : fitting ex_store [ex_prof "all" "north" 1 (CNum (1 # 2)); ex_prof "all" "south" 1 (CInt 2)] /\
  use_profiles ex_use ex_store [ex_prof "all" "north" 1 (CNum (1 # 2)); ex_prof "all" "south" 1 (CInt 2)] =
    Ok [("bus", [ex_bus "b2" "south" (CInt 20); scaled (ex_bus "b1" "north" (CInt 10)) (ex_prof "all" "north" 1 (CNum (1 # 2))); scaled (ex_bus "b1" "north" (CInt 10)) (ex_prof "all" "south" 1 (CInt 2))]); ("branch", [])].
Proof. split; [apply ex_fitting; discriminate|reflexivity]. Qed.

(* ------------------------------------------------------------------ *)
(** ** C258 *)

Lemma prefix_app s b : String.prefix s (s ++ b) = true.
Proof. induction s as [|c s IH]; [destruct b; reflexivity|]. cbn. destruct (ascii_dec c c); [exact IH|congruence]. Qed.
Lemma occurs_app a s b : occurs s (a ++ s ++ b) = true.
Proof.
  induction a as [|c a IH]; cbn [append].
  - assert (G : forall t, String.prefix s t = true -> occurs s t = true) by (intros t H; destruct t; cbn [occurs]; rewrite H; reflexivity). apply G, prefix_app.
  - cbn [occurs]. rewrite IH. apply orb_true_r.
Qed.
(** C258 (refuted): a profile of a group is not only for the elements of the group: it is also for elements with no group and for those of
    groups in whose names it occurs. *)
Theorem C258_group_refuted : forall opts d p t l s i, fitting d [p] -> wanted opts = true -> for_all p = true -> pr_type p = Some t -> sget d (Some t) = Ok l ->
  pr_subtype p = None -> pr_zone p = None -> pr_group p = Some (CStr s) ->
  In i l -> is_cell (get i "name") (CStr (pr_name p)) = true -> has i "group" = false \/ (exists a b, get i "group" = VCell (CStr (a ++ s ++ b))) ->
  exists d' l', use_profiles opts d [p] = Ok d' /\ sget d' (Some t) = Ok l' /\ In (scaled i p) l' /\ ~ In i l'.
Proof.
  intros opts d p t l s i F W FA T S SU Z G I N H. destruct (C256_use opts d [p] F) as (_ & U); [intros a b [<-|[]] [<-|[]] _; auto|]. destruct (U W) as (d' & R & P). destruct (P t l S) as (new & A & B). exists d'. eexists.
  assert (C : concerns p i = true).
  { unfold concerns. rewrite N, FA, SU, Z, G. cbn [text_of fits andb]. rewrite andb_true_r. destruct H as [->|(a & b & ->)]; [reflexivity|]. rewrite occurs_app. apply orb_true_r. }
  sp; [exact R|exact A| |].
  - apply in_app_iff. right. apply (Permutation_in _ (Permutation_sym B)). apply in_applied; auto. now left.
  - intros X. apply in_app_iff in X as [X|X].
    + unfold untouched, untouched_by in X. apply filter_In in X as (_ & X). cbn [existsb] in X. unfold of_type in X. rewrite T, C in X. cbn in X. rewrite String.eqb_refl in X. discriminate.
    + apply (Permutation_in _ B) in X. unfold applied, applied_by in X. apply in_flat_map in X as (q & _ & X). apply in_map_iff in X as (j & E & _).
      destruct F as (F & _). destruct (F p (or_introl eq_refl)) as (_ & t' & l' & T' & S' & AR & _). assert (t' = t) by congruence. subst t'. assert (l' = l) by congruence. subst l'. rewrite Forall_forall in AR. destruct (AR i I) as (PT & _). rewrite <- E, scaled_pt in PT. discriminate.
Qed.
Print Assumptions C258_group_refuted.
(** The profile of the group "north" and a bus of the group "northwest". *)
Definition ex_store2 : store := [("bus", [ex_bus "b1" "northwest" (CInt 10)])].
Example C258_witness : fitting ex_store2 [ex_prof "all" "north" 1 (CInt 2)] /\ get (ex_bus "b1" "northwest" (CInt 10)) "group" = VCell (CStr ("" ++ "north" ++ "west")) /\
  use_profiles ex_use ex_store2 [ex_prof "all" "north" 1 (CInt 2)] = Ok [("bus", [scaled (ex_bus "b1" "northwest" (CInt 10)) (ex_prof "all" "north" 1 (CInt 2))])].
Proof.
  sp; try reflexivity. split.
  - intros p [<-|[]]; (split; [apply ex_texts|]; exists "bus"; eexists; sp; [reflexivity|reflexivity|apply Forall_cons; [apply ex_as_read|constructor]|discriminate|intros i [<-|[]] C; (split; [reflexivity|discriminate])|discriminate]).
  - intros p q [<-|[]] _ _ _ H; discriminate H.
Qed.

(* ------------------------------------------------------------------ *)
(** ** C259 *)

Lemma filterM_err {A} (f : A -> res bool) e l a : (forall x, In x l -> (exists b, f x = Ok b) \/ f x = Err e) -> In a l -> f a = Err e -> filterM f l = Err e.
Proof.
  induction l as [|x l IH]; intros H I E; [destruct I|]. cbn [filterM]. destruct I as [->|I]; [now rewrite E|]. destruct (H x (or_introl eq_refl)) as [(b & ->)| ->]; [|reflexivity]. cbn [rbind]. rewrite IH; auto. intros y Y. apply H. now right.
Qed.
(** C259 (refuted): the groups of a profile cannot be numbers: if an element with the name and the subtype of the profile has a group
    (which is a text, whatever the cell), the whole workbook fails. *)
Theorem C259_number_refuted : forall opts d p ps t l v i, wanted opts = true -> for_all p = true -> pr_type p = Some t -> sget d (Some t) = Ok l -> Forall as_read l ->
  (forall j, In j l -> has j "group" = true -> exists s, get j "group" = VCell (CStr s)) ->
  (forall w, pr_zone p = Some w -> exists s, w = CStr s) ->
  pr_group p = Some v -> (forall s, v <> CStr s) ->
  In i l -> is_cell (get i "name") (CStr (pr_name p)) = true -> has i "group" = true -> fits "subtype" (pr_subtype p) i = true ->
  use_profiles opts d (p :: ps) = Err TypeError.
Proof.
  intros opts d p ps t l v i W FA T S AR GT ZT G V I N H FS. rewrite Forall_forall in AR. unfold use_profiles. rewrite W. cbn [List.length correlate]. unfold correlate_step. rewrite T, S. cbn [rbind].
  assert (SG : forall j, In j l -> has j "group" = true -> stays "group" (pr_group p) j = Err TypeError).
  { intros j J HJ. unfold stays. rewrite G, HJ. destruct (GT j J HJ) as (s & ->). destruct v; try reflexivity. exfalso. now apply (V s0). }
  assert (E : extract p l = Err TypeError); [|now rewrite E].
  unfold extract. rewrite FA. rewrite (filterM_err _ TypeError l i); [reflexivity| |exact I|].
  - intros j J. unfold selected. destruct (is_cell (get j "name") _); [|left; eexists; reflexivity]. rewrite stays_ok by (auto; cbn; auto). cbn [rbind]. destruct (fits "subtype" (pr_subtype p) j); [|left; eexists; reflexivity].
    destruct (has j "group") eqn:HJ; [right; now rewrite SG|]. left. unfold stays at 1. rewrite G, HJ. cbn [rbind]. rewrite (texts_map _ ZT), stays_ok by (auto; cbn; auto). eexists. reflexivity.
  - unfold selected. rewrite N, stays_ok by (auto; cbn; auto). rewrite FS. cbn [rbind]. now rewrite SG.
Qed.
Print Assumptions C259_number_refuted.
(** Buses of the group 1, which is the text "1" in the data. *)
Example C259_witness : let p := mkProf "Pd" ["winter"] (CInt 1) (CStr "all") (Some "bus") None (Some (CInt 1)) None (CInt 2) in
  for_all p = true /\ has (ex_bus "b1" "1" (CInt 10)) "group" = true /\ fits "subtype" (pr_subtype p) (ex_bus "b1" "1" (CInt 10)) = true /\ use_profiles ex_use [("bus", [ex_bus "b1" "1" (CInt 10)])] [p] = Err TypeError.
Proof. cbv zeta. sp; reflexivity. Qed.

(* ------------------------------------------------------------------ *)
(** ** C260 *)

(** C260 (refuted): a parameter can have two values for the same hour of the same day: two profiles about it, such as those of two of its
    subtypes, give both. *)
Theorem C260_twice_refuted : forall opts d ps1 p ps2 q ps3 t l i, let ps := ps1 ++ p :: ps2 ++ q :: ps3 in fitting d ps -> wanted opts = true ->
  (forall a b, In a ps -> In b ps -> together a b = true -> pr_group a = pr_group b /\ pr_zone a = pr_zone b) ->
  pr_type p = Some t -> pr_type q = Some t -> sget d (Some t) = Ok l -> In i l -> concerns p i = true -> concerns q i = true ->
  pr_tree p = pr_tree q -> pr_hour p = pr_hour q ->
  exists d' l' rest, use_profiles opts d ps = Ok d' /\ sget d' (Some t) = Ok l' /\ Permutation l' (scaled i p :: scaled i q :: rest) /\
  in_chars (scaled i p) = in_chars (scaled i q).
Proof.
  intros opts d ps1 p ps2 q ps3 t l i ps F W GZ TP TQ S I CP CQ ET EH. destruct (C256_use opts d ps F GZ) as (_ & U). destruct (U W) as (d' & R & P). destruct (P t l S) as (new & A & B).
  assert (E : exists rest, Permutation (applied ps t l) (scaled i p :: scaled i q :: rest)).
  { assert (IN : forall r, concerns r i = true -> exists m, Permutation (map (fun j => scaled j r) (filter (concerns r) l)) (scaled i r :: m)).
    { intros r C. assert (X : In (scaled i r) (map (fun j => scaled j r) (filter (concerns r) l))) by (apply in_map_iff; exists i; split; [reflexivity|apply filter_In; auto]). apply in_split in X as (m1 & m2 & ->). exists (m1 ++ m2). apply Permutation_sym, Permutation_middle. }
    destruct (IN p CP) as (mp & MP). destruct (IN q CQ) as (mq & MQ).
    unfold applied, applied_by, ps. rewrite !filter_app. cbn [filter]. unfold of_type at 2. rewrite TP. cbn [ostr_is]. rewrite String.eqb_refl. rewrite filter_app. cbn [filter]. unfold of_type at 3. rewrite TQ. cbn [ostr_is]. rewrite String.eqb_refl.
    rewrite flat_map_app. cbn [flat_map]. rewrite flat_map_app. cbn [flat_map].
    set (X1 := flat_map _ (filter (of_type t) ps1)). set (X2 := flat_map _ (filter (of_type t) ps2)). set (X3 := flat_map _ (filter (of_type t) ps3)).
    exists (X1 ++ mp ++ X2 ++ mq ++ X3).
    eapply perm_trans; [apply Permutation_app_head, Permutation_app; [exact MP|apply Permutation_app_head, Permutation_app_tail, MQ]|]. cbn [app].
    eapply perm_trans; [apply Permutation_sym, Permutation_middle|]. constructor. 
    replace (X1 ++ mp ++ X2 ++ scaled i q :: mq ++ X3) with ((X1 ++ mp ++ X2) ++ scaled i q :: mq ++ X3) by (now rewrite <- !app_assoc).
    replace (X1 ++ mp ++ X2 ++ mq ++ X3) with ((X1 ++ mp ++ X2) ++ mq ++ X3) by (now rewrite <- !app_assoc). apply Permutation_sym, Permutation_middle. }
  destruct E as (rest & E). exists d'. eexists. exists (rest ++ untouched ps t l). sp; [exact R|exact A| |].
  - eapply perm_trans; [apply Permutation_app_comm|]. change (scaled i p :: scaled i q :: rest ++ untouched ps t l) with ((scaled i p :: scaled i q :: rest) ++ untouched ps t l). apply Permutation_app_tail. eapply perm_trans; eauto.
  - unfold scaled. cbn [in_chars]. now rewrite ET, EH.
Qed.
Print Assumptions C260_twice_refuted.
(** A generator that is both "hydro" and "run of river", with profiles of both. *)
Definition ex_gen : info :=
  mkInfo [mkChar "name" (VCell (CStr "Pmin")) "string"; mkChar "ID" (VCell (CStr "g1")) "string"; mkChar "subtype" (VList [CStr "hydro"; CStr "run of river"]) "v_string"] (CInt 10) "double".
Definition ex_sub (s : string) (v : cell) : profile := mkProf "Pmin" ["winter"] (CInt 1) (CStr "all") (Some "generator") (Some s) None None v.
Example C260_witness : fitting [("generator", [ex_gen])] ([] ++ ex_sub "hydro" (CInt 2) :: [] ++ ex_sub "run of river" (CInt 3) :: []) /\
  concerns (ex_sub "hydro" (CInt 2)) ex_gen = true /\ concerns (ex_sub "run of river" (CInt 3)) ex_gen = true /\
  match use_profiles ex_use [("generator", [ex_gen])] [ex_sub "hydro" (CInt 2); ex_sub "run of river" (CInt 3)] with
  | Ok d => d = [("generator", [scaled ex_gen (ex_sub "hydro" (CInt 2)); scaled ex_gen (ex_sub "run of river" (CInt 3))])] | Err _ => False end.
Proof.
  sp; try reflexivity. split.
  - intros p [<-|[<-|[]]]; (split; [split; intros w H; discriminate H|]; exists "generator"; eexists; sp; [reflexivity|reflexivity| |discriminate|intros i [<-|[]] C; (split; [reflexivity|discriminate])|discriminate]).
    all: apply Forall_cons; [|constructor]; unfold as_read; sp; try reflexivity; intros m [<-|[<-|[<-|[]]]] H; try discriminate H; left; eexists; reflexivity.
  - intros p q [<-|[<-|[]]] _ _ _ H; discriminate H.
Qed.

(* ------------------------------------------------------------------ *)
(** ** C261 *)

Lemma delete_first_at {A} (f : A -> bool) l x r : (forall a, In a l -> f a = false) -> f x = true -> delete_first f (l ++ x :: r) = Some (l ++ r).
Proof. induction l as [|a l IH]; intros H X; cbn [app delete_first]; [now rewrite X|]. rewrite (H a (or_introl eq_refl)), IH; auto. intros b B. apply H. now right. Qed.
Lemma flat_map_nil {A B} (f : A -> list B) l : (forall a, In a l -> f a = []) -> flat_map f l = [].
Proof. induction l as [|a l IH]; intros H; [reflexivity|]. cbn. rewrite (H a (or_introl eq_refl)). apply IH. intros; apply H; now right. Qed.

(** C261 (refuted): the profile of one element does not replace that of all elements before it: of the values of the element only the first
    is removed, so that it keeps all others next to its own. *)
Theorem C261_element_refuted : forall opts d p ps q qs t l i, wanted opts = true ->
  (forall r, In r ps -> together p r = true) -> (forall r, In r qs -> together q r = true) -> together p q = false ->
  for_all p = true -> for_all q = false -> pr_type p = Some t -> pr_type q = Some t -> pr_name p = pr_name q -> texts p -> sget d (Some t) = Ok l -> Forall as_read l ->
  (forall j, In j l -> concerns p j = true -> has j "name" = true /\ has j "ID" = true /\ number (in_value j) <> None) -> (forall r, In r (p :: ps ++ q :: qs) -> number (pr_value r) <> None) ->
  filter (concerns q) l = [i] -> concerns p i = true ->
  exists d' l', use_profiles opts d (p :: ps ++ q :: qs) = Ok d' /\ sget d' (Some t) = Ok l' /\
  (forall r, In r ps -> In (scaled i r) l') /\ (forall r, In r (q :: qs) -> In (scaled i r) l').
Proof.
  intros opts d p ps q qs t l i W TP TQ NPQ FP FQ PT QT NM TX SG AR CN NV ONE CP. unfold use_profiles. rewrite W.
  assert (PQ : forall r, In r qs -> together p r = false) by (intros r R; destruct (together p r) eqn:E; [|reflexivity]; specialize (TQ r R); rewrite together_sym in TQ; rewrite (together_trans _ _ _ E TQ) in NPQ; discriminate).
  assert (G1 : filter (together p) (p :: ps ++ q :: qs) = p :: ps).
  { cbn [filter]. rewrite together_refl, filter_app. cbn [filter]. rewrite NPQ, (filter_true _ ps TP), (filter_false _ qs PQ). now rewrite app_nil_r. }
  assert (G2 : filter (fun r => negb (together p r)) (p :: ps ++ q :: qs) = q :: qs).
  { cbn [filter]. rewrite together_refl, filter_app. cbn [filter negb]. rewrite NPQ. cbn [negb]. rewrite (filter_false _ ps), (filter_true _ qs); [reflexivity|intros r R; now rewrite PQ|intros r R; now rewrite TP]. }
  assert (G3 : filter (together q) (q :: qs) = q :: qs) by (apply filter_true; intros r [<-|R]; [apply together_refl|auto]).
  assert (G4 : filter (fun r => negb (together q r)) (q :: qs) = []) by (apply filter_false; intros r [<-|R]; [now rewrite together_refl|now rewrite TQ]).
  replace (List.length (p :: ps ++ q :: qs)) with (S (S (List.length ps + List.length qs))) by (cbn; rewrite app_length; cbn; lia).
  cbn [correlate]. rewrite G1, G2.
  assert (S1 : sget d (Some t) = Ok (filter (fun _ => true) l ++ [])) by (rewrite app_nil_r, SG; f_equal; symmetry; now apply filter_true).
  rewrite (step_ok d d p (p :: ps) t l [] PT SG AR TX) with (g := fun _ => true); auto.
  2:{ intros j J C. now apply CN. }
  2:{ intros r [<-|R]; apply NV; [now left|right; apply in_app_iff; auto]. }
  2:{ congruence. }
  2:{ intros x []. }
  cbn [rbind app]. set (d1 := sput d t _).
  assert (L1 : sget d1 (Some t) = Ok (filter (fun j => negb (concerns p j)) l ++ flat_map (fun j => map (scaled j) (p :: ps)) (filter (concerns p) l))).
  { unfold d1. rewrite sget_sput, String.eqb_refl. reflexivity. }
  cbn [correlate]. rewrite G3, G4. unfold correlate_step at 1. rewrite QT, SG. cbn [rbind].
  assert (ONE' : filter (named q) l = [i]) by (rewrite <- ONE; apply filter_ext; intros a; symmetry; now apply concerns_named).
  assert (EX : extract q l = Ok (Some [i])) by (unfold extract; rewrite FQ, (find_filter _ _ i ONE'); reflexivity).
  rewrite EX. cbn [rbind]. rewrite L1. cbn [rbind]. rewrite Forall_forall in AR.
  assert (II : In i l /\ named q i = true) by (apply filter_In; rewrite ONE'; now left). destruct II as (II & NQ).
  assert (TH : filter (there q) (filter (fun j => negb (concerns p j)) l ++ flat_map (fun j => map (scaled j) (p :: ps)) (filter (concerns p) l)) = []).
  { apply filter_false. intros x X. unfold there. apply in_app_iff in X as [X|X].
    - apply filter_In in X as (X & _). destruct (AR x X) as (_ & H & _). rewrite H. now rewrite andb_false_r.
    - apply in_flat_map in X as (j & _ & X). apply in_map_iff in X as (r & <- & _). rewrite scaled_pt. cbn. now rewrite andb_false_r. }
  unfold existing. rewrite TH. cbn [rbind fst snd].
  destruct (in_split _ _ II) as (l1 & l2 & EL).
  assert (NO : forall a, In a l1 \/ In a l2 -> named q a = false).
  { intros a A. destruct (named q a) eqn:E; [|reflexivity]. exfalso. rewrite EL, filter_app in ONE'. cbn [filter] in ONE'. rewrite NQ in ONE'.
    assert (LE : List.length (filter (named q) l1 ++ i :: filter (named q) l2) = 1) by (rewrite ONE'; reflexivity). rewrite app_length in LE. cbn [List.length] in LE.
    assert (Z : filter (named q) l1 = [] /\ filter (named q) l2 = []) by (destruct (filter (named q) l1), (filter (named q) l2); cbn in LE; try lia; auto). destruct Z as (Z1 & Z2).
    destruct A as [A|A]; [assert (In a (filter (named q) l1)) as X by (apply filter_In; auto); rewrite Z1 in X|assert (In a (filter (named q) l2)) as X by (apply filter_In; auto); rewrite Z2 in X]; destruct X. }
  assert (SN : forall j r, In j l -> concerns p j = true -> named q (scaled j r) = named q j).
  { intros j r J C. destruct (CN j J C) as (H1 & H2 & _). unfold named. now rewrite !scaled_get. }
  set (A1 := filter (fun j => negb (concerns p j)) l ++ flat_map (fun j => map (scaled j) (p :: ps)) (filter (concerns p) l1)).
  set (B1 := map (scaled i) ps ++ flat_map (fun j => map (scaled j) (p :: ps)) (filter (concerns p) l2)).
  assert (EQ : filter (fun j => negb (concerns p j)) l ++ flat_map (fun j => map (scaled j) (p :: ps)) (filter (concerns p) l) = A1 ++ scaled i p :: B1).
  { unfold A1, B1. rewrite EL at 2. rewrite filter_app. cbn [filter]. rewrite CP, flat_map_app. cbn [flat_map map app]. now rewrite <- !app_assoc. }
  rewrite EQ. unfold delete. rewrite FQ, (delete_first_at (named q) A1 (scaled i p) B1).
  2:{ intros x X. unfold A1 in X. apply in_app_iff in X as [X|X].
      - apply filter_In in X as (X & C). destruct (named q x) eqn:E; [|reflexivity]. assert (IX : In x (filter (named q) l)) by (apply filter_In; auto). rewrite ONE' in IX. destruct IX as [<-|[]]. rewrite CP in C. discriminate.
      - apply in_flat_map in X as (j & J & X). apply filter_In in J as (J & C). apply in_map_iff in X as (r & <- & _). rewrite SN; [apply NO; auto|rewrite EL; apply in_app_iff; auto|exact C]. }
  2:{ now rewrite SN. }
  cbn [rbind].
  assert (NE : concatM (fun j => mapM (profiled j) (q :: qs)) [i] = Ok (map (scaled i) (q :: qs))).
  { unfold concatM. rewrite (mapM_eq _ (fun j => map (scaled j) (q :: qs))); [cbn [rbind]; rewrite <- flat_map_concat_map; cbn [flat_map]; now rewrite app_nil_r|].
    intros j [<-|[]]. apply mapM_eq. intros r R. apply profiled_ok; [now apply CN|]. apply NV. right. apply in_app_iff. now right. }
  rewrite NE. cbn [rbind]. destruct (List.length ps + List.length qs) as [|k]; cbn [correlate].
  all: eexists; exists ((A1 ++ B1) ++ map (scaled i) (q :: qs)); sp; [reflexivity|rewrite sget_sput, String.eqb_refl; reflexivity|..].
  all: intros r R; rewrite !in_app_iff; first [right; now apply in_map|left; right; unfold B1; apply in_app_iff; left; now apply in_map].
Qed.
Print Assumptions C261_element_refuted.
(** A profile of two hours for all buses, and one for the bus "b1": at hour 2 the bus has two values. *)
Example C261_witness :
  let p := ex_prof "all" "north" 1 (CInt 2) in let p' := ex_prof "all" "north" 2 (CInt 3) in let q := ex_prof "b1" "north" 1 (CInt 4) in let q' := ex_prof "b1" "north" 2 (CInt 5) in let i := ex_bus "b1" "north" (CInt 10) in
  together p p' = true /\ together q q' = true /\ together p q = false /\ for_all p = true /\ for_all q = false /\ filter (concerns q) [i] = [i] /\ concerns p i = true /\
  use_profiles ex_use [("bus", [i])] [p; p'; q; q'] = Ok [("bus", [scaled i p'; scaled i q; scaled i q'])].
Proof. cbv zeta. sp; reflexivity. Qed.
