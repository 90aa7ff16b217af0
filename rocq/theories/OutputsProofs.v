From Coq Require Import List String Bool Arith QArith Lia Permutation.
From Verif Require Import Base Outputs OutputsSpec.
Import ListNotations.
Open Scope string_scope.
Open Scope nat_scope.
Open Scope list_scope.

(** ** texts *)
Lemma append_assoc a b c : ((a ++ b) ++ c = a ++ (b ++ c))%string.
Proof. induction a as [|x a IH]; cbn; [reflexivity|now rewrite IH]. Qed.
Lemma joined_concat c : joined c = String.concat "|" (values_of c).
Proof.
  unfold joined, values_of. generalize (ch_val c). induction (ch_more c) as [|x l IH]; intros w; [reflexivity|]. cbn [fold_left]. rewrite IH. destruct l as [|y l]; cbn [String.concat].
  - reflexivity.
  - now rewrite !append_assoc.
Qed.
Lemma list_eqb_eq a : forall b, list_eqb a b = true <-> a = b.
Proof.
  induction a as [|x a IH]; intros [|y b]; cbn; split; intros E; try reflexivity; try discriminate.
  - apply andb_true_iff in E as (E & F). apply String.eqb_eq in E. apply IH in F. now subst.
  - injection E as <- <-. now rewrite String.eqb_refl, (proj2 (IH a) eq_refl).
Qed.

(** ** sheets *)
Lemma cell_in s r c v : cell_at s r c = Some v -> In ((r, c), v) s.
Proof.
  induction s as [|[[r' c'] v'] s IH]; cbn; [discriminate|]. destruct (Nat.eqb_spec r' r), (Nat.eqb_spec c' c); cbn; auto. injection 1 as <-. subst. now left.
Qed.
Lemma cell_block B s r c v : In ((r, c), v) B -> (forall v', In ((r, c), v') B -> v' = v) -> cell_at (B ++ s) r c = Some v.
Proof.
  induction B as [|[[r' c'] w] B IH]; intros I U; [destruct I|]. cbn. destruct (Nat.eqb_spec r' r) as [->|D]; cbn.
  - destruct (Nat.eqb_spec c' c) as [->|D]; [f_equal; apply U; now left|]. apply IH; [destruct I as [I|I]; [congruence|exact I]|intros; apply U; now right].
  - apply IH; [destruct I as [I|I]; [congruence|exact I]|intros; apply U; now right].
Qed.
Lemma cell_skip B s r c : (forall v, ~ In ((r, c), v) B) -> cell_at (B ++ s) r c = cell_at s r c.
Proof.
  induction B as [|[[r' c'] w] B IH]; intros N; cbn; [reflexivity|]. destruct (Nat.eqb_spec r' r) as [->|D]; cbn; [destruct (Nat.eqb_spec c' c) as [->|D]|]; [exfalso; apply (N w); now left| |]; apply IH; intros v I; apply (N v); now right.
Qed.

(** ** columns *)
Lemma put_get t k n k' : column_of (put t k n) k' = if String.eqb k k' then Some n else column_of t k'.
Proof.
  induction t as [|[x m] t IH]; cbn; [reflexivity|]. destruct (String.eqb_spec x k) as [->|D]; cbn.
  - destruct (String.eqb_spec k k'); reflexivity.
  - rewrite IH. destruct (String.eqb_spec x k') as [->|E]; [|reflexivity]. destruct (String.eqb_spec k k'); [congruence|reflexivity].
Qed.
Definition table_ok (s : table * nat) : Prop :=
  NoDup (map fst (fst s)) /\ (forall k m, column_of (fst s) k = Some m -> m < snd s) /\ (forall k k' m, column_of (fst s) k = Some m -> column_of (fst s) k' = Some m -> k = k').
Lemma put_fst_in t k n x : In x (map fst (put t k n)) <-> x = k \/ In x (map fst t).
Proof.
  induction t as [|[y m] t IH]; cbn; [intuition|]. destruct (String.eqb_spec y k) as [->|D]; cbn; [intuition|]. rewrite IH. intuition.
Qed.
Lemma put_ok t k n : table_ok (t, n) -> table_ok (put t k n, n + 1).
Proof.
  intros (A & B & C). cbn [fst snd] in *. split; [|split]; cbn [fst snd].
  - clear B C. induction t as [|[y m] t IH]; cbn; [repeat constructor; auto|]. inversion A as [|? ? NI A']; subst. destruct (String.eqb_spec y k) as [->|D]; cbn; [now constructor|]. constructor; [|auto]. rewrite put_fst_in. intros [E|I]; [congruence|auto].
  - intros k' m. rewrite put_get. destruct (String.eqb_spec k k'); [injection 1 as <-; lia|]. intros E. apply B in E. lia.
  - intros k1 k2 m. rewrite !put_get. destruct (String.eqb_spec k k1) as [E1|E1], (String.eqb_spec k k2) as [E2|E2]; [congruence| | |apply C].
    + intros E F. injection E as <-. apply B in F. lia.
    + intros E F. injection F as <-. apply B in E. lia.
Qed.
Lemma place_fold g : forall s, table_ok s -> table_ok (fold_left (fun s c => if is_place c then (put (fst s) (ch_key c) (snd s), snd s + 1) else s) g s) /\
  (forall k, (exists m, column_of (fst s) k = Some m) \/ (exists c, In c g /\ is_place c = true /\ ch_key c = k) -> exists m, column_of (fst (fold_left (fun s c => if is_place c then (put (fst s) (ch_key c) (snd s), snd s + 1) else s) g s)) k = Some m).
Proof.
  induction g as [|c g IH]; intros s O; cbn [fold_left]; [split; [exact O|]; intros k [H|(c & [] & _)]; exact H|].
  destruct (is_place c) eqn:P.
  - destruct s as [t n]. cbn [fst snd]. destruct (IH (put t (ch_key c) n, n + 1) (put_ok _ _ _ O)) as (A & B). split; [exact A|]. intros k H. apply B. cbn [fst]. rewrite put_get. destruct (String.eqb_spec (ch_key c) k) as [E|E]; [left; eauto|].
    destruct H as [H|(d & [->|I] & Pd & Kd)]; [left; exact H|congruence|right; eauto].
  - destruct (IH s O) as (A & B). split; [exact A|]. intros k [H|(d & [->|I] & Pd & Kd)]; apply B; [now left|congruence|right; eauto].
Qed.
Lemma id_fold n gs : forall s, table_ok s -> table_ok (fold_left (id_step n) gs s) /\
  (forall k, (exists m, column_of (fst s) k = Some m) -> exists m, column_of (fst (fold_left (id_step n) gs s)) k = Some m) /\
  (forall g i m, In g gs -> named n g = true -> NoDup (map ch_key g) -> In (Cha "ID" i m) g -> exists k, column_of (fst (fold_left (id_step n) gs s)) i = Some k).
Proof.
  induction gs as [|g gs IH]; intros s O; cbn [fold_left]; [split; [exact O|]; split; [auto|intros ? ? ? []]|].
  assert (O' : table_ok (id_step n s g)). { unfold id_step. destruct (named n g); [|exact O]. destruct (find _ g); [|exact O]. destruct s. now apply put_ok. }
  assert (K : forall k, (exists m, column_of (fst s) k = Some m) -> exists m, column_of (fst (id_step n s g)) k = Some m).
  { intros k (m & E). unfold id_step. destruct (named n g); [|eauto]. destruct (find _ g) as [c|]; [|eauto]. cbn [fst]. rewrite put_get. destruct (String.eqb (ch_val c) k); eauto. }
  destruct (IH _ O') as (A & B & C). split; [exact A|]. split; [intros k H; apply B, K, H|]. intros h i m [->|I] N D J; [|now apply (C h i m)]. apply B.
  unfold id_step. rewrite N. match goal with |- context [find ?f h] => destruct (find f h) as [c|] eqn:F end.
  - apply find_some in F as (Ic & Fc). apply andb_true_iff in Fc as (Fk & _). apply String.eqb_eq in Fk.
    assert (c = Cha "ID" i m) as ->.
    { clear - D Ic J Fk. induction h as [|x h IH]; [destruct Ic|]. cbn in D. inversion D as [|? ? NI D']; subst. destruct Ic as [->|Ic], J as [E|J]; auto.
      - exfalso. apply NI. rewrite Fk. now apply (in_map ch_key) in J.
      - subst x. exfalso. apply NI. cbn. rewrite <- Fk. now apply in_map. }
    cbn [fst ch_val]. rewrite put_get, String.eqb_refl. eauto.
  - apply (find_none _ _ F) in J. cbn in J. destruct (column_of (fst s) i) eqn:E; [eauto|discriminate].
Qed.
Lemma empty_ok : table_ok ([], 1).
Proof. split; [constructor|split; discriminate]. Qed.
Lemma columns_ok n gs : let t := columns n gs in
  NoDup (map fst t) /\ (forall k k' m, column_of t k = Some m -> column_of t k' = Some m -> k = k') /\
  (forall g i m, In g gs -> named n g = true -> NoDup (map ch_key g) -> In (Cha "ID" i m) g -> exists k, column_of t i = Some k).
Proof.
  cbv zeta. unfold columns, place_columns. assert (O : table_ok (match find (named n) gs with None => ([], 1) | Some g => fold_left (fun s c => if is_place c then (put (fst s) (ch_key c) (snd s), snd s + 1) else s) g ([], 1) end)).
  { destruct (find (named n) gs); [|exact empty_ok]. now apply place_fold, empty_ok. }
  destruct (id_fold n gs _ O) as ((A & _ & B) & _ & C). auto.
Qed.
Lemma columns_place n gs k : (exists g, In g gs /\ named n g = true) -> (forall g, In g gs -> named n g = true -> exists c, In c g /\ is_place c = true /\ ch_key c = k) -> exists m, column_of (columns n gs) k = Some m.
Proof.
  intros (g & I & N) H. unfold columns, place_columns. destruct (find (named n) gs) as [h|] eqn:F; [|apply (find_none _ _ F) in I; congruence].
  apply find_some in F as (Ih & Nh). destruct (H h Ih Nh) as (c & Ic & Pc & Kc). destruct (place_fold h _ empty_ok) as (O & P). destruct (id_fold n gs _ O) as (_ & B & _). apply B, P. right. eauto.
Qed.
Lemma column_in t k m : NoDup (map fst t) -> In (k, m) t -> column_of t k = Some m.
Proof.
  induction t as [|[x y] t IH]; intros D I; [destruct I|]. cbn in D. inversion D as [|? ? NI D']; subst. cbn. destruct I as [E|I]; [injection E as -> ->; now rewrite String.eqb_refl|].
  destruct (String.eqb_spec x k) as [->|]; [exfalso; apply NI; now apply (in_map fst) in I|auto].
Qed.
Lemma in_column t k m : column_of t k = Some m -> In (k, m) t.
Proof. induction t as [|[x y] t IH]; cbn; [discriminate|]. destruct (String.eqb_spec x k) as [->|]; [injection 1 as ->; now left|auto]. Qed.
Lemma header_titles n gs k m : column_of (columns n gs) k = Some m -> cell_at (header n (columns n gs)) 2 m = Some (Text k).
Proof.
  intros E. destruct (columns_ok n gs) as (D & J & _). unfold header. rewrite <- (app_nil_r (rev _)). apply cell_block.
  - apply in_rev. rewrite rev_involutive. right. apply in_map_iff. exists (k, m). split; [reflexivity|now apply in_column].
  - intros v I. apply in_rev in I. destruct I as [I|I]; [discriminate|]. apply in_map_iff in I as ([k' m'] & Q0 & I). cbn in Q0. injection Q0 as -> <-. f_equal. eapply J; [exact (column_in _ _ _ D I)|exact E].
Qed.
Lemma header_name n t : cell_at (header n t) 1 1 = Some (Text n).
Proof.
  unfold header. rewrite <- (app_nil_r (rev _)). apply cell_block.
  - apply in_rev. rewrite rev_involutive. now left.
  - intros v I. apply in_rev in I. destruct I as [I|I]; [congruence|]. apply in_map_iff in I as (x & Q0 & _). discriminate.
Qed.
Lemma header_rows n t r c v : In ((r, c), v) (header n t) -> r < 3 /\ exists k, v = Text k.
Proof.
  unfold header. intros I. apply in_rev in I. destruct I as [I|I]; [injection I as <- <- <-; split; [lia|eauto]|]. apply in_map_iff in I as (x & Q0 & _). injection Q0 as <- <- <-. split; [lia|eauto].
Qed.

(** ** groups *)
Definition rel (c : cha) : bool := is_place c || String.eqb (ch_key c) "ID".
Lemma first_skip t row v g : forall s, foldM (first_of t row v) g s = foldM (first_of t row v) (filter rel g) s.
Proof.
  induction g as [|c g IH]; intros s; cbn [filter foldM]; [reflexivity|]. unfold rel at 1. destruct (is_place c) eqn:P; cbn [orb foldM]; [destruct (first_of t row v s c); cbn; auto|].
  destruct (String.eqb (ch_key c) "ID") eqn:E; cbn [foldM]; [destruct (first_of t row v s c); cbn; auto|]. unfold first_of at 1. destruct s. rewrite P, E. cbn. apply IH.
Qed.
Lemma compare_skip g : forall s, fold_left (fun s c => if is_place c then (set_ref (fst s) (ch_key c) (joined c), snd s) else if String.eqb (ch_key c) "ID" then (fst s, ch_val c) else s) g s =
  fold_left (fun s c => if is_place c then (set_ref (fst s) (ch_key c) (joined c), snd s) else if String.eqb (ch_key c) "ID" then (fst s, ch_val c) else s) (filter rel g) s.
Proof.
  induction g as [|c g IH]; intros s; cbn [filter fold_left]; [reflexivity|]. unfold rel at 1. destruct (is_place c) eqn:P; cbn [orb fold_left]; [rewrite P; apply IH|]. destruct (String.eqb (ch_key c) "ID") eqn:E; cbn [fold_left]; rewrite ?P, ?E; apply IH.
Qed.
Lemma rel_three g n p h i : described g n p h i -> exists m, let c := Cha "ID" i m in
  In (filter rel g) [[p; h; c]; [p; c; h]; [h; p; c]; [h; c; p]; [c; p; h]; [c; h; p]].
Proof.
  intros (D & _ & Ip & Kp & Ih & Kh & (m & Ii)). exists m. cbv zeta.
  assert (F : forall c, In c g -> rel c = true -> In c (filter rel g)) by (intros; now apply filter_In).
  assert (Jp : In p (filter rel g)) by (apply F; [exact Ip|unfold rel, is_place; now rewrite Kp]).
  assert (Jh : In h (filter rel g)) by (apply F; [exact Ih|unfold rel, is_place; now rewrite Kh]).
  assert (Ji : In (Cha "ID" i m) (filter rel g)) by (apply F; [exact Ii|reflexivity]).
  assert (ND : NoDup (map ch_key (filter rel g))).
  { clear - D. induction g as [|c g IH]; cbn; [constructor|]. cbn in D. inversion D as [|? ? NI D']; subst. destruct (rel c); [|auto]. cbn. constructor; [|auto]. intros I. apply NI. apply in_map_iff in I as (x & <- & I). apply filter_In in I as (I & _). now apply in_map. }
  assert (L : List.length (filter rel g) <= 3).
  { rewrite <- (map_length ch_key). apply (NoDup_incl_length (l' := ["pt"; "hour"; "ID"]) ND). intros k I. apply in_map_iff in I as (c & <- & I). apply filter_In in I as (_ & R). unfold rel, is_place in R. cbn.
    destruct (String.eqb_spec (ch_key c) "pt"); [auto|]. destruct (String.eqb_spec (ch_key c) "hour"); [auto|]. destruct (String.eqb_spec (ch_key c) "ID"); [auto|discriminate]. }
  clear F ND D Ip Ih Ii. destruct (filter rel g) as [|a [|b [|c [|d l]]]]; cbn in L; try lia; clear L.
  - destruct Jp.
  - destruct Jp as [<-|[]], Jh as [<-|[]]. congruence.
  - destruct Jp as [->|[->|[]]], Jh as [X|[X|[]]], Ji as [Y|[Y|[]]]; subst; cbn in Kp, Kh; congruence.
  - destruct Jp as [->|[->|[->|[]]]], Jh as [X|[X|[X|[]]]], Ji as [Y|[Y|[Y|[]]]]; subst; cbn in Kp, Kh; try congruence; cbn; auto 8.
Qed.
Lemma place_keys c : (ch_key c = "pt" -> is_place c = true) /\ (ch_key c = "hour" -> is_place c = true).
Proof. unfold is_place. split; intros ->; reflexivity. Qed.
Lemma compare_described g n p h i : described g n p h i -> compare_of g = ((Some (joined p), Some (joined h)), i).
Proof.
  intros D. unfold compare_of. rewrite compare_skip. destruct (rel_three _ _ _ _ _ D) as (m & R). destruct D as (_ & _ & _ & Kp & _ & Kh & _). pose proof (proj1 (place_keys p) Kp) as Pp. pose proof (proj2 (place_keys h) Kh) as Ph.
  cbn in R. destruct R as [<-|[<-|[<-|[<-|[<-|[<-|[]]]]]]]; cbn [fold_left]; rewrite Pp, Ph; cbn; rewrite Kp, Kh; reflexivity.
Qed.
Lemma first_described g n p h i t row v P a b c : described g n p h i -> column_of t "pt" = Some a -> column_of t "hour" = Some b -> column_of t i = Some c -> exists W,
  foldM (first_of t row v) g (P, false) = Ok (Pass (Some (joined p), Some (joined h)) (a_end P) (W ++ a_sheet P), true) /\
  forall w, In w W <-> w = ((row, a), Text (joined p)) \/ w = ((row, b), Text (joined h)) \/ w = ((row, c), Num v).
Proof.
  intros D A B C. rewrite first_skip. destruct (rel_three _ _ _ _ _ D) as (m & R). destruct D as (_ & _ & _ & Kp & _ & Kh & _). pose proof (proj1 (place_keys p) Kp) as Pp. pose proof (proj2 (place_keys h) Kh) as Ph.
  assert (Sp : forall Q u, first_of t row v (Q, u) p = Ok (Pass (Some (joined p), snd (a_ref Q)) (a_end Q) (((row, a), Text (joined p)) :: a_sheet Q), u)) by (intros Q u; unfold first_of; rewrite Pp, Kp; unfold col; rewrite A; reflexivity).
  assert (Sh : forall Q u, first_of t row v (Q, u) h = Ok (Pass (fst (a_ref Q), Some (joined h)) (a_end Q) (((row, b), Text (joined h)) :: a_sheet Q), u)) by (intros Q u; unfold first_of; rewrite Ph, Kh; unfold col; rewrite B; reflexivity).
  assert (Si : forall Q u, first_of t row v (Q, u) (Cha "ID" i m) = Ok (Pass (a_ref Q) (a_end Q) (((row, c), Num v) :: a_sheet Q), true)) by (intros Q u; unfold first_of, is_place; cbn; unfold col; rewrite C; reflexivity).
  cbn in R. destruct R as [<-|[<-|[<-|[<-|[<-|[<-|[]]]]]]]; cbn [foldM]; repeat (first [rewrite Sp|rewrite Sh|rewrite Si]; cbn [rbind foldM a_ref a_end a_sheet fst snd]);
    (match goal with |- context [Pass _ _ (?x :: ?y :: ?z :: _)] => exists [x; y; z] end; split; [reflexivity|]; intros w; cbn; intuition).
Qed.
Lemma named_described g n p h i n' : described g n p h i -> named n' g = String.eqb n n'.
Proof.
  intros (D & (m & I) & _). unfold named. destruct (String.eqb_spec n n') as [->|N].
  - apply existsb_exists. exists (Cha "name" n' m). split; [exact I|]. cbn. now rewrite String.eqb_refl.
  - apply not_true_is_false. intros X. apply existsb_exists in X as (c & Ic & E). apply andb_true_iff in E as (E & F). apply String.eqb_eq in E, F. apply N. rewrite <- F.
    assert (c = Cha "name" n m) as ->; [|reflexivity]. clear - D I Ic E. induction g as [|x g IH]; [destruct I|]. cbn in D. inversion D as [|? ? NI D']; subst. destruct I as [->|I], Ic as [->|Ic]; auto.
    + exfalso. apply NI. cbn. rewrite <- E. now apply in_map.
    + exfalso. apply NI. rewrite E. now apply (in_map ch_key) in I.
Qed.
Lemma unique_key g (c d : cha) : NoDup (map ch_key g) -> In c g -> In d g -> ch_key c = ch_key d -> c = d.
Proof.
  induction g as [|x g IH]; intros D I J E; [destruct I|]. cbn in D. inversion D as [|? ? NI D']; subst. destruct I as [->|I], J as [->|J]; auto.
  - exfalso. apply NI. rewrite E. now apply in_map.
  - exfalso. apply NI. rewrite <- E. now apply in_map.
Qed.
Lemma member_described g n p h i n' pt : described g n p h i -> (member_ n' pt g = true <-> n = n' /\ values_of p = pt).
Proof.
  intros D. pose proof D as (ND & (m & In_) & Ip & Kp & _). unfold member_. rewrite forallb_forall. split.
  - intros H. pose proof (H _ In_) as A. cbn in A. pose proof (H _ Ip) as B. rewrite Kp in B. cbn -[list_eqb] in B. apply list_eqb_eq in B. split; [|exact B]. destruct (String.eqb_spec n n'); [assumption|discriminate].
  - intros (-> & E) c Ic. destruct (String.eqb_spec (ch_key c) "name") as [K|K]; cbn -[list_eqb].
    + rewrite (unique_key g c (Cha "name" n' m) ND Ic In_ K). cbn. now rewrite String.eqb_refl.
    + destruct (String.eqb_spec (ch_key c) "pt") as [K'|K']; cbn -[list_eqb]; [|reflexivity]. rewrite (unique_key g c p ND Ic Ip) by congruence. apply list_eqb_eq. exact E.
Qed.

(** ** passes *)
Definition item := (Q * bool * list cha)%type.
Definition todo (n : string) (pt : list string) (x : item) : bool := negb (snd (fst x)) && member_ n pt (snd x).
Definition key_of (x : item) : ref_ := fst (compare_of (snd x)).
Definition id_of (x : item) : string := snd (compare_of (snd x)).
Definition now_used (n : string) (pt : list string) (r : ref_) (x : item) : bool := snd (fst x) || (todo n pt x && ref_eqb (key_of x) r).
Definition cells_of (t : table) (row : nat) (x : item) (w : (nat * nat) * cell) : Prop :=
  exists k, column_of t (id_of x) = Some k /\ w = ((row, k), Num (fst (fst x))).

Lemma ref_eqb_eq a b : ref_eqb a b = true <-> a = b.
Proof.
  destruct a as [[a|] [b'|]], b as [[c|] [d|]]; unfold ref_eqb; cbn; rewrite ?andb_true_iff, ?String.eqb_eq; split; try (intros (? & ?)); try discriminate; try congruence; try (intros E; injection E; intros; subst; auto); auto.
Qed.

Section PASS.
Variables (n : string) (pt : list string) (t : table) (row : nat) (a b : nat).
Hypothesis Ta : column_of t "pt" = Some a.
Hypothesis Tb : column_of t "hour" = Some b.

Definition fine (x : item) : Prop := todo n pt x = true -> exists p h i, described (snd x) n p h i /\ exists c, column_of t i = Some c.

Lemma pass_rest r : no_ref r = false -> forall xs p, a_ref p = r -> (forall x, In x xs -> fine x) -> exists W e,
  one_pass n pt t row p xs = Ok (Pass r e (W ++ a_sheet p), map (now_used n pt r) xs) /\ (a_end p = false -> e = false) /\
  (forall w, In w W <-> exists x, In x xs /\ todo n pt x = true /\ key_of x = r /\ cells_of t row x w).
Proof.
  intros NR. induction xs as [|[[v u] g] xs IH]; intros p R F.
  - exists [], (a_end p). split; [cbn; destruct p; cbn in *; now subst|]. split; [auto|]. intros w. split; [intros []|intros (x & [] & _)].
  - assert (F' : forall x, In x xs -> fine x) by (intros; apply F; now right). cbn [one_pass]. unfold value_step.
    destruct u; [|destruct (member_ n pt g) eqn:M].
    + cbn [rbind fst snd]. destruct (IH p R F') as (W & e & E & Fe & H). rewrite E. cbn [rbind fst snd map]. exists W, e. split; [reflexivity|]. split; [exact Fe|]. intros w. rewrite H. split; [intros (x & I & T); exists x; split; [now right|exact T]|].
      intros (x & [<-|I] & T & T'); [discriminate|exists x; auto].
    + rewrite R, NR. destruct (compare_of g) as [r' i] eqn:CO. assert (T : todo n pt (v, false, g) = true) by exact M.
      assert (K : key_of (v, false, g) = r') by (unfold key_of; cbn [snd]; now rewrite CO). assert (ID : id_of (v, false, g) = i) by (unfold id_of; cbn [snd]; now rewrite CO).
      destruct (ref_eqb r' r) eqn:Q0.
      * destruct (F (v, false, g) (or_introl eq_refl) T) as (p0 & h0 & i0 & D & c & C). cbn [snd] in D. pose proof (compare_described _ _ _ _ _ D) as CD. rewrite CO in CD. injection CD as -> ->.
        unfold col. rewrite C. cbn [rbind fst snd]. match goal with |- context [one_pass n pt t row ?P xs] => destruct (IH P) as (W & e & E & Fe & H) end; [reflexivity|exact F'|]. rewrite E. cbn [rbind fst snd map a_sheet]. exists (W ++ [((row, c), Num v)]), e. split; [|split; [intros _; now apply Fe|]].
        -- rewrite <- app_assoc. unfold now_used at 2. rewrite T, K, Q0. reflexivity.
        -- intros w. rewrite in_app_iff, H. split.
           ++ intros [(x & I & X)|[<-|[]]]; [exists x; split; [now right|exact X]|]. exists (v, false, g). split; [now left|]. split; [exact T|]. split; [rewrite K; now apply ref_eqb_eq|]. exists c. now rewrite ID.
           ++ intros (x & [<-|I] & X & Y & k & Z & ->); [right; left; rewrite ID in Z; cbn; congruence|left; exists x; split; [exact I|split; [exact X|split; [exact Y|exists k; auto]]]].
      * cbn [rbind fst snd]. destruct (IH p R F') as (W & e & E & Fe & H). rewrite E. cbn [rbind fst snd map]. exists W, e. split; [|split; [exact Fe|]].
        -- unfold now_used at 2. rewrite K, Q0, andb_false_r. reflexivity.
        -- intros w. rewrite H. split; [intros (x & I & X); exists x; split; [now right|exact X]|]. intros (x & [<-|I] & X & Y & Z); [|exists x; auto]. rewrite K in Y. apply ref_eqb_eq in Y. congruence.
    + cbn [rbind fst snd]. destruct (IH p R F') as (W & e & E & Fe & H). rewrite E. cbn [rbind fst snd map]. exists W, e. split; [|split; [exact Fe|]].
      * assert (T : todo n pt (v, false, g) = false) by exact M. unfold now_used at 2. rewrite T. reflexivity.
      * intros w. rewrite H. split; [intros (x & I & X); exists x; split; [now right|exact X]|]. intros (x & [<-|I] & X & Y); [exfalso; change (member_ n pt g = true) in X; congruence|exists x; auto].
Qed.

Lemma pass_all xs : forall s, (forall x, In x xs -> fine x) ->
  ((forall x, In x xs -> todo n pt x = false) /\ one_pass n pt t row (Pass (None, None) true s) xs = Ok (Pass (None, None) true s, map (fun x => snd (fst x)) xs)) \/
  (exists y p h i W, In y xs /\ todo n pt y = true /\ described (snd y) n p h i /\
    one_pass n pt t row (Pass (None, None) true s) xs = Ok (Pass (key_of y) false (W ++ s), map (now_used n pt (key_of y)) xs) /\
    (forall w, In w W <-> w = ((row, a), Text (joined p)) \/ w = ((row, b), Text (joined h)) \/ exists x, In x xs /\ todo n pt x = true /\ key_of x = key_of y /\ cells_of t row x w)).
Proof.
  induction xs as [|[[v u] g] xs IH]; intros s F; [left; split; [intros ? []|reflexivity]|].
  assert (F' : forall x, In x xs -> fine x) by (intros; apply F; now right).
  destruct (todo n pt (v, u, g)) eqn:T.
  - right. destruct (F _ (or_introl eq_refl) T) as (p & h & i & D & c & C). cbn [snd] in D. pose proof (compare_described _ _ _ _ _ D) as CD. exists (v, u, g), p, h, i.
    assert (u = false /\ member_ n pt g = true) as (-> & M) by (unfold todo in T; cbn in T; destruct u; [discriminate|auto]).
    assert (K : key_of (v, false, g) = (Some (joined p), Some (joined h))) by (unfold key_of; cbn [snd]; now rewrite CD). assert (ID : id_of (v, false, g) = i) by (unfold id_of; cbn [snd]; now rewrite CD).
    cbn [one_pass]. unfold value_step. rewrite M. cbn [a_ref no_ref]. match goal with |- context [foldM (first_of t row v) g (?P, false)] => destruct (first_described g n p h i t row v P a b c D Ta Tb C) as (W0 & E0 & H0) end. cbn [a_sheet] in E0 |- *. rewrite E0. cbn [rbind fst snd].
    match goal with |- context [one_pass n pt t row ?P xs] => destruct (pass_rest (key_of (v, false, g)) ltac:(now rewrite K) xs P) as (W & e & E & Fe & H) end; [cbn [a_ref]; now rewrite K|exact F'|]. rewrite E. cbn [a_end] in Fe. rewrite (Fe eq_refl). cbn [rbind fst snd a_sheet map].
    exists (W ++ W0). split; [now left|]. split; [exact T|]. split; [exact D|]. split.
    + rewrite app_assoc. unfold now_used at 2. rewrite T, (proj2 (ref_eqb_eq _ _) eq_refl). reflexivity.
    + intros w. rewrite in_app_iff, H, H0. split.
      * intros [(x & I & X)|[X|[X|X]]]; auto; [right; right; exists x; split; [now right|exact X]|]. right. right. exists (v, false, g). split; [now left|]. split; [exact T|]. split; [reflexivity|]. exists c. now rewrite ID.
      * intros [X|[X|(x & [<-|I] & X & Y & Z)]]; auto; [|left; exists x; auto]. right. right. right. destruct Z as (k & Z & ->). rewrite ID in Z. cbn. congruence.
  - assert (V : value_step n pt t row (Pass (None, None) true s) (v, u, g) = Ok (Pass (None, None) true s, u)).
    { unfold value_step. destruct u; [reflexivity|]. change (member_ n pt g = false) in T. now rewrite T. }
    cbn [one_pass]. rewrite V. cbn [rbind fst snd]. destruct (IH s F') as [(N & E)|(y & p & h & i & W & I & Ty & D & E & H)].
    + left. split; [intros x [<-|I]; [exact T|auto]|]. rewrite E. reflexivity.
    + right. exists y, p, h, i, W. split; [now right|]. split; [exact Ty|]. split; [exact D|]. split.
      * rewrite E. cbn [rbind fst snd map]. unfold now_used at 2. rewrite T. cbn. now rewrite orb_false_r.
      * intros w. rewrite H. split; (intros [X|[X|(x & I' & X)]]; auto; right; right; exists x); [split; [now right|exact X]|]. destruct I' as [<-|I']; [destruct X; congruence|auto].
Qed.
End PASS.

Lemma pass_none n pt t row s xs : (forall x, In x xs -> todo n pt x = false) -> one_pass n pt t row (Pass (None, None) true s) xs = Ok (Pass (None, None) true s, map (fun x => snd (fst x)) xs).
Proof.
  induction xs as [|[[v u] g] xs IH]; intros N; [reflexivity|]. cbn [one_pass map].
  assert (V : value_step n pt t row (Pass (None, None) true s) (v, u, g) = Ok (Pass (None, None) true s, u)).
  { unfold value_step. destruct u; [reflexivity|]. pose proof (N _ (or_introl eq_refl)) as T. change (member_ n pt g = false) in T. now rewrite T. }
  rewrite V. cbn [rbind fst snd]. rewrite IH by (intros; apply N; now right). reflexivity.
Qed.

(** ** rows *)
Definition items (vs : list (Q * list cha)) (used : list bool) : list item := map (fun x => (fst (fst x), snd x, snd (fst x))) (combine vs used).
Lemma items_in vs used v u g : In (v, u, g) (items vs used) -> In (v, g) vs.
Proof. unfold items. intros I. apply in_map_iff in I as ([[v' g'] u'] & E & I). cbn in E. injection E as -> -> ->. now apply in_combine_l in I. Qed.
Lemma items_flags vs : forall used, List.length used = List.length vs -> map (fun x => snd (fst x)) (items vs used) = used.
Proof. induction vs as [|[v g] vs IH]; intros [|u used] L; cbn in *; try lia; [reflexivity|]. f_equal. apply IH. lia. Qed.
Lemma items_map f vs : forall used, List.length used = List.length vs -> items vs (map f (items vs used)) = map (fun x => (fst (fst x), f x, snd x)) (items vs used).
Proof. induction vs as [|[v g] vs IH]; intros [|u used] L; cbn in *; try lia; [reflexivity|]. f_equal. apply IH. lia. Qed.
Lemma items_length vs used : List.length used = List.length vs -> List.length (items vs used) = List.length vs.
Proof. intros L. unfold items. rewrite map_length, combine_length. lia. Qed.
Lemma items_all vs : forall used v g, List.length used = List.length vs -> In (v, g) vs -> exists u, In (v, u, g) (items vs used).
Proof.
  induction vs as [|[v g] vs IH]; intros [|u used] v' g' L I; cbn in *; try contradiction; try lia. destruct I as [E|I]; [injection E as -> ->; exists u; now left|]. destruct (IH used v' g' ltac:(lia) I) as (u' & J). exists u'. now right.
Qed.
Lemma filter_less {A} (p q : A -> bool) l y : (forall x, q x = true -> p x = true) -> In y l -> p y = true -> q y = false -> List.length (filter q l) < List.length (filter p l).
Proof.
  intros S. assert (G : forall l, List.length (filter q l) <= List.length (filter p l)).
  { clear l. intros l; induction l as [|x l IH]; cbn; [lia|]. destruct (q x) eqn:E; [rewrite (S _ E); cbn; lia|]. destruct (p x); cbn; lia. }
  induction l as [|x l IH]; intros I P N; [destruct I|]. cbn. destruct I as [->|I]; [rewrite P, N; cbn; specialize (G l); lia|]. specialize (IH I P N). destruct (q x) eqn:E; [rewrite (S _ E); cbn; lia|]. destruct (p x); cbn; lia.
Qed.
Lemma filter_map_length {A B} (f : A -> B) (p : B -> bool) l : List.length (filter p (map f l)) = List.length (filter (fun x => p (f x)) l).
Proof. induction l as [|x l IH]; cbn; [reflexivity|]. destruct (p (f x)); cbn; auto. Qed.
Lemma filter_none_length {A} (p : A -> bool) l : List.length (filter p l) = 0 -> forall x, In x l -> p x = false.
Proof. intros E x I. destruct (p x) eqn:P; [|reflexivity]. assert (J : In x (filter p l)) by (now apply filter_In). destruct (filter p l); [destruct J|discriminate]. Qed.

Section ROWS.
Variables (n : string) (pt : list string) (vs : list (Q * list cha)).
Hypothesis AD : all_described vs.
Hypothesis TA : told_apart n pt vs.
Let t := columns n (map snd vs).

Lemma member_facts v g : In (v, g) vs -> member_ n pt g = true -> exists p h i c, described g n p h i /\ values_of p = pt /\ column_of t i = Some c /\ i <> "pt" /\ i <> "hour".
Proof.
  intros I M. destruct (AD v g I) as (n' & p & h & i & D & X & Y). pose proof (proj1 (member_described _ _ _ _ _ n pt D) M) as (Q0 & V). subst n'. clear M.
  destruct (columns_ok n (map snd vs)) as (_ & _ & C). pose proof D as (ND & _ & _ & _ & _ & _ & (m & Ii)).
  destruct (C g i m) as (c & E); [apply in_map_iff; exists (v, g); auto|rewrite (named_described _ _ _ _ _ n D); apply String.eqb_refl|exact ND|exact Ii|]. exists p, h, i, c. auto.
Qed.
Lemma place_facts v g : In (v, g) vs -> member_ n pt g = true -> (exists a, column_of t "pt" = Some a) /\ (exists b, column_of t "hour" = Some b).
Proof.
  intros I M. assert (NG : exists g, In g (map snd vs) /\ named n g = true).
  { exists g. split; [apply in_map_iff; exists (v, g); auto|]. destruct (member_facts _ _ I M) as (p & h & i & c & D & _). rewrite (named_described _ _ _ _ _ _ D). apply String.eqb_refl. }
  split; apply columns_place; try exact NG; intros g' I' _; apply in_map_iff in I' as ([v' g''] & E & I'); cbn in E; subst g''; destruct (AD v' g' I') as (n' & p & h & i & (_ & _ & Ip & Kp & Ih & Kh & _) & _).
  - exists p. split; [exact Ip|]. split; [exact (proj1 (place_keys p) Kp)|exact Kp].
  - exists h. split; [exact Ih|]. split; [exact (proj2 (place_keys h) Kh)|exact Kh].
Qed.

Variables (a b : nat).
Hypothesis Ta : column_of t "pt" = Some a.
Hypothesis Tb : column_of t "hour" = Some b.

Definition placed (row : nat) (s : sheet) (v : Q) (g : list cha) : Prop :=
  exists p h i r c, described g n p h i /\ values_of p = pt /\ 3 <= r < row /\ column_of t i = Some c /\ cell_at s r c = Some (Num v) /\ cell_at s r a = Some (Text (joined p)) /\ cell_at s r b = Some (Text (joined h)).
Definition inv (row : nat) (s : sheet) (used : list bool) : Prop :=
  (forall r c v, In ((r, c), v) s -> r < row) /\
  (cell_at s 1 1 = Some (Text n)) /\
  (forall k m, column_of t k = Some m -> cell_at s 2 m = Some (Text k)) /\
  (forall v g, In (v, true, g) (items vs used) -> member_ n pt g = true -> placed row s v g) /\
  (forall r c q, In ((r, c), Num q) s -> exists g p h i, In (q, g) vs /\ described g n p h i /\ values_of p = pt /\ column_of t i = Some c /\ cell_at s r a = Some (Text (joined p)) /\ cell_at s r b = Some (Text (joined h))).

Lemma rows_run : forall m used row s, List.length used = List.length vs -> 3 <= row -> inv row s used -> List.length (filter (todo n pt) (items vs used)) <= m ->
  exists s' row', let used' := map (fun x => snd (fst x) || member_ n pt (snd x)) (items vs used) in
    (forall fuel, m < fuel -> rows fuel n pt t vs used row s = Ok (s', used')) /\ inv row' s' used'.
Proof.
  destruct (columns_ok n (map snd vs)) as (_ & INJ & _). fold t in INJ.
  assert (AB : a <> b) by (intros ->; pose proof (INJ _ _ _ Ta Tb); discriminate).
  induction m as [m IH] using lt_wf_ind. intros used row s L R3 J M.
  set (used' := map (fun x => snd (fst x) || member_ n pt (snd x)) (items vs used)).
  assert (NT : (forall x, In x (items vs used) -> todo n pt x = false) -> used' = used).
  { intros N. unfold used'. rewrite <- (items_flags vs used L) at 2. apply map_ext_in. intros [[v u] g] I. pose proof (N _ I) as T. unfold todo in T. cbn [fst snd] in *. destruct u; [reflexivity|exact T]. }
  assert (Fn : forall x, In x (items vs used) -> fine n pt t x).
  { intros [[v u] g] I T. apply andb_true_iff in T as (_ & T). cbn [fst snd] in *. destruct (member_facts v g (items_in _ _ _ _ _ I) T) as (p & h & i & c & D & _ & C & _). exists p, h, i. eauto. }
  destruct (pass_all n pt t row a b Ta Tb (items vs used) s Fn) as [(N & E)|(y & p & h & i & W & Iy & Ty & D & E & H)].
  - exists s, row. cbv zeta. fold used'. rewrite (NT N). split; [|exact J]. intros [|f] Lf; [lia|]. cbn [rows]. destruct (forallb _ used); [reflexivity|]. fold (items vs used). rewrite E. cbn [rbind fst snd a_end a_sheet]. now rewrite items_flags.
  - set (us := map (now_used n pt (key_of y)) (items vs used)) in *.
    assert (Lus : List.length us = List.length vs) by (unfold us; rewrite map_length; now apply items_length).
    assert (EI : items vs us = map (fun x => (fst (fst x), now_used n pt (key_of y) x, snd x)) (items vs used)) by (now apply items_map).
    assert (LESS : List.length (filter (todo n pt) (items vs us)) < List.length (filter (todo n pt) (items vs used))).
    { rewrite EI, filter_map_length. apply (filter_less _ _ _ y); [|exact Iy|exact Ty|].
      - intros [[v u] g]. unfold todo, now_used. cbn [fst snd]. destruct u; cbn; auto. destruct (ref_eqb _ _); cbn; rewrite ?andb_true_r, ?andb_false_r; cbn; auto. intros X. apply andb_true_iff in X as (_ & X). exact X.
      - destruct y as [[v u] g]. unfold todo in *. cbn [fst snd] in *. unfold now_used, todo. cbn [fst snd]. rewrite Ty, (proj2 (ref_eqb_eq _ _) eq_refl), orb_true_r. reflexivity. }
    assert (US : map (fun x => snd (fst x) || member_ n pt (snd x)) (items vs us) = used').
    { rewrite EI, map_map. apply map_ext. intros [[v u] g]. unfold now_used, todo. cbn [fst snd]. destruct u; [reflexivity|]. cbn. destruct (member_ n pt g); [apply orb_true_r|reflexivity]. }
    assert (NA : forallb (fun b => b) used = false).
    { apply not_true_is_false. intros X. rewrite forallb_forall in X. destruct y as [[v u] g]. assert (Iu : In u used). { unfold items in Iy. apply in_map_iff in Iy as ([[v' g'] u'] & Q0 & Iy). cbn in Q0. injection Q0 as -> -> ->. now apply in_combine_r in Iy. } rewrite (X _ Iu) in Ty. discriminate. }
    (* every todo item *)
    assert (X : forall v g, In (v, false, g) (items vs used) -> todo n pt (v, false, g) = true -> key_of (v, false, g) = key_of y ->
      exists px hx ix cx, described g n px hx ix /\ values_of px = pt /\ column_of t ix = Some cx /\ ix <> "pt" /\ ix <> "hour" /\ joined px = joined p /\ joined hx = joined h /\ id_of (v, false, g) = ix).
    { intros v g I T K. destruct (member_facts v g (items_in _ _ _ _ _ I) T) as (px & hx & ix & cx & Dx & Vx & Cx & N1 & N2). exists px, hx, ix, cx. unfold key_of in K. cbn [snd] in K. rewrite (compare_described _ _ _ _ _ Dx), (compare_described _ _ _ _ _ D) in K. cbn [fst] in K. injection K as K1 K2.
      unfold id_of. cbn [snd]. rewrite (compare_described _ _ _ _ _ Dx). cbn. auto 10. }
    assert (FL : forall x, todo n pt x = true -> exists v g, x = (v, false, g)) by (intros [[v []] g] T; [discriminate|eauto]).
    assert (WR : forall r c v, In ((r, c), v) W -> r = row).
    { intros r c v I. apply H in I as [I|[I|(x & _ & _ & _ & k & _ & I)]]; congruence. }
    assert (CA : cell_at (W ++ s) row a = Some (Text (joined p))).
    { apply cell_block; [apply H; now left|]. intros v' I. apply H in I as [I|[I|(x & Ix & Tx & Kx & k & Ck & I)]]; [congruence|congruence|]. injection I as Ek ->. subst k. destruct (FL x Tx) as (v & g & ->). destruct (X v g Ix Tx Kx) as (px & hx & ix & cx & Dx & Vx & Cx & N1 & N2 & _ & _ & Q0). rewrite Q0 in Ck. exfalso. apply N1. exact (INJ _ _ _ Ck Ta). }
    assert (CB : cell_at (W ++ s) row b = Some (Text (joined h))).
    { apply cell_block; [apply H; right; now left|]. intros v' I. apply H in I as [I|[I|(x & Ix & Tx & Kx & k & Ck & I)]]; [congruence|congruence|]. injection I as Ek ->. subst k. destruct (FL x Tx) as (v & g & ->). destruct (X v g Ix Tx Kx) as (px & hx & ix & cx & Dx & Vx & Cx & N1 & N2 & _ & _ & Q0). rewrite Q0 in Ck. exfalso. apply N2. exact (INJ _ _ _ Ck Tb). }
    destruct J as (J0 & J1 & J2 & J3 & J4).
    assert (J' : inv (row + 1) (W ++ s) us).
    { assert (SK : forall r c, r <> row -> cell_at (W ++ s) r c = cell_at s r c) by (intros r c Nr; apply cell_skip; intros v I; apply WR in I; auto).
      split; [|split; [|split; [|split]]].
      - intros r c v I. apply in_app_iff in I as [I|I]; [apply WR in I; lia|apply J0 in I; lia].
      - rewrite SK by lia. exact J1.
      - intros k m' Ck. rewrite SK by lia. now apply J2.
      - intros v g I Mg. rewrite EI in I. apply in_map_iff in I as ([[v' u] g'] & Q0 & I). cbn [fst snd] in Q0. injection Q0 as -> Q0 ->. destruct u.
        + destruct (J3 v g I Mg) as (px & hx & ix & r & c & Dx & Vx & Rr & Cx & A & B & C). exists px, hx, ix, r, c. rewrite !SK by lia. split; [exact Dx|]. split; [exact Vx|]. split; [lia|]. auto.
        + unfold now_used in Q0. cbn [fst snd orb] in Q0. apply andb_true_iff in Q0 as (T & Kq). apply ref_eqb_eq in Kq. destruct (X v g I T Kq) as (px & hx & ix & cx & Dx & Vx & Cx & N1 & N2 & P1 & P2 & Q0). exists px, hx, ix, row, cx. rewrite P1, P2.
          split; [exact Dx|]. split; [exact Vx|]. split; [lia|]. split; [exact Cx|]. split; [|auto]. apply cell_block.
          * apply H. right. right. exists (v, false, g). split; [exact I|]. split; [exact T|]. split; [exact Kq|]. exists cx. now rewrite Q0.
          * intros v' Iv. apply H in Iv as [Iv|[Iv|(x & Ix & Tx & Kx & k & Ck & Iv)]].
            -- injection Iv as Ea ->. subst cx. exfalso. apply N1. exact (INJ _ _ _ Cx Ta).
            -- injection Iv as Ea ->. subst cx. exfalso. apply N2. exact (INJ _ _ _ Cx Tb).
            -- injection Iv as Ea ->. subst cx. f_equal. destruct (FL x Tx) as (v2 & g2 & ->). destruct (X v2 g2 Ix Tx Kx) as (p2 & h2 & i2 & c2 & D2 & V2 & C2 & _ & _ & P3 & P4 & Q2). rewrite Q2 in Ck. cbn [fst].
               apply (TA v2 g2 p2 h2 i2 v g px hx ix); [eapply items_in; exact Ix|eapply items_in; exact I|exact D2|exact Dx|exact V2|exact Vx|rewrite <- !joined_concat; congruence|exact (INJ _ _ _ Ck Cx)].
      - intros r c q I. apply in_app_iff in I as [I|I].
        + pose proof (WR _ _ _ I) as ->. apply H in I as [I|[I|(x & Ix & Tx & Kx & k & Ck & I)]]; [discriminate|discriminate|]. injection I as -> ->. destruct (FL x Tx) as (v2 & g2 & ->). destruct (X v2 g2 Ix Tx Kx) as (p2 & h2 & i2 & c2 & D2 & V2 & C2 & _ & _ & P3 & P4 & Q2). rewrite Q2 in Ck. exists g2, p2, h2, i2. rewrite P3, P4. cbn [fst]. split; [eapply items_in; exact Ix|]. auto 8.
        + destruct (J4 r c q I) as (g & px & hx & ix & A1 & A2 & A3 & A4 & A5 & A6). pose proof (J0 _ _ _ I). exists g, px, hx, ix. rewrite !SK by lia. auto 8. }
    destruct (IH (List.length (filter (todo n pt) (items vs us))) ltac:(lia) us (row + 1) (W ++ s) Lus ltac:(lia) J' (Nat.le_refl _)) as (s' & row' & B1 & B2). cbv zeta in B1, B2. rewrite US in B1, B2.
    exists s', row'. cbv zeta. split; [|exact B2]. intros [|f] Lf; [lia|]. cbn [rows]. rewrite NA. fold (items vs used). rewrite E. cbn [rbind fst snd a_end a_sheet]. apply B1. lia.
Qed.
End ROWS.

(** ** tables *)
Lemma described_unique g n p h i n' p' h' i' : described g n p h i -> described g n' p' h' i' -> n = n' /\ p = p' /\ h = h' /\ i = i'.
Proof.
  intros (ND & (m & A) & B & Kb & C & Kc & (k & D)) (_ & (m' & A') & B' & Kb' & C' & Kc' & (k' & D')).
  pose proof (unique_key g _ _ ND A A' eq_refl) as E1. pose proof (unique_key g _ _ ND D D' eq_refl) as E2. injection E1 as -> _. injection E2 as -> _. split; [reflexivity|]. split; [apply (unique_key g); congruence|]. split; [apply (unique_key g); congruence|reflexivity].
Qed.
Lemma sheet_ok n pt vs used : all_described vs -> told_apart n pt vs -> List.length used = List.length vs ->
  (forall v g, In (v, true, g) (items vs used) -> member_ n pt g = false) ->
  exists s, table_of n pt vs s /\ forall fuel, List.length vs < fuel -> opf_sheet fuel n pt vs used = Ok (s, map (fun x => snd (fst x) || member_ n pt (snd x)) (items vs used)).
Proof.
  intros AD TA L NU. set (t := columns n (map snd vs)).
  assert (H3 : forall r c v, In ((r, c), v) (header n t) -> r < 3) by (intros r c v I; now apply header_rows in I).
  destruct (existsb (fun x => member_ n pt (snd x)) vs) eqn:E.
  - apply existsb_exists in E as ([v g] & I & M). cbn in M. destruct (place_facts n pt vs AD v g I M) as ((a & Ta) & (b & Tb)). fold t in Ta, Tb.
    destruct (rows_run n pt vs AD TA a b Ta Tb (List.length vs) used 3 (header n t) L (Nat.le_refl _)) as (s & row & R & J).
    + split; [exact H3|]. split; [apply header_name|]. split; [apply header_titles|]. split.
      * intros v' g' I' M'. rewrite (NU _ _ I') in M'. discriminate.
      * intros r c q I'. apply header_rows in I' as (_ & k & K). discriminate.
    + etransitivity; [|apply Nat.eq_le_incl, (items_length vs used L)]. clear. induction (items vs used) as [|x l IH]; cbn; [lia|]. destruct (todo n pt x); cbn; lia.
    + cbv zeta in R, J. exists s. split; [|exact R]. destruct J as (J0 & J1 & J2 & J3 & J4). split; [exact J1|]. split.
      * intros v' g' p h i I' D V. assert (M' : member_ n pt g' = true) by (apply (member_described _ _ _ _ _ n pt D); auto).
        destruct (items_all vs used v' g' L I') as (u & Iu). destruct (J3 v' g') as (p' & h' & i' & r & c & D' & V' & Rr & C & C1 & C2 & C3); [|exact M'|].
        -- rewrite (items_map _ vs used L). apply in_map_iff. exists (v', u, g'). split; [|exact Iu]. cbn [fst snd]. now rewrite M', orb_true_r.
        -- destruct (described_unique _ _ _ _ _ _ _ _ _ D D') as (_ & -> & -> & ->). exists r, c, a, b. rewrite !joined_concat in *. rewrite V' in C2. split; [lia|]. auto 8.
      * intros r c q C. apply cell_in in C. destruct (J4 r c q C) as (g' & p & h & i & A1 & A2 & A3 & A4 & A5 & A6). exists g', p, h, i, b. rewrite <- joined_concat. auto 8.
  - assert (NM : forall v g, In (v, g) vs -> member_ n pt g = false).
    { intros v g I. apply not_true_is_false. intros M. enough (X : existsb (fun x => member_ n pt (snd x)) vs = true) by congruence. apply existsb_exists. exists (v, g). auto. }
    assert (NT : forall x, In x (items vs used) -> todo n pt x = false) by (intros [[v u] g] I; unfold todo; cbn [fst snd]; rewrite (NM v g (items_in _ _ _ _ _ I)); apply andb_false_r).
    exists (header n t). split.
    + split; [apply header_name|]. split.
      * intros v g p h i I D V. assert (M : member_ n pt g = true) by (apply (member_described _ _ _ _ _ n pt D); auto). rewrite (NM v g I) in M. discriminate.
      * intros r c q C. apply cell_in, header_rows in C as (_ & k & K). discriminate.
    + assert (EU : map (fun x => snd (fst x) || member_ n pt (snd x)) (items vs used) = used).
      { rewrite <- (items_flags vs used L) at 2. apply map_ext_in. intros [[v u] g] I. cbn [fst snd]. rewrite (NM v g (items_in _ _ _ _ _ I)). apply orb_false_r. }
      rewrite EU. intros [|f] Lf; [lia|]. unfold opf_sheet. fold t. cbn [rows]. destruct (forallb _ used); [reflexivity|]. fold (items vs used). rewrite (pass_none _ _ _ _ _ _ NT). cbn [rbind fst snd a_end a_sheet]. now rewrite items_flags.
Qed.

(** A sheet when all its values are used already. *)
Lemma sheet_again n pt vs used : List.length used = List.length vs -> (forall x, In x (items vs used) -> todo n pt x = false) ->
  forall fuel, 0 < fuel -> opf_sheet fuel n pt vs used = Ok (header n (columns n (map snd vs)), used).
Proof.
  intros L NT [|f] Lf; [lia|]. unfold opf_sheet. cbn [rows]. destruct (forallb _ used); [reflexivity|]. fold (items vs used). rewrite (pass_none _ _ _ _ _ _ NT). cbn [rbind fst snd a_end a_sheet]. now rewrite items_flags.
Qed.

(** ** workbooks *)
Lemma save_fold pt vs : pt <> [] -> all_described vs -> forall outs used sheets, List.length used = List.length vs ->
  (forall o, In o outs -> o_problem o = "DC OPF") -> NoDup (map o_name outs) -> (forall o, In o outs -> told_apart (o_name o) pt vs) ->
  (forall o v g, In o outs -> In (v, true, g) (items vs used) -> member_ (o_name o) pt g = false) ->
  exists new used', Forall2 (fun o s => table_of (o_name o) pt vs s) outs new /\
    forall fuel, List.length vs < fuel -> foldM (save_step fuel pt vs) outs (sheets, used) = Ok (sheets ++ new, used').
Proof.
  intros PT AD. induction outs as [|o outs IH]; intros used sheets L PB ND TA NU.
  - exists [], used. split; [constructor|]. intros. cbn. now rewrite app_nil_r.
  - cbn in ND. inversion ND as [|? ? NI ND']; subst. destruct (sheet_ok (o_name o) pt vs used AD (TA o (or_introl eq_refl)) L) as (s & T & R); [intros v g; apply NU; now left|].
    destruct (IH (map (fun x => snd (fst x) || member_ (o_name o) pt (snd x)) (items vs used)) (sheets ++ [s])) as (new & used' & F & E).
    + rewrite map_length. now apply items_length.
    + intros; apply PB; now right.
    + exact ND'.
    + intros; apply TA; now right.
    + intros o' v g Io I. rewrite (items_map _ vs used L) in I. apply in_map_iff in I as ([[v' u] g'] & Q0 & I). cbn [fst snd] in Q0. injection Q0 as -> Q0 ->. destruct u; [apply (NU o' v g); [now right|exact I]|]. cbn in Q0.
      apply not_true_is_false. intros M. destruct (AD v g (items_in _ _ _ _ _ I)) as (n' & p & h & i & D & _). pose proof (proj1 (member_described _ _ _ _ _ _ _ D) M) as (M1 & _). pose proof (proj1 (member_described _ _ _ _ _ _ _ D) Q0) as (Q1 & _). apply NI. rewrite <- Q1, M1. now apply in_map.
    + exists (s :: new), used'. split; [now constructor|]. intros fuel Lf. cbn [foldM].
      match goal with |- rbind ?X _ = _ => assert (X = Ok (sheets ++ [s], map (fun x => snd (fst x) || member_ (o_name o) pt (snd x)) (items vs used))) as -> end.
      { unfold save_step. rewrite (PB o (or_introl eq_refl)). cbn [String.eqb fst snd]. change (String.eqb "DC OPF" "DC OPF") with true. cbv iota. rewrite (R fuel Lf). now destruct pt. }
      cbn [rbind]. rewrite (E fuel Lf), <- app_assoc. reflexivity.
Qed.

(** ** a value without an ID *)
Definition has_id (g : list cha) : bool := existsb (fun c => String.eqb (ch_key c) "ID") g.
Lemma first_no_id t row v g : has_id g = false -> forall p u p' u', foldM (first_of t row v) g (p, u) = Ok (p', u') -> u' = u /\ a_end p' = a_end p.
Proof.
  unfold has_id. induction g as [|c g IH]; cbn [existsb foldM]; intros H p u p' u' E; [injection E as <- <-; auto|]. apply orb_false_iff in H as (K & H). unfold first_of at 1 in E. rewrite K in E.
  destruct (is_place c); [|cbn in E; now apply IH in E]. destruct (col t (ch_key c)); [|discriminate]. cbn in E. apply IH in E; [|exact H]. cbn in E. exact E.
Qed.
Lemma first_end t row v g : forall p u p' u', foldM (first_of t row v) g (p, u) = Ok (p', u') -> a_end p' = a_end p.
Proof.
  induction g as [|c g IH]; cbn [foldM]; intros p u p' u' E; [injection E as <- <-; auto|]. unfold first_of at 1 in E. destruct (is_place c).
  - destruct (col t (ch_key c)); [|discriminate]. cbn in E. apply IH in E. exact E.
  - destruct (String.eqb (ch_key c) "ID"); [|cbn in E; now apply IH in E]. destruct (col t (ch_val c)); [|discriminate]. cbn in E. apply IH in E. exact E.
Qed.
Lemma compare_no_id g : has_id g = false -> snd (compare_of g) = "".
Proof.
  unfold compare_of. assert (X : forall s, has_id g = false -> snd (fold_left (fun s c => if is_place c then (set_ref (fst s) (ch_key c) (joined c), snd s) else if String.eqb (ch_key c) "ID" then (fst s, ch_val c) else s) g s) = snd s); [|intros H; now rewrite X].
  unfold has_id. induction g as [|c g IH]; cbn [existsb fold_left]; intros s H; [reflexivity|]. apply orb_false_iff in H as (K & H). rewrite K. rewrite IH by exact H. now destruct (is_place c).
Qed.
Definition kept (p : pass) : Prop := no_ref (a_ref p) = false -> a_end p = false.
Lemma step_kept n pt t row p x p' u' : kept p -> value_step n pt t row p x = Ok (p', u') -> kept p' /\ (a_end p = false -> a_end p' = false).
Proof.
  destruct x as [[v u] g]. unfold value_step. intros K E. destruct u; [injection E as <- <-; auto|]. destruct (member_ n pt g); [|injection E as <- <-; auto]. destruct (no_ref (a_ref p)) eqn:R.
  - apply first_end in E. cbn in E. split; [intros _; exact E|intros _; exact E].
  - destruct (compare_of g) as [r i]. destruct (ref_eqb r (a_ref p)); [|injection E as <- <-; auto]. destruct (col t i); [|discriminate]. injection E as <- <-. split; [intros _; reflexivity|reflexivity].
Qed.
Lemma step_no_id n pt t row p v g p' u' : kept p -> column_of t "" = None -> has_id g = false -> member_ n pt g = true -> value_step n pt t row p (v, false, g) = Ok (p', u') -> u' = false /\ a_end p' = false.
Proof.
  unfold value_step. intros K C H M E. rewrite M in E. destruct (no_ref (a_ref p)) eqn:R; [apply (first_no_id _ _ _ _ H) in E; exact E|].
  pose proof (compare_no_id g H) as I. destruct (compare_of g) as [r i]. cbn in I. subst i. unfold col in E. rewrite C in E. destruct (ref_eqb r (a_ref p)); [discriminate|]. injection E as <- <-. auto.
Qed.
Lemma pass_end n pt t row xs : forall p p' us, kept p -> one_pass n pt t row p xs = Ok (p', us) -> a_end p = false -> a_end p' = false.
Proof.
  induction xs as [|x xs IH]; intros p p' us K E A; cbn [one_pass] in E; [injection E as <- <-; auto|]. destruct (value_step n pt t row p x) as [[q u]|] eqn:V; [|discriminate]. cbn [rbind fst snd] in E.
  destruct (one_pass n pt t row q xs) as [[q' us']|] eqn:O; [|discriminate]. cbn [rbind fst snd] in E. injection E as <- <-. destruct (step_kept _ _ _ _ _ _ _ _ K V) as (K' & A'). eapply IH; [exact K'|exact O|auto].
Qed.
Lemma pass_no_id n pt t row v g : column_of t "" = None -> has_id g = false -> member_ n pt g = true -> forall xs k p p' us, kept p -> nth_error xs k = Some (v, false, g) -> one_pass n pt t row p xs = Ok (p', us) -> nth_error us k = Some false /\ a_end p' = false.
Proof.
  intros C H M. induction xs as [|x xs IH]; intros k p p' us K N E; [destruct k; discriminate|]. cbn [one_pass] in E. destruct (value_step n pt t row p x) as [[q u]|] eqn:V; [|discriminate]. cbn [rbind fst snd] in E.
  destruct (one_pass n pt t row q xs) as [[q' us']|] eqn:O; [|discriminate]. cbn [rbind fst snd] in E. injection E as <- <-. destruct (step_kept _ _ _ _ _ _ _ _ K V) as (K' & A'). destruct k as [|k]; cbn in N |- *.
  - injection N as ->. destruct (step_no_id _ _ _ _ _ _ _ _ _ K C H M V) as (-> & A). split; [reflexivity|]. eapply pass_end; eauto.
  - eapply IH; eauto.
Qed.
Lemma items_nth vs : forall used k v g u, nth_error vs k = Some (v, g) -> nth_error used k = Some u -> nth_error (items vs used) k = Some (v, u, g).
Proof. induction vs as [|[v' g'] vs IH]; intros [|u' used] [|k] v g u A B; cbn in *; try discriminate; [now injection A as -> ->; injection B as ->|]. apply (IH used k v g u A B). Qed.
Lemma rows_no_id n pt t vs v g k : column_of t "" = None -> has_id g = false -> member_ n pt g = true -> nth_error vs k = Some (v, g) -> forall fuel used row s z, nth_error used k = Some false -> rows fuel n pt t vs used row s <> Ok z.
Proof.
  intros C H M N. induction fuel as [|f IH]; intros used row s z U E; [discriminate|]. cbn [rows] in E.
  assert (F : forallb (fun b => b) used = false). { apply not_true_is_false. intros X. rewrite forallb_forall in X. apply nth_error_In in U. now apply X in U. }
  rewrite F in E. fold (items vs used) in E. destruct (one_pass n pt t row (Pass (None, None) true s) (items vs used)) as [[p us]|] eqn:O; [|discriminate]. cbn [rbind fst snd] in E.
  assert (K0 : kept (Pass (None, None) true s)) by (intros X; discriminate X).
  destruct (pass_no_id n pt t row v g C H M _ k _ _ _ K0 (items_nth _ _ _ _ _ _ N U) O) as (A & B). rewrite B in E. exact (IH _ _ _ _ A E).
Qed.
Lemma columns_keys n gs k : column_of (columns n gs) k <> None -> k = "pt" \/ k = "hour" \/ exists g c, In g gs /\ named n g = true /\ In c g /\ ch_key c = "ID" /\ ch_val c = k.
Proof.
  unfold columns. assert (A : forall gs0 s, (forall g, In g gs0 -> In g gs) -> column_of (fst (fold_left (id_step n) gs0 s)) k <> None -> column_of (fst s) k <> None \/ exists g c, In g gs /\ named n g = true /\ In c g /\ ch_key c = "ID" /\ ch_val c = k).
  { induction gs0 as [|g gs0 IH]; intros s S; cbn [fold_left]; [auto|]. intros E. apply IH in E; [|intros; apply S; now right]. destruct E as [E|E]; [|auto]. unfold id_step in E. destruct (named n g) eqn:N; [|auto].
    match type of E with context [find ?f g] => destruct (find f g) as [c|] eqn:F end; [|auto]. apply find_some in F as (Ic & F). apply andb_true_iff in F as (F & _). apply String.eqb_eq in F. cbn [fst] in E. rewrite put_get in E. destruct (String.eqb_spec (ch_val c) k) as [Q0|Q0]; [|auto]. right. exists g, c. split; [apply S; now left|]. auto. }
  intros E. apply (A gs) in E; [|auto]. destruct E as [E|E]; [|auto]. unfold place_columns in E. destruct (find (named n) gs) as [g|]; [|now destruct E].
  assert (B : forall g s, column_of (fst (fold_left (fun s c => if is_place c then (put (fst s) (ch_key c) (snd s), snd s + 1) else s) g s)) k <> None -> column_of (fst s) k <> None \/ k = "pt" \/ k = "hour").
  { clear. induction g as [|c g IH]; intros s; cbn [fold_left]; [auto|]. intros E. apply IH in E. destruct E as [E|E]; [|auto]. destruct (is_place c) eqn:P; [|auto]. cbn [fst] in E. rewrite put_get in E. destruct (String.eqb_spec (ch_key c) k) as [Q0|Q0]; [|auto]. right. unfold is_place in P. apply orb_true_iff in P as [P|P]; apply String.eqb_eq in P; rewrite <- Q0; auto. }
  apply B in E as [E|[E|E]]; auto. now destruct E.
Qed.

(** ** outputs of the tree *)
Lemma put_more t k n : put t k n <> [].
Proof. destruct t as [|[x m] t]; cbn; [discriminate|]. now destruct (String.eqb x k). Qed.
Lemma tree_more n gs g c : In g gs -> named n g = true -> In c g -> ch_key c <> "name" -> tree_columns n gs <> [].
Proof.
  intros I N Ic K. unfold tree_columns.
  set (F2 := fun s g => if named n g then match find (fun c => String.eqb (ch_key c) "reference" && match column_of (fst s) (ch_val c) with None => true | Some _ => false end) g with Some c => (put (fst s) (ch_val c) (snd s), snd s + 1) | None => s end else s).
  set (f1 := fun (s : table * nat) c => if negb (String.eqb (ch_key c) "name") && negb (String.eqb (ch_key c) "reference") then (put (fst s) (ch_key c) (snd s), snd s + 1) else s).
  set (F1 := fun s g => if named n g then fold_left f1 g s else s).
  assert (P1 : forall g s, fst s <> [] -> fst (fold_left f1 g s) <> []).
  { clear. induction g as [|c g IH]; intros s H; cbn [fold_left]; [exact H|]. apply IH. unfold f1. destruct (_ && _); [cbn; apply put_more|exact H]. }
  assert (P2 : forall gs s, fst s <> [] -> fst (fold_left F1 gs s) <> []).
  { clear - P1. induction gs as [|g gs IH]; intros s H; cbn [fold_left]; [exact H|]. apply IH. unfold F1. destruct (named n g); [now apply P1|exact H]. }
  assert (P3 : forall gs s, fst s <> [] -> fst (fold_left F2 gs s) <> []).
  { clear. induction gs as [|g gs IH]; intros s H; cbn [fold_left]; [exact H|]. apply IH. unfold F2. destruct (named n g); [|exact H]. destruct (find _ g); [cbn; apply put_more|exact H]. }
  destruct (String.eqb_spec (ch_key c) "reference") as [R|R].
  - assert (P4 : forall gs s, In g gs -> fst (fold_left F2 gs s) <> []).
    { clear - N Ic R P3. induction gs as [|g' gs IH]; intros s I; [destruct I|]. destruct I as [->|I]; [|now apply IH]. cbn [fold_left]. apply P3. unfold F2. rewrite N. match goal with |- context [find ?f g] => destruct (find f g) as [d|] eqn:F end; [cbn; apply put_more|]. apply (find_none _ _ F) in Ic. rewrite R in Ic. destruct s as [t0 n0]. cbn in Ic |- *. intros X. rewrite X in Ic. discriminate. }
    now apply P4.
  - apply P3. assert (P5 : forall gs s, In g gs -> fst (fold_left F1 gs s) <> []).
    { clear - N Ic R K P1 P2. induction gs as [|g' gs IH]; intros s I; [destruct I|]. destruct I as [->|I]; [|now apply IH]. cbn [fold_left]. apply P2. unfold F1. rewrite N. revert s. induction g as [|d g IHg]; intros s; [destruct Ic|]. cbn [fold_left]. clear N. destruct Ic as [->|Ic].
      - apply P1. unfold f1. destruct (String.eqb_spec (ch_key c) "name"); [congruence|]. destruct (String.eqb_spec (ch_key c) "reference"); [congruence|]. cbn. apply put_more.
      - revert Ic. generalize (f1 s d). clear - R K P1. induction g as [|e g IH]; intros s Ic; [destruct Ic|]. cbn [fold_left]. destruct Ic as [->|Ic]; [|now apply IH]. apply P1. unfold f1. destruct (String.eqb_spec (ch_key c) "name"); [congruence|]. destruct (String.eqb_spec (ch_key c) "reference"); [congruence|]. cbn. apply put_more. }
    now apply P5.
Qed.
Lemma foldM_fails {A S} (f : S -> A -> res S) l x : In x l -> (forall s, exists e, f s x = Err e) -> forall s, exists e, foldM f l s = Err e.
Proof.
  intros I F. induction l as [|y l IH]; intros s; [destruct I|]. cbn. destruct I as [->|I]; [destruct (F s) as (e & E); rewrite E; exists e; reflexivity|]. destruct (f s y) as [s'|e]; [exact (IH I s')|exists e; reflexivity].
Qed.
