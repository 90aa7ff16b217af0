(** Dividing rivers into parts. *)
From Coq Require Import List Bool Arith ZArith QArith Lia Lqa.
From Verif Require Import Base GraphData GraphDataProofs Cases CasesProofs Network InputOutput InputOutputProofs Hydro HydroSpec HydroNet.
Import ListNotations.
Open Scope nat_scope.
Open Scope list_scope.

Local Ltac sp := repeat match goal with |- _ /\ _ => split end.

Lemma nsum_acc l : forall a, fold_left Nat.add l a = a + fold_left Nat.add l 0.
Proof. induction l as [|x l IH]; intros a; cbn [fold_left]; [lia|]. rewrite IH, (IH (0 + x)). lia. Qed.
Lemma nsum_cons x l : nsum (x :: l) = x + nsum l.
Proof. unfold nsum. cbn [fold_left]. rewrite nsum_acc. lia. Qed.
Lemma nsum_ge l : Forall (fun k => 1 <= k) l -> List.length l <= nsum l.
Proof. induction 1 as [|k l L F IH]; [reflexivity|]. rewrite nsum_cons. cbn. lia. Qed.
Lemma nsum_ones l : Forall (fun k => 1 <= k) l -> nsum l <= List.length l -> Forall (fun k => k = 1) l.
Proof. induction 1 as [|k l L F IH]; intros H; [constructor|]. rewrite nsum_cons in H. cbn in H. pose proof (nsum_ge l F). constructor; [lia|]. apply IH. lia. Qed.
Lemma nsum_repeat k n : nsum (repeat k n) = n * k.
Proof. induction n as [|n IH]; [reflexivity|]. cbn [repeat]. rewrite nsum_cons, IH. lia. Qed.

Lemma chain_ok r len : forall k a xn share, let (ps, xn') := chain r len k a xn share in
  xn' = xn + k /\ List.length ps = S k /\ leads ps a (ri_to r) /\ Forall (same_bed r) ps /\ Forall (fun p => ri_length p = len) ps /\ inner ps = seq (S xn) k /\
  exists p rest, ps = p :: rest /\ ri_share p = share /\ Forall (fun q => ri_share q = 1%Q) rest.
Proof.
  induction k as [|k IH]; intros a xn share; cbn [chain].
  - sp; auto; [cbn; auto|constructor; [unfold same_bed, bucket; cbn; auto 6|constructor]|]. eexists. exists []. split; [reflexivity|]. split; [reflexivity|constructor].
  - specialize (IH (S xn) (S xn) 1%Q). destruct (chain r len k (S xn) (S xn) 1%Q) as (l, xn'). destruct IH as (E & L & LD & SB & LN & IN & p & rest & -> & S1 & SR). sp.
    + lia.
    + cbn in *. lia.
    + cbn [leads]. split; [reflexivity|]. exact LD.
    + constructor; auto. unfold same_bed, bucket. cbn. auto 6.
    + constructor; auto.
    + change (inner (bucket r a (S xn) share len :: p :: rest)) with (S xn :: inner (p :: rest)). rewrite IN. reflexivity.
    + eexists. eexists. split; [reflexivity|]. split; [reflexivity|]. constructor; auto.
Qed.

Lemma same_lengths l len : Forall (fun p => ri_length p = len) l -> (qsum (map ri_length l) == inject_Z (Z.of_nat (List.length l)) * len)%Q.
Proof.
  induction 1 as [|p l E F IH]; [cbn; ring|]. cbn [map List.length]. cbn [qsum fold_right]. fold (qsum (map ri_length l)). rewrite IH, E. rewrite Nat2Z.inj_succ, <- Z.add_1_r, inject_Z_plus. ring.
Qed.

Lemma chain_pieces r k xn : let (ps, xn') := chain r (ri_length r / inject_Z (Z.of_nat (S k)))%Q k (ri_from r) xn (ri_share r) in
  xn' = xn + k /\ pieces_of r (S k) ps /\ inner ps = seq (S xn) k.
Proof.
  pose proof (chain_ok r (ri_length r / inject_Z (Z.of_nat (S k)))%Q k (ri_from r) xn (ri_share r)) as H. destruct (chain _ _ _ _ _ _) as (ps, xn'). destruct H as (E & L & LD & SB & LN & IN & SH). sp; auto. unfold pieces_of. sp; auto.
  - rewrite Forall_forall in LN. intros p q Ip Iq. rewrite (LN p Ip), (LN q Iq). reflexivity.
  - rewrite (same_lengths ps _ LN), L. field. intros X. unfold Qeq, inject_Z in X. cbn in X. lia.
Qed.

Lemma divide_ok nodes parts rs : List.length parts = List.length rs -> Forall (fun k => 1 <= k) parts -> exists pieces n',
  divide_rivers parts rs nodes = Ok (List.concat pieces, n') /\ Forall2 (fun rk ps => pieces_of (fst rk) (snd rk) ps) (combine rs parts) pieces /\
  n' + List.length rs = nodes + nsum parts /\ List.concat (map inner pieces) = seq (S nodes) (n' - nodes).
Proof.
  intros L F. unfold divide_rivers.
  assert (X : forall rs2 ps2 ps1 xn acc, parts = ps1 ++ ps2 -> List.length ps2 = List.length rs2 -> Forall (fun k => 1 <= k) ps2 -> exists pieces n',
    foldM (fun st ir =>
      let '(xn, l) := st in
      do k <- at_ parts (fst ir);
      match k with
      | O => Err ZeroDivisionError
      | S k' => let (ps, xn') := chain (snd ir) (ri_length (snd ir) / inject_Z (Z.of_nat k))%Q k' (ri_from (snd ir)) xn (ri_share (snd ir)) in Ok (xn', l ++ ps)
      end) (combine (seq (List.length ps1) (List.length rs2)) rs2) (xn, acc) = Ok (n', acc ++ List.concat pieces) /\
    Forall2 (fun rk ps => pieces_of (fst rk) (snd rk) ps) (combine rs2 ps2) pieces /\ n' + List.length rs2 = xn + nsum ps2 /\ List.concat (map inner pieces) = seq (S xn) (n' - xn)).
  { induction rs2 as [|r rs2 IH]; intros ps2 ps1 xn acc Ep L2 F2; destruct ps2 as [|k ps2]; cbn in L2; try discriminate.
    - exists [], xn. cbn. rewrite List.app_nil_r, Nat.sub_diag. sp; auto.
    - inversion F2 as [|? ? Lk F2']; subst k l. cbn [List.length seq combine foldM fst snd].
      assert (Ek : at_ parts (List.length ps1) = Ok x) by (apply at_nth; rewrite Ep, nth_error_app2, Nat.sub_diag by lia; reflexivity). rewrite Ek. cbn [rbind].
      destruct x as [|k]; [lia|]. pose proof (chain_pieces r k xn) as CP. destruct (chain _ _ k _ xn _) as (ps, xn'). destruct CP as (Ex & PO & IN). subst xn'. cbn [rbind].
      destruct (IH ps2 (ps1 ++ [S k]) (xn + k) (acc ++ ps)) as (pieces & n' & E & FF & LN & CI); [rewrite <- app_assoc; exact Ep|lia|auto|].
      rewrite app_length in E. cbn [List.length] in E. replace (List.length ps1 + 1) with (S (List.length ps1)) in E by lia. rewrite E. exists (ps :: pieces), n'. cbn [List.concat map]. rewrite nsum_cons. sp.
      + now rewrite <- app_assoc.
      + constructor; auto.
      + cbn. lia.
      + rewrite IN, CI. pose proof (nsum_ge ps2 F2'). replace (n' - xn) with (k + (n' - (xn + k))) by lia. rewrite seq_app. f_equal. }
  destruct (X rs parts [] nodes [] eq_refl L F) as (pieces & n' & E & FF & LN & CI). cbn [List.length app] in E. rewrite E. cbn [rbind fst snd]. exists pieces, n'. sp; auto.
  assert (LC : List.length (List.concat pieces) = nsum parts).
  { clear - FF L. revert parts pieces L FF. induction rs as [|r rs IH]; intros [|k parts] pieces L FF; cbn in L; try discriminate; cbn [combine] in FF; inversion FF as [|? ps ? pieces' H FF']; subst; [reflexivity|]. cbn [List.concat]. rewrite app_length, nsum_cons, (IH parts); auto. destruct H as (H & _). cbn in H. now rewrite H. }
  rewrite LC, Nat.sub_diag. cbn [repeat]. now rewrite List.app_nil_r.
Qed.

Lemma last_node_ok rs : rs <> [] -> exists n, last_node rs = Ok n /\ (exists r, In r rs /\ (ri_from r = n \/ ri_to r = n)) /\ Forall (fun r => ri_from r <= n /\ ri_to r <= n) rs.
Proof.
  intros N. unfold last_node. destruct (nmax_ok (map ri_from rs)) as (a & Ea & Ia & La); [destruct rs; [contradiction|discriminate]|]. destruct (nmax_ok (map ri_to rs)) as (b & Eb & Ib & Lb); [destruct rs; [contradiction|discriminate]|].
  rewrite Ea, Eb. cbn [rbind]. eexists. split; [reflexivity|]. split.
  - apply in_map_iff in Ia as (r1 & E1 & I1). apply in_map_iff in Ib as (r2 & E2 & I2). destruct (Nat.max_spec a b) as [(_ & ->)|(_ & ->)]; eauto.
  - rewrite Forall_forall in *. intros r I. specialize (La _ (in_map ri_from _ _ I)). specialize (Lb _ (in_map ri_to _ _ I)). cbn beta in *. lia.
Qed.

Lemma parts_of_ok given n : (List.length given = 0 \/ List.length given = 1 \/ List.length given = n) -> 0 < n -> parts_set given n (parts_of given n) /\ List.length (parts_of given n) = n.
Proof.
  intros H N. unfold parts_set, parts_of. destruct given as [|k [|k2 given]]; cbn [List.length] in *.
  - rewrite repeat_length. auto.
  - rewrite repeat_length. split; auto. right. left. eauto.
  - split; [right; right; sp; auto; lia|lia].
Qed.

Lemma ramp_ones n parts ramp rp : ramp_values n parts ramp = Ok rp -> rp = repeat 1 (nsum parts).
Proof.
  unfold ramp_values. destruct ramp as [|q [|q2 ramp]]; [now intros [= <-]|destruct (nsum parts <=? 1); [now intros [= <-]|discriminate]|].
  destruct (foldM _ _ tt); [|discriminate]. cbn. now intros [= <-].
Qed.

Lemma ramp_ok n parts ramp : List.length parts = n -> Forall (fun k => 1 <= k) parts -> List.length ramp <> 1 -> ramp_values n parts ramp = Ok (repeat 1 (nsum parts)).
Proof.
  intros L F NR. unfold ramp_values. destruct ramp as [|q [|q2 ramp]]; [reflexivity|now cbn in NR|].
  assert (X : forall l, (forall x, In x l -> x < n) -> foldM (fun u xp => do k <- at_ parts xp; if (0 <? k) && (nsum parts <=? xp) then Err IndexError else Ok u) l tt = Ok tt).
  { induction l as [|x l IH]; intros H; [reflexivity|]. cbn [foldM]. destruct (nth_error parts x) as [k|] eqn:E; [|apply nth_error_None in E; specialize (H x (or_introl eq_refl)); lia].
    unfold at_. rewrite E. cbn [rbind]. pose proof (nsum_ge parts F). specialize (H x (or_introl eq_refl)) as Hx. rewrite (proj2 (Nat.leb_gt _ _)) by lia. rewrite andb_false_r. cbn [rbind]. apply IH. intros y I. apply H. now right. }
  rewrite X; [reflexivity|]. intros x I. apply in_seq in I. lia.
Qed.

Lemma single_pieces rs parts : List.length parts = List.length rs -> Forall (fun k => k = 1) parts -> Forall2 (fun rk ps => pieces_of (fst rk) (snd rk) ps) (combine rs parts) (map (fun r => [r]) rs).
Proof.
  revert parts. induction rs as [|r rs IH]; intros [|k parts] L F; cbn in L; try discriminate; cbn [combine map]; constructor.
  - inversion F; subst. cbn [fst snd]. unfold pieces_of. sp; [reflexivity|cbn; auto|constructor; [unfold same_bed; auto 6|constructor]| | |].
    + intros p q [<-|[]] [<-|[]]. reflexivity.
    + cbn [map]. unfold qsum. cbn. ring.
    + exists r, []. auto.
  - inversion F; subst. apply IH; auto.
Qed.

Theorem build_parts_ok given ramp rs n : rs <> [] -> last_node rs = Ok n -> List.length ramp <> 1 ->
  (List.length given = 0 \/ List.length given = 1 \/ List.length given = List.length rs) -> Forall (fun k => 1 <= k) given ->
  exists parts pieces n', parts_set given (List.length rs) parts /\ build_parts given ramp rs = Ok (List.concat pieces, n', repeat 1 (nsum parts)) /\
  Forall2 (fun rk ps => pieces_of (fst rk) (snd rk) ps) (combine rs parts) pieces /\ List.length parts = List.length rs /\ n' + List.length rs = n + nsum parts /\ List.concat (map inner pieces) = seq (S n) (n' - n).
Proof.
  intros N LN NR LG F. assert (L0 : 0 < List.length rs) by (destruct rs; [contradiction|cbn; lia]). destruct (parts_of_ok given (List.length rs) LG L0) as (PS & LP).
  assert (FP : Forall (fun k => 1 <= k) (parts_of given (List.length rs))).
  { unfold parts_of. destruct given as [|k [|k2 given]]; auto; apply Forall_forall; intros x I; apply repeat_spec in I; subst; auto. inversion F; auto. }
  unfold build_parts. rewrite LN. cbn [rbind]. rewrite ramp_ok by auto. cbn [rbind]. destruct (Nat.ltb_spec (List.length rs) (nsum (parts_of given (List.length rs)))) as [Lt|Ge].
  - destruct (divide_ok n _ rs LP FP) as (pieces & n' & E & FF & LL & CI). rewrite E. cbn [rbind]. exists (parts_of given (List.length rs)), pieces, n'. sp; auto.
  - pose proof (nsum_ge _ FP). exists (parts_of given (List.length rs)), (map (fun r => [r]) rs), n. sp; auto.
    + f_equal. f_equal. f_equal. clear. induction rs as [|r rs IH]; [reflexivity|]. cbn. now f_equal.
    + apply single_pieces; auto. apply nsum_ones; auto. lia.
    + lia.
    + rewrite Nat.sub_diag, map_map. clear. induction rs as [|r rs IH]; [reflexivity|exact IH].
Qed.

(** ** The divided rivers as a network *)

Lemma leads_nodes : forall ps a b p, leads ps a b -> In p ps -> (ri_from p = a \/ In (ri_from p) (inner ps)) /\ (ri_to p = b \/ In (ri_to p) (inner ps)).
Proof.
  induction ps as [|q ps IH]; intros a b p LD I; [destruct I|]. destruct ps as [|q2 ps].
  - destruct I as [<-|[]]. cbn in LD. tauto.
  - cbn [leads] in LD. destruct LD as (Ea & LD). change (inner (q :: q2 :: ps)) with (ri_to q :: inner (q2 :: ps)). destruct I as [<-|I].
    + split; [now left|right; now left].
    + destruct (IH _ _ p LD I) as (A & B). cbn [In]. intuition auto.
Qed.
Lemma leads_ends : forall ps a b, leads ps a b -> In a (map ri_from ps) /\ In b (map ri_to ps).
Proof.
  induction ps as [|q ps IH]; intros a b LD; [destruct LD|]. destruct ps as [|q2 ps]; [cbn in *; tauto|]. destruct LD as (<- & LD). destruct (IH _ _ LD) as (_ & B). cbn [map In] in *. tauto.
Qed.
Lemma inner_to ps x : In x (inner ps) -> In x (map ri_to ps).
Proof. unfold inner. intros I. apply in_map_iff in I as (p & <- & I). apply in_map. revert I. induction ps as [|q [|q2 ps] IH]; cbn; intuition auto. Qed.
Lemma leads_apart : forall ps a b xn k, leads ps a b -> inner ps = seq (S xn) k -> a <= xn -> b <= xn -> a <> b -> NoDup (map ends ps) /\ (1 <= k -> Forall (fun p => S xn <= snd (ends p)) ps).
Proof.
  induction ps as [|q ps IH]; intros a b xn k LD IN La Lb N; [destruct LD|]. destruct ps as [|q2 ps].
  - split; [cbn; constructor; [intros []|constructor]|]. intros L. destruct k; [lia|]. discriminate.
  - destruct LD as (<- & LD). change (inner (q :: q2 :: ps)) with (ri_to q :: inner (q2 :: ps)) in IN. destruct k as [|k]; [discriminate|]. cbn [seq] in IN. injection IN as Eq IN.
    rewrite Eq in LD. destruct (IH (S xn) b (S xn) k LD IN) as (ND & FF); [lia|lia|lia|]. split.
    + cbn [map]. constructor; auto. change (~ In (ends q) (map ends (q2 :: ps))). destruct k as [|k].
      * destruct ps as [|q3 ps]; [|discriminate]. cbn in LD. cbn [map]. intros [X|[]]. destruct LD as (L1 & L2). unfold ends in X. rewrite L1, L2, Eq in X. apply (f_equal fst) in X. cbn [fst] in X. lia.
      * intros X. apply in_map_iff in X as (p & Ep & Ip). specialize (FF ltac:(lia)). rewrite Forall_forall in FF. specialize (FF p Ip). rewrite Ep in FF. unfold ends in FF. cbn [fst snd] in FF. lia.
    + intros _. constructor; [unfold ends; cbn [fst snd]; lia|]. destruct k as [|k].
      * destruct ps as [|q3 ps]; [|discriminate]. cbn in LD. constructor; [unfold ends; cbn [fst snd]; lia|constructor].
      * specialize (FF ltac:(lia)). eapply Forall_impl; [|exact FF]. cbn. intros p. lia.
Qed.

(** What is known of the pieces: the new nodes follow the old ones. *)
Definition divided (n : nat) (rs : list river) (parts : list nat) (pieces : list (list river)) (n' : nat) : Prop :=
  Forall2 (fun rk ps => pieces_of (fst rk) (snd rk) ps) (combine rs parts) pieces /\ List.length parts = List.length rs /\ Forall (fun k => 1 <= k) parts /\
  n' + List.length rs = n + nsum parts /\ List.concat (map inner pieces) = seq (S n) (n' - n).

Lemma divided_river n rs parts pieces n' ps : divided n rs parts pieces n' -> In ps pieces -> exists r k, In r rs /\ pieces_of r k ps.
Proof.
  intros (F & _) I. apply In_nth_error in I as (i & E). destruct (F2_nth_r _ _ _ _ _ F E) as ((r, k) & E1 & P). apply nth_error_In in E1. apply in_combine_l in E1. eauto.
Qed.
Lemma divided_piece n rs parts pieces n' r : divided n rs parts pieces n' -> In r rs -> exists ps k, In ps pieces /\ pieces_of r k ps.
Proof.
  intros (F & L & _) I. apply In_nth_error in I as (i & E). assert (exists k, nth_error parts i = Some k) as (k & Ek). { destruct (nth_error parts i) eqn:X; eauto. apply nth_error_None in X. assert (i < List.length rs) by (apply nth_error_Some; congruence). lia. }
  assert (Ec : nth_error (combine rs parts) i = Some (r, k)). { clear F L. revert rs parts E Ek. induction i as [|i IH]; intros [|? rs] [|? parts] E Ek; try discriminate; cbn in *; [congruence|auto]. }
  destruct (F2_nth _ _ _ _ _ F Ec) as (ps & E1 & P). apply nth_error_In in E1. eauto.
Qed.

Lemma divided_nodes n rs parts pieces n' : divided n rs parts pieces n' -> nodes_ok n rs -> nodes_ok n' (List.concat pieces).
Proof.
  intros D NO. unfold nodes_ok. apply Forall_forall. intros p I. apply in_concat in I as (ps & Ips & Ip). destruct (divided_river _ _ _ _ _ _ D Ips) as (r & k & Ir & P). destruct P as (_ & LD & _).
  destruct D as (_ & LP & FP & LN & CI). pose proof (nsum_ge _ FP). unfold nodes_ok in NO. rewrite Forall_forall in NO. specialize (NO r Ir).
  assert (X : forall x, In x (inner ps) -> 1 <= x <= n'). { intros x Ix. assert (J : In x (List.concat (map inner pieces))) by (apply in_concat; exists (inner ps); split; auto; now apply in_map). rewrite CI in J. apply in_seq in J. lia. }
  destruct (leads_nodes ps _ _ p LD Ip) as (A & B). split; [destruct A as [->|A]|destruct B as [->|B]]; auto; lia.
Qed.

Lemma last_node_is rs n : rs <> [] -> Forall (fun r => ri_from r <= n /\ ri_to r <= n) rs -> (exists r, In r rs /\ (ri_from r = n \/ ri_to r = n)) -> last_node rs = Ok n.
Proof.
  intros N F (r & I & H). destruct (last_node_ok rs N) as (m & E & (r2 & I2 & H2) & F2). rewrite E. f_equal. rewrite Forall_forall in F, F2. specialize (F r2 I2). specialize (F2 r I). cbn beta in *. lia.
Qed.
Lemma divided_last n rs parts pieces n' : divided n rs parts pieces n' -> rs <> [] -> last_node rs = Ok n -> last_node (List.concat pieces) = Ok n' /\ List.concat pieces <> [].
Proof.
  intros D NE LN. destruct (last_node_ok rs NE) as (m & E & (r & I & H) & F). rewrite LN in E. injection E as <-.
  destruct (divided_piece _ _ _ _ _ r D I) as (ps & k & Ips & P). pose proof D as (_ & LP & FP & LL & CI). pose proof (nsum_ge _ FP).
  assert (NE2 : List.concat pieces <> []). { destruct P as (_ & LD & _). intros X. destruct ps as [|p ps]; [destruct LD|]. assert (J : In p (List.concat pieces)) by (apply in_concat; exists (p :: ps); split; auto; now left). rewrite X in J. destruct J. }
  split; auto. apply last_node_is; auto.
  - apply Forall_forall. intros p J. apply in_concat in J as (ps2 & Ips2 & Ip). destruct (divided_river _ _ _ _ _ _ D Ips2) as (r2 & k2 & Ir2 & (_ & LD2 & _)). rewrite Forall_forall in F. specialize (F r2 Ir2). cbn beta in F.
    assert (X : forall x, In x (inner ps2) -> x <= n'). { intros x Ix. assert (J : In x (List.concat (map inner pieces))) by (apply in_concat; exists (inner ps2); split; auto; now apply in_map). rewrite CI in J. apply in_seq in J. lia. }
    destruct (leads_nodes ps2 _ _ p LD2 Ip) as (A & B). split; [destruct A as [->|A]|destruct B as [->|B]]; auto; lia.
  - destruct (Nat.eq_dec n' n) as [->|Nn].
    + destruct P as (_ & LD & _). destruct (leads_ends _ _ _ LD) as (A & B). destruct H as [H|H]; [apply in_map_iff in A as (p & Ep & Ip)|apply in_map_iff in B as (p & Ep & Ip)]; exists p; (split; [apply in_concat; exists ps; auto|]); [left|right]; congruence.
    + assert (J : In n' (List.concat (map inner pieces))) by (rewrite CI; apply in_seq; lia). apply in_concat in J as (x & J1 & J2). apply in_map_iff in J1 as (ps2 & <- & J1). apply inner_to in J2. apply in_map_iff in J2 as (p & Ep & Ip). exists p. split; auto. apply in_concat. eauto.
Qed.

Lemma NoDup_apart {A} (l m : list A) : NoDup l -> NoDup m -> (forall x, In x l -> In x m -> False) -> NoDup (l ++ m).
Proof. induction 1 as [|x l N ND IH]; intros M H; [exact M|]. cbn. constructor; [|apply IH; auto; intros y I; apply H; now right]. rewrite in_app_iff. intros [I|I]; [contradiction|exact (H x (or_introl eq_refl) I)]. Qed.
Lemma divided_apart : forall rs parts pieces n xn n', Forall2 (fun rk ps => pieces_of (fst rk) (snd rk) ps) (combine rs parts) pieces -> List.length parts = List.length rs -> Forall (fun k => 1 <= k) parts ->
  n <= xn -> List.concat (map inner pieces) = seq (S xn) n' -> Forall (fun r => ri_from r <= n /\ ri_to r <= n /\ ri_from r <> ri_to r) rs -> NoDup (map ends rs) ->
  NoDup (map ends (List.concat pieces)) /\ forall p, In p (List.concat pieces) -> In (ends p) (map ends rs) \/ S xn <= snd (ends p).
Proof.
  induction rs as [|r rs IH]; intros parts pieces n xn n' F L FP Lx CI FB ND; destruct parts as [|k parts]; cbn in L; try discriminate; cbn [combine] in F; inversion F as [|? ps ? pieces2 P F2]; subst; [split; [constructor|intros p []]|].
  cbn [fst snd] in P. destruct P as (LK & LD & _). inversion FB as [|? ? (B1 & B2 & B3) FB2]; subst. inversion ND as [|? ? NI ND2]; subst. inversion FP as [|? ? K1 FP2]; subst.
  cbn [map List.concat] in CI. set (i := List.length (inner ps)) in *.
  assert (LI : List.length (inner ps ++ List.concat (map inner pieces2)) = n') by (rewrite CI; apply seq_length). rewrite app_length in LI. fold i in LI.
  assert (CI2 : inner ps = seq (S xn) i /\ List.concat (map inner pieces2) = seq (S (xn + i)) (n' - i)).
  { replace n' with (i + (n' - i)) in CI by lia. rewrite seq_app in CI. assert (Y : forall (a b c d : list nat), a ++ b = c ++ d -> List.length a = List.length c -> a = c /\ b = d). { induction a as [|x a IHa]; intros b [|y c'] [|z d'] E Le; cbn in *; try discriminate; auto; injection E as E1 E2; try (destruct (IHa _ _ _ E2 ltac:(lia)) as (-> & ->); subst; auto). } apply Y in CI; [|now rewrite seq_length]. cbn [Nat.add] in CI. exact CI. }
  destruct CI2 as (C1 & C2). destruct (IH parts pieces2 n (xn + i) (n' - i) F2 ltac:(lia) FP2 ltac:(lia) C2 FB2 ND2) as (IH1 & IH2).
  destruct (leads_apart ps _ _ xn i LD C1 ltac:(lia) ltac:(lia) B3) as (A1 & A2).
  assert (Ki : i = 0 -> ps = [] \/ exists p, ps = [p]). { unfold i, inner. rewrite map_length. destruct ps as [|p [|p2 ps]]; eauto. discriminate. }
  assert (One : i = 0 -> forall p, In p ps -> ends p = ends r). { intros Z p Ip. destruct (Ki Z) as [->|(q & ->)]; [destruct Ip|]. destruct Ip as [<-|[]]. cbn in LD. destruct LD as (E1 & E2). unfold ends. now rewrite E1, E2. }
  assert (Bd : forall p, In p ps -> snd (ends p) <= xn + i). { intros p Ip. destruct (leads_nodes ps _ _ p LD Ip) as (X1 & X2). rewrite C1 in X1, X2. rewrite in_seq in X1, X2. unfold ends. cbn. lia. }
  cbn [List.concat]. split.
  - rewrite map_app. apply NoDup_apart; auto. intros x I1 I2. apply in_map_iff in I1 as (p & <- & Ip). apply in_map_iff in I2 as (q & Eq & Iq). destruct (IH2 q Iq) as [J|J].
    + rewrite Eq in J. destruct (Nat.eq_dec i 0) as [Z|Z]; [rewrite (One Z p Ip) in J; contradiction|]. specialize (A2 ltac:(lia)). rewrite Forall_forall in A2. specialize (A2 p Ip). apply in_map_iff in J as (r2 & E2 & I2). rewrite Forall_forall in FB2. specialize (FB2 r2 I2). rewrite <- E2 in A2. unfold ends in A2. cbn in A2. lia.
    + rewrite Eq in J. specialize (Bd p Ip). lia.
  - intros p I. apply in_app_or in I as [I|I].
    + destruct (Nat.eq_dec i 0) as [Z|Z]; [left; left; symmetry; now apply One|]. right. specialize (A2 ltac:(lia)). rewrite Forall_forall in A2. now apply A2.
    + destruct (IH2 p I) as [J|J]; [left; now right|right; lia].
Qed.

Lemma divided_parallel n rs parts pieces n' : divided n rs parts pieces n' -> Forall (fun r => ri_from r <= n /\ ri_to r <= n /\ ri_from r <> ri_to r) rs -> no_parallel rs -> no_parallel (List.concat pieces).
Proof. intros (F & L & FP & LN & CI) FB NP. apply ends_nodup. apply ends_nodup in NP. exact (proj1 (divided_apart rs parts pieces n n _ F L FP (le_n _) CI FB NP)). Qed.
