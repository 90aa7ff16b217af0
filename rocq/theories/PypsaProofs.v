From Coq Require Import List String Bool Arith ZArith QArith Lia DecimalString.
From Verif Require Import Base ContainerProofs Pypsa PypsaSpec.
Import ListNotations.
Open Scope nat_scope.
Open Scope list_scope.

Arguments bus_name : simpl never.
Arguments gen_name : simpl never.
Arguments load_name : simpl never.
Arguments line_name : simpl never.
Arguments trs_name : simpl never.

Lemma append_inj a : forall b c, (a ++ b)%string = (a ++ c)%string -> b = c.
Proof. induction a as [|x a IH]; intros b c E; [exact E|]. injection E as E. exact (IH _ _ E). Qed.

Lemma str_nat_no_minus n s : str_nat n <> ("-" ++ s)%string.
Proof. unfold str_nat. destruct (Nat.to_uint n); discriminate. Qed.

Lemma str_Z_inj x y : str_Z x = str_Z y -> x = y.
Proof.
  unfold str_Z. destruct (Z.ltb_spec x 0), (Z.ltb_spec y 0); intros E.
  - apply append_inj, str_nat_inj in E. lia.
  - symmetry in E. now apply str_nat_no_minus in E.
  - now apply str_nat_no_minus in E.
  - apply str_nat_inj in E. lia.
Qed.

Lemma str_Z_nat n : str_Z (Z.of_nat n) = str_nat n.
Proof. unfold str_Z. destruct (Z.ltb_spec (Z.of_nat n) 0); [lia|]. now rewrite Nat2Z.id. Qed.

Lemma bus_name_inj x y : bus_name x = bus_name y -> x = y.
Proof. intros E. apply append_inj in E. now apply str_Z_inj. Qed.
Lemma gen_name_inj x y : gen_name x = gen_name y -> x = y.
Proof. intros E. apply append_inj in E. now apply str_nat_inj. Qed.
Lemma bus_name_nat n : bus_name (Z.of_nat n + 1) = ("Bus" ++ str_nat (n + 1))%string.
Proof. unfold bus_name. now replace (Z.of_nat n + 1)%Z with (Z.of_nat (n + 1)) by lia; rewrite str_Z_nat. Qed.

(** ** lists *)
Lemma at_lt {A} (l : list A) i : i < List.length l -> exists a, at_ l i = Ok a /\ nth_error l i = Some a.
Proof. intros L. unfold at_. apply nth_error_Some in L. destruct (nth_error l i); [eauto|congruence]. Qed.
Lemma at_some {A} (l : list A) i a : nth_error l i = Some a -> at_ l i = Ok a.
Proof. unfold at_. now intros ->. Qed.
Lemma at_ok {A} (l : list A) i a : at_ l i = Ok a -> nth_error l i = Some a.
Proof. unfold at_. destruct (nth_error l i); [now injection 1 as ->|discriminate]. Qed.

Lemma mapM_nth {A B} (f : A -> res B) : forall l r, mapM f l = Ok r -> List.length r = List.length l /\ forall i a, nth_error l i = Some a -> exists b, nth_error r i = Some b /\ f a = Ok b.
Proof.
  induction l as [|x l IH]; intros r E; cbn in E.
  - injection E as <-. split; [reflexivity|]. intros [|i] a; discriminate.
  - destruct (f x) as [y|] eqn:F; [|discriminate]. cbn in E. destruct (mapM f l) as [ys|] eqn:M; [|discriminate]. injection E as <-.
    destruct (IH _ eq_refl) as (L & K). split; [cbn; congruence|]. intros [|i] a H; cbn in *; [injection H as <-; eauto|auto].
Qed.
Lemma mapM_total {A B} (f : A -> res B) l : (forall a, In a l -> exists b, f a = Ok b) -> exists r, mapM f l = Ok r.
Proof.
  induction l as [|a l IH]; intros H; cbn; [eauto|]. destruct (H a) as (b & ->); [now left|]. destruct IH as (r & ->); [intros; apply H; now right|]. cbn. eauto.
Qed.
Lemma mapM_map {A B} (f : A -> res B) (g : A -> B) l : (forall a, In a l -> f a = Ok (g a)) -> mapM f l = Ok (map g l).
Proof. induction l as [|a l IH]; intros H; cbn; [reflexivity|]. rewrite H by now left. cbn. rewrite IH by (intros; apply H; now right). reflexivity. Qed.

Lemma numbered_from {A} (l : list A) : forall s i, nth_error (combine (seq s (List.length l)) l) i = option_map (pair (s + i)) (nth_error l i).
Proof.
  induction l as [|a l IH]; intros s [|i]; cbn; try reflexivity; [now rewrite Nat.add_0_r|]. rewrite IH. now replace (S s + i) with (s + S i) by lia.
Qed.
Lemma numbered_nth {A} (l : list A) i : nth_error (numbered l) i = option_map (pair i) (nth_error l i).
Proof. apply numbered_from. Qed.
Lemma numbered_in {A} (l : list A) x : In x (numbered l) -> nth_error l (fst x) = Some (snd x).
Proof.
  intros I. apply In_nth_error in I as (i & E). rewrite numbered_nth in E. destruct (nth_error l i) eqn:F; [|discriminate]. injection E as <-. exact F.
Qed.
Lemma in_numbered {A} (l : list A) i a : nth_error l i = Some a -> In (i, a) (numbered l).
Proof. intros E. apply (nth_error_In _ i). now rewrite numbered_nth, E. Qed.
Lemma numbered_length {A} (l : list A) : List.length (numbered l) = List.length l.
Proof. unfold numbered. rewrite combine_length, seq_length. lia. Qed.
Lemma numbered_fst {A} (l : list A) : map fst (numbered l) = seq 0 (List.length l).
Proof.
  unfold numbered. generalize 0. induction l as [|a l IH]; intros s; cbn; [reflexivity|]. now rewrite IH.
Qed.
Lemma numbered_snd {A} (l : list A) : map snd (numbered l) = l.
Proof. unfold numbered. generalize 0. induction l as [|a l IH]; intros s; cbn; [reflexivity|]. now rewrite IH. Qed.

Lemma set_nth_length {A} (a : A) : forall l i, List.length (set_nth l i a) = List.length l.
Proof. induction l as [|x l IH]; intros [|i]; cbn; auto. Qed.
Lemma set_nth_other {A} (a : A) : forall l i j, i <> j -> nth_error (set_nth l i a) j = nth_error l j.
Proof. induction l as [|x l IH]; intros [|i] [|j] D; cbn; auto; lia. Qed.

(** ** the set points *)
Lemma pv_fold N : forall l pv out, foldM (pv_step N) l pv = Ok out ->
  List.length out = List.length pv /\ (forall i b, nth_error (n_bus N) i = Some b -> b_type b <> 2%Z -> nth_error out i = nth_error pv i).
Proof.
  induction l as [|g l IH]; intros pv out E; cbn in E; [injection E as <-; auto|].
  unfold pv_step in E at 1. destruct (at_ (n_bus N) (g_pos g)) as [b|] eqn:A; [|discriminate]. cbn in E. apply at_ok in A.
  destruct (IH _ _ E) as (L & K). split.
  - rewrite L. destruct (b_type b =? 2)%Z; [apply set_nth_length|reflexivity].
  - intros i c C T. rewrite (K i c C T). destruct (Z.eqb_spec (b_type b) 2); [|reflexivity].
    apply set_nth_other. intros <-. congruence.
Qed.
Lemma pv_ok N : (forall g, In g (n_conv N) -> g_pos g < List.length (n_bus N)) -> exists pv, pv_bus N = Ok pv.
Proof.
  unfold pv_bus. generalize (repeat 0%Q (List.length (n_bus N))). induction (n_conv N) as [|g l IH]; intros pv H; cbn; [eauto|].
  unfold pv_step at 1. destruct (at_lt (n_bus N) (g_pos g)) as (b & -> & _); [apply H; now left|]. cbn. apply IH. intros; apply H; now right.
Qed.
Lemma pv_facts N pv : pv_bus N = Ok pv -> List.length pv = List.length (n_bus N) /\
  (forall i b, nth_error (n_bus N) i = Some b -> b_type b <> 2%Z -> nth_error pv i = Some 0%Q).
Proof.
  intros E. apply pv_fold in E as (L & K). rewrite repeat_length in L. split; [exact L|]. intros i b B T. rewrite (K i b B T).
  apply nth_error_repeat. apply nth_error_Some. congruence.
Qed.

(** ** buses *)
Definition set_of (pv : list Q) (x : nat * bus) : res Q :=
  if ((b_type (snd x) =? 2) || (b_type (snd x) =? 3))%Z then Ok (b_vm (snd x)) else at_ pv (fst x).
Definition bus_of (pv : list Q) (x : nat * bus) : res cbus :=
  do s <- set_of pv x; Ok (CBus (bus_name (b_number (snd x))) (kv_of (snd x)) s (b_vmin (snd x)) (b_vmax (snd x)) (b_xy (snd x))).

Lemma buses_fold pv : forall l acc out, foldM (bus_step pv) l acc = Ok out -> exists new, out = acc ++ new /\ mapM (bus_of pv) l = Ok new.
Proof.
  induction l as [|x l IH]; intros acc out E; cbn in E; [injection E as <-; exists []; now rewrite app_nil_r|].
  unfold bus_step in E at 1. cbn. unfold bus_of at 1, set_of. destruct (if _ : bool then Ok (b_vm (snd x)) else at_ pv (fst x)) as [s|]; [|discriminate]. cbn in E |- *.
  destruct (existsb _ acc); [discriminate|]. cbn in E. apply IH in E as (new & -> & ->). cbn. rewrite <- app_assoc. eexists. split; reflexivity.
Qed.
Lemma buses_ok pv : forall l acc new, mapM (bus_of pv) l = Ok new -> NoDup (map cb_name acc ++ map (fun x => bus_name (b_number (snd x))) l) ->
  foldM (bus_step pv) l acc = Ok (acc ++ new).
Proof.
  induction l as [|x l IH]; intros acc new M D; cbn in M; [injection M as <-; cbn; now rewrite app_nil_r|].
  unfold bus_of in M at 1. unfold set_of in M. cbn [foldM]. unfold bus_step at 1.
  destruct (if _ : bool then Ok (b_vm (snd x)) else at_ pv (fst x)) as [s|]; [|discriminate]. cbn in M |- *. destruct (mapM (bus_of pv) l) as [ns|] eqn:F; [|discriminate]. injection M as <-.
  assert (NI : existsb (fun c => String.eqb (cb_name c) (bus_name (b_number (snd x)))) acc = false).
  { apply not_true_is_false. intros X. apply existsb_exists in X as (c & I & Q0). apply String.eqb_eq in Q0. cbn [map] in D. apply NoDup_remove_2 in D. apply D, in_or_app. left. rewrite <- Q0. now apply in_map. }
  rewrite NI. cbn. unfold kv_of. rewrite (IH _ ns); [now rewrite <- app_assoc|reflexivity|]. rewrite map_app, <- app_assoc. exact D.
Qed.
Lemma bus_names pv l new : mapM (bus_of pv) l = Ok new -> map cb_name new = map (fun x => bus_name (b_number (snd x))) l.
Proof.
  revert new. induction l as [|x l IH]; intros new M; cbn in M; [now injection M as <-|]. unfold bus_of in M at 1. destruct (set_of pv x); [|discriminate]. cbn in M.
  destruct (mapM (bus_of pv) l); [|discriminate]. injection M as <-. cbn. f_equal. now apply IH.
Qed.

(** ** loads *)
Definition load_at (N : net) (scen n : nat) (c : cload) : Prop :=
  cl_bus c = bus_name (Z.of_nat n + 1) /\
  exists pd qd, nth_error (n_pd N) n = Some pd /\
    (0 < n_time N -> nth_error (n_qd N) n = Some qd) /\ List.length (cl_p c) = n_time N /\ List.length (cl_q c) = n_time N /\
    forall t, t < n_time N -> exists o l a, nth_error (n_bus_scen N) n = Some l /\ nth_error l scen = Some o /\ nth_error (n_demand N) (o + t) = Some a /\
      nth_error (cl_p c) t = Some (pd * a)%Q /\ nth_error (cl_q c) t = Some (qd * a)%Q.
Definition has_pd (N : net) (n : nat) : bool := match nth_error (n_pd N) n with Some pd => negb (Qeq_bool pd 0) | None => false end.

Lemma loads_fold N scen : forall l acc out, foldM (load_step N scen) l acc = Ok out -> exists new, out = acc ++ new /\
  Forall2 (load_at N scen) (filter (has_pd N) l) new /\ map cl_name new = map (fun i => load_name (List.length acc + i + 1)) (seq 0 (List.length new)).
Proof.
  induction l as [|n l IH]; intros acc out E; cbn in E; [injection E as <-; exists []; rewrite app_nil_r; repeat split; constructor|].
  unfold load_step in E at 1. destruct (at_ (n_pd N) n) as [pd|] eqn:P; [|discriminate]. apply at_ok in P. cbn in E.
  assert (HP : has_pd N n = negb (Qeq_bool pd 0)) by (unfold has_pd; now rewrite P). cbn [filter]. rewrite HP.
  destruct (Qeq_bool pd 0); cbn in E |- *; [now apply IH|].
  match type of E with context [mapM ?f ?x] => destruct (mapM f x) as [y|] eqn:Y; [|discriminate] end. cbn in E.
  apply IH in E as (new & -> & F & G). eexists. split; [rewrite <- app_assoc; reflexivity|]. cbn [app]. split.
  - constructor; [|exact F]. split; [reflexivity|]. apply mapM_nth in Y as (L & Y). rewrite seq_length in L. cbn [cl_p cl_q]. exists pd.
    exists (match nth_error (n_qd N) n with Some q => q | None => 0%Q end). rewrite !map_length. split; [exact P|].
    assert (K : forall t, t < n_time N -> exists o l0 a q, nth_error (n_bus_scen N) n = Some l0 /\ nth_error l0 scen = Some o /\ nth_error (n_demand N) (o + t) = Some a /\ nth_error (n_qd N) n = Some q /\ nth_error y t = Some ((pd * a)%Q, (q * a)%Q)).
    { intros t T. destruct (Y t t) as (b & B & C); [now rewrite (nth_error_nth' _ 0), seq_nth by now rewrite ?seq_length|].
      destruct (at_ (n_bus_scen N) n) as [l0|] eqn:A0; [|discriminate]. cbn in C. destruct (at_ l0 scen) as [o|] eqn:A1; [|discriminate]. cbn in C.
      destruct (at_ (n_demand N) (o + t)) as [a|] eqn:A2; [|discriminate]. cbn in C. destruct (at_ (n_qd N) n) as [q|] eqn:A3; [|discriminate]. cbn in C.
      injection C as <-. apply at_ok in A0, A1, A2, A3. exists o, l0, a, q. auto. }
    split; [|split; [exact L|split; [exact L|]]].
    + intros T. destruct (K 0 T) as (o & l0 & a & q & _ & _ & _ & -> & _). reflexivity.
    + intros t T. destruct (K t T) as (o & l0 & a & q & A0 & A1 & A2 & A3 & A4). exists o, l0, a. rewrite A3. rewrite !nth_error_map, A4. auto.
  - cbn [app map List.length seq cl_name]. rewrite Nat.add_0_r. f_equal. rewrite G, app_length. cbn [List.length]. rewrite <- seq_shift, map_map. apply map_ext. intros i. f_equal. lia.
Qed.
Lemma loads_ok N scen : List.length (n_pd N) = List.length (n_bus N) -> List.length (n_qd N) = List.length (n_bus N) ->
  (forall n, n < List.length (n_bus N) -> exists o, profile (n_bus_scen N) (n_demand N) n scen (n_time N) o) -> exists ls, loads N scen = Ok ls.
Proof.
  intros LP LQ PR. unfold loads. assert (K : forall n, In n (seq 0 (List.length (n_bus N))) -> n < List.length (n_bus N)) by (intros n I; apply in_seq in I; lia).
  revert K. generalize (seq 0 (List.length (n_bus N))) as l. intros l. generalize (@nil cload) as acc. induction l as [|n l IH]; intros acc K; cbn; [eauto|].
  specialize (K n (or_introl eq_refl)) as Kn. unfold load_step at 1. destruct (at_lt (n_pd N) n) as (pd & -> & _); [lia|]. cbn. destruct (Qeq_bool pd 0); cbn; [apply IH; intros; apply K; now right|].
  destruct (PR n Kn) as (o & l0 & A & B & C). destruct (at_lt (n_qd N) n) as (qd & EQ & _); [lia|].
  match goal with |- context [mapM ?f ?x] => destruct (mapM_total f x) as (y & ->) end.
  { intros t T. apply in_seq in T. rewrite (at_some _ _ _ A). cbn. rewrite (at_some _ _ _ B). cbn. destruct (at_lt (n_demand N) (o + t)) as (a & -> & _); [lia|]. cbn. rewrite EQ. cbn. eauto. }
  cbn. apply IH. intros; apply K; now right.
Qed.

(** ** lines *)
Definition line_of (N : net) (bs : list cbus) (x : nat * branch) : res cline :=
  do v <- v_nom (bus_name (r_from (snd x))) bs;
  Ok (CLine (line_name (fst x + 1)) (bus_name (r_from (snd x))) (bus_name (r_to (snd x))) (r_x (snd x) * (v * v / n_base N))%Q (r_r (snd x) * (v * v / n_base N))%Q (r_rate (snd x) * n_base N)%Q).
Definition no_tap (x : nat * branch) : bool := Qeq_bool (r_tap (snd x)) 0.

Lemma lines_eq N bs : lines N bs = mapM (line_of N bs) (filter no_tap (numbered (n_branch N))).
Proof.
  unfold lines. generalize (numbered (n_branch N)) as l. assert (K : forall l acc, foldM (line_step N bs) l acc = do r <- mapM (line_of N bs) (filter no_tap l); Ok (acc ++ r)).
  { induction l as [|x l IH]; intros acc; cbn; [now rewrite app_nil_r|]. unfold line_step at 1, no_tap at 1. destruct (Qeq_bool (r_tap (snd x)) 0); cbn; [|apply IH].
    unfold line_of at 1. destruct (v_nom _ bs); cbn; [|reflexivity]. rewrite IH. destruct (mapM (line_of N bs) (filter no_tap l)); cbn; [|reflexivity]. now rewrite <- app_assoc. }
  intros l. rewrite K. destruct (mapM _ _); reflexivity.
Qed.
Lemma v_nom_missing name l : ~ In name (map cb_name l) -> v_nom name l = Err KeyError.
Proof.
  induction l as [|b l IH]; intros NI; cbn in *; [reflexivity|]. destruct (String.eqb_spec (cb_name b) name); [tauto|]. apply IH. tauto.
Qed.
Lemma v_nom_in l b : NoDup (map cb_name l) -> In b l -> v_nom (cb_name b) l = Ok (cb_nom b).
Proof.
  induction l as [|c l IH]; intros D I; [destruct I|]. inversion D as [|? ? NI D']; subst. cbn. destruct I as [->|I]; [now rewrite String.eqb_refl|].
  destruct (String.eqb_spec (cb_name c) (cb_name b)) as [E|_]; [|now apply IH]. exfalso. apply NI. rewrite E. now apply in_map.
Qed.

(** ** the whole conversion *)
Lemma convert_inv N scen C : convert N scen = Ok C -> exists pv bs gc gr ls li, pv_bus N = Ok pv /\ buses N pv = Ok bs /\ mapM (conv_gen N) (numbered (n_conv N)) = Ok gc /\
  mapM (res_gen N scen) (numbered (n_res N)) = Ok gr /\ loads N scen = Ok ls /\ lines N bs = Ok li /\ C = CNet (n_time N) bs (gc ++ gr) ls li (trs N).
Proof.
  unfold convert. intros E. destruct (pv_bus N) as [pv|] eqn:E_pv; [|discriminate]. cbn in E. destruct (buses N pv) as [bs|] eqn:E_bs; [|discriminate]. cbn in E.
  destruct (mapM (conv_gen N) (numbered (n_conv N))) as [gc|] eqn:E_gc; [|discriminate]. cbn in E. destruct (mapM (res_gen N scen) (numbered (n_res N))) as [gr|] eqn:E_gr; [|discriminate]. cbn in E.
  destruct (loads N scen) as [ls|] eqn:E_ls; [|discriminate]. cbn in E. destruct (lines N bs) as [li|] eqn:L; [|discriminate]. injection E as <-. exists pv, bs, gc, gr, ls, li. repeat split; auto.
Qed.

Lemma before_lines N scen : NoDup (map b_number (n_bus N)) ->
  (forall g, In g (n_conv N) -> g_pos g < List.length (n_bus N)) ->
  (forall g, In g (n_conv N ++ n_res N) -> g_cost g <> []) ->
  List.length (n_pd N) = List.length (n_bus N) -> List.length (n_qd N) = List.length (n_bus N) ->
  (forall n, n < List.length (n_bus N) -> exists o, profile (n_bus_scen N) (n_demand N) n scen (n_time N) o) ->
  (forall n, n < List.length (n_res N) -> exists o, profile (n_res_scen N) (n_wind N) n scen (n_time N) o) ->
  exists pv bs gc gr ls, pv_bus N = Ok pv /\ buses N pv = Ok bs /\ mapM (conv_gen N) (numbered (n_conv N)) = Ok gc /\
  mapM (res_gen N scen) (numbered (n_res N)) = Ok gr /\ loads N scen = Ok ls.
Proof.
  intros D P K LP LQ PB PR. destruct (pv_ok N P) as (pv & EP). destruct (pv_facts _ _ EP) as (L & _). exists pv.
  assert (EB : exists bs, mapM (bus_of pv) (numbered (n_bus N)) = Ok bs).
  { apply mapM_total. intros x I. apply numbered_in in I. unfold bus_of, set_of. destruct ((_ || _)%Z); cbn; [eauto|].
    destruct (at_lt pv (fst x)) as (q & -> & _); [rewrite L; apply nth_error_Some; congruence|]. cbn. eauto. }
  destruct EB as (bs & EB). exists bs.
  assert (EC : exists gc, mapM (conv_gen N) (numbered (n_conv N)) = Ok gc).
  { apply mapM_total. intros x I. apply numbered_in, nth_error_In in I. unfold conv_gen. destruct (at_lt (n_bus N) (g_pos (snd x))) as (b & -> & _); [now apply P|]. cbn.
    specialize (K (snd x)). destruct (g_cost (snd x)); [now destruct K; [apply in_or_app; auto|]|]. cbn. eauto. }
  destruct EC as (gc & EC). exists gc.
  assert (ER : exists gr, mapM (res_gen N scen) (numbered (n_res N)) = Ok gr).
  { apply mapM_total. intros x I. apply numbered_in in I. unfold res_gen. destruct (PR (fst x)) as (o & l & A & B & C); [apply nth_error_Some; congruence|].
    match goal with |- context [mapM ?f ?x] => destruct (mapM_total f x) as (y & ->) end.
    { intros t T. apply in_seq in T. rewrite (at_some _ _ _ A). cbn. rewrite (at_some _ _ _ B). cbn. destruct (at_lt (n_wind N) (o + t)) as (a & -> & _); [lia|]. eauto. }
    cbn. apply nth_error_In in I. specialize (K (snd x)). destruct (g_cost (snd x)); [now destruct K; [apply in_or_app; auto|]|]. cbn. eauto. }
  destruct ER as (gr & ER). exists gr. destruct (loads_ok N scen LP LQ PB) as (ls & EL). exists ls. repeat split; auto.
  unfold buses. rewrite (buses_ok pv _ [] bs EB); [reflexivity|]. cbn. rewrite <- (map_map snd (fun b => bus_name (b_number b))), numbered_snd, <- (map_map b_number bus_name).
  clear - D. induction D as [|z l NI D IH]; cbn; constructor; [|exact IH]. intros I. apply in_map_iff in I as (y & E & I). apply bus_name_inj in E. now subst.
Qed.

(** ** names *)
Lemma buses_names N pv bs : buses N pv = Ok bs -> map cb_name bs = map (fun b => bus_name (b_number b)) (n_bus N).
Proof.
  intros E. apply buses_fold in E as (new & -> & M). cbn. rewrite (bus_names _ _ _ M), <- (map_map snd (fun b => bus_name (b_number b))), numbered_snd. reflexivity.
Qed.
Lemma mapM_names {A} (f : nat * A -> res cgen) (k : nat -> nat) (l : list A) r : (forall x c, f x = Ok c -> cg_name c = gen_name (k (fst x))) ->
  mapM f (numbered l) = Ok r -> map cg_name r = map (fun i => gen_name (k i)) (seq 0 (List.length l)).
Proof.
  intros H. rewrite <- numbered_fst, map_map. generalize (numbered l) as m. intros m. revert r. induction m as [|x m IH]; intros r E; cbn in E; [now injection E as <-|].
  destruct (f x) as [c|] eqn:F; [|discriminate]. cbn in E. destruct (mapM f m) as [cs|]; [|discriminate]. injection E as <-. cbn. f_equal; [now apply H|now apply IH].
Qed.
Lemma gens_names N scen C : convert N scen = Ok C -> map cg_name (c_gen C) =
  map (fun i => gen_name (i + 1)) (seq 0 (List.length (n_conv N))) ++ map (fun i => gen_name (List.length (n_conv N) + i + 2)) (seq 0 (List.length (n_res N))).
Proof.
  intros E. apply convert_inv in E as (pv & bs & gc & gr & ls & li & _ & _ & EC & ER & _ & _ & ->). cbn [c_gen]. rewrite map_app. f_equal.
  - apply (mapM_names (conv_gen N) (fun i => i + 1)); [|exact EC]. intros x c F. unfold conv_gen in F. cbv zeta in F. destruct (at_ (n_bus N) _); [|discriminate]. cbv beta iota delta [rbind] in F. destruct (at_ (g_cost (snd x)) 0); [|discriminate]. cbv beta iota delta [rbind] in F. injection F as <-. reflexivity.
  - apply (mapM_names (res_gen N scen) (fun i => List.length (n_conv N) + i + 2)); [|exact ER]. intros x c F. unfold res_gen in F. cbv zeta in F. match type of F with context [mapM ?f ?l] => destruct (mapM f l); [|discriminate] end. cbv beta iota delta [rbind] in F. destruct (at_ (g_cost (snd x)) 0); [|discriminate]. cbv beta iota delta [rbind] in F. injection F as <-.
    cbn. f_equal. lia.
Qed.
Lemma lines_names N bs li : lines N bs = Ok li -> map ci_name li = map (fun x => line_name (fst x + 1)) (filter no_tap (numbered (n_branch N))).
Proof.
  rewrite lines_eq. generalize (filter no_tap (numbered (n_branch N))) as l. intros l. revert li. induction l as [|x l IH]; intros li E; cbn in E; [now injection E as <-|].
  unfold line_of in E at 1. destruct (v_nom _ bs); [|discriminate]. cbn in E. destruct (mapM (line_of N bs) l); [|discriminate]. injection E as <-. cbn. f_equal. now apply IH.
Qed.
