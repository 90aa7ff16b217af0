(** The columns and rows of the optimal power flow, against the rules of a plan. *)
From Coq Require Import List String Bool Arith ZArith QArith Lia Lqa.
From Verif Require Import Base Cases GraphData GraphDataProofs HydroTables Glpk GlpkSpec GlpkProofs GlpkEnergy GlpkRows GlpkParts GlpkNetwork GlpkNetworkSpec GlpkNetworkParts GlpkNetworkPlaces GlpkNetworkRows GlpkNetworkSystem.
Import ListNotations.
Open Scope nat_scope.
Open Scope list_scope.
Local Ltac sp := repeat match goal with |- _ /\ _ => split end.

(** ** Values of a plan *)

Record agrees (s : place -> Q) (p : plan) : Prop := {
  ag_gen : forall k i j n, s (gen_name k i j, n) = p_gen p k i j n; ag_cost : forall k i j n, s (cost_name k i j, n) = p_cost p k i j n;
  ag_store : forall i j n, s (store_name i j, n) = p_store p i j n; ag_pump : forall i j n, s (pump_name i j, n) = p_pump p i j n;
  ag_flow : forall i j k n, s (flow_name i j k, n) = p_flow p i j k n; ag_loss : forall i j k n, s (loss_name i j k, n) = p_loss p i j k n;
  ag_lc : forall i j k n, s (lc_name i j k, n) = p_lc p i j k n; ag_gc : forall i j k n, s (gc_name i j k, n) = p_gc p i j k n;
  ag_angle : forall i j k n, s (angle_name i j k, n) = p_angle p i j k n }.
Definition plan_of (s : place -> Q) : plan :=
  mkPlan (fun k i j n => s (gen_name k i j, n)) (fun k i j n => s (cost_name k i j, n)) (fun i j n => s (store_name i j, n)) (fun i j n => s (pump_name i j, n))
    (fun i j k n => s (flow_name i j k, n)) (fun i j k n => s (loss_name i j k, n)) (fun i j k n => s (lc_name i j k, n)) (fun i j k n => s (gc_name i j k, n)) (fun i j k n => s (angle_name i j k, n)).
Lemma agrees_plan s : agrees s (plan_of s).
Proof. constructor; reflexivity. Qed.
Definition value_of (p : plan) (q : place) : Q :=
  let '(t, ix, n) := q in
  match ix with
  | [i; j] =>
      if string_dec t "ThermalGen" then p_gen p Thermal i j n else if string_dec t "RESGen" then p_gen p Renewable i j n else if string_dec t "HydroGen" then p_gen p Hydro i j n
      else if string_dec t "ThermalCG" then p_cost p Thermal i j n else if string_dec t "RESCG" then p_cost p Renewable i j n else if string_dec t "HydroCG" then p_cost p Hydro i j n
      else if string_dec t "ESS" then p_store p i j n else if string_dec t "Pumps" then p_pump p i j n else 0%Q
  | [i; j; k] =>
      if string_dec t "ActivePowerFlow" then p_flow p i j k n else if string_dec t "ActivePowerLosses" then p_loss p i j k n
      else if string_dec t "LoadCurtailmentNode" then p_lc p i j k n else if string_dec t "GenerationCurtailmentNode" then p_gc p i j k n else if string_dec t "VoltageAngle" then p_angle p i j k n else 0%Q
  | _ => 0%Q
  end.
Lemma agrees_value p : agrees (value_of p) p.
Proof. constructor; try reflexivity; intros []; reflexivity. Qed.

(** ** Sums *)

Lemma total_ext {A} (l : list A) f g : (forall n a, nth_error l n = Some a -> (f n a == g n a)%Q) -> (total l f == total l g)%Q.
Proof. intros H. apply qsum_ext. intros (n & a) I. apply in_enum in I. now apply H. Qed.
Lemma total_flat {A} s (f : nat * A -> list (place * Q)) (l : list A) : (term_sum s (flat_map f (enum l)) == total l (fun n a => term_sum s (f (n, a))))%Q.
Proof. rewrite term_sum_flat. apply qsum_ext. intros (n & a) _. reflexivity. Qed.
Lemma total_map {A} s (f : nat * A -> place * Q) (l : list A) : (term_sum s (map f (enum l)) == total l (fun n a => snd (f (n, a)) * s (fst (f (n, a)))))%Q.
Proof. rewrite term_sum_map. apply qsum_ext. intros (n & a) _. reflexivity. Qed.
Lemma qsum_plus {A} (f g : A -> Q) l : (qsum (map (fun a => f a + g a) l) == qsum (map f l) + qsum (map g l))%Q.
Proof. induction l as [|a l IH]; [reflexivity|]. cbn [map]. change (qsum (?a :: ?b)) with (a + qsum b)%Q. rewrite IH. ring. Qed.
Lemma qsum_times {A} q (f : A -> Q) l : (qsum (map (fun a => q * f a) l) == q * qsum (map f l))%Q.
Proof. induction l as [|a l IH]; [cbn; ring|]. cbn [map]. change (qsum (?a :: ?b)) with (a + qsum b)%Q. rewrite IH. ring. Qed.
Lemma total_times {A} (l : list A) q f : (total l (fun n a => q * f n a) == q * total l f)%Q.
Proof. unfold total. now rewrite <- qsum_times. Qed.
Lemma total_plus {A} (l : list A) f g : (total l (fun n a => f n a + g n a) == total l f + total l g)%Q.
Proof. unfold total. now rewrite <- qsum_plus. Qed.
Lemma total_zero {A} (l : list A) f : (forall n a, nth_error l n = Some a -> (f n a == 0)%Q) -> (total l f == 0)%Q.
Proof. intros H. apply qsum_zero. intros (n & a) I. apply in_enum in I. now apply H. Qed.
Lemma total_list {A} (l : list A) g : (total l (fun _ a => g a) == qsum (map g l))%Q.
Proof. unfold total. rewrite <- (enum_snd l) at 2. rewrite map_map. reflexivity. Qed.
Lemma total_opp {A} (l : list A) f : (- total l f == total l (fun n a => - f n a))%Q.
Proof. transitivity (- (1) * total l f)%Q; [ring|]. rewrite <- total_times. apply total_ext. intros. ring. Qed.
Lemma term_one s q a : (term_sum s [(q, a)] == a * s q)%Q.
Proof. unfold term_sum. cbn [map fst snd]. change (qsum (?a :: ?b)) with (a + qsum b)%Q. change (qsum []) with 0%Q. ring. Qed.
Lemma term_cons s t l : (term_sum s (t :: l) == snd t * s (fst t) + term_sum s l)%Q.
Proof. unfold term_sum. cbn [map]. change (qsum (?a :: ?b)) with (a + qsum b)%Q. reflexivity. Qed.
Lemma term_nil s : (term_sum s [] == 0)%Q.
Proof. reflexivity. Qed.

(** ** Rows *)

Section Rows.
Variables (m : nm) (s : place -> Q) (p : plan).
Hypothesis (U : usable m) (AG : agrees s p).

Lemma piece_row k i j o l c : within (rs_bnd (piece_spec m k i j o l c)) (term_sum s (rs_terms (piece_spec m k i j o l c))) <-> (nm_hours m j * (fst c * p_gen p k i j o + snd c) <= p_cost p k i j o)%Q.
Proof.
  unfold piece_spec, rs_bnd, rs_terms. cbn [fst snd within]. rewrite !term_cons, term_nil. cbn [fst snd]. rewrite (ag_gen s p AG), (ag_cost s p AG). split; intros H; lra.
Qed.
Lemma line_row_iff i j k c n l : within (rs_bnd (line_spec i j k c n l)) (term_sum s (rs_terms (line_spec i j k c n l))) <-> (p_flow p i j k n == (p_angle p i j k (ln_pf l) - p_angle p i j k (ln_pt l)) / ln_x l)%Q.
Proof.
  unfold line_spec, rs_bnd, rs_terms. cbn [fst snd within]. rewrite !term_cons, term_nil. cbn [fst snd]. rewrite (ag_flow s p AG), !(ag_angle s p AG). unfold Qdiv. split; intros H; lra.
Qed.
Lemma loss_row_iff f sign i j k o q l ab : within (rs_bnd (loss_spec f sign i j k o q l ab)) (term_sum s (rs_terms (loss_spec f sign i j k o q l ab))) <-> (ln_r l * (fst ab - sign * snd ab * p_flow p i j k o) <= p_loss p i j k o)%Q.
Proof.
  unfold loss_spec, rs_bnd, rs_terms. cbn [fst snd within]. rewrite !term_cons, term_nil. cbn [fst snd]. rewrite (ag_flow s p AG), (ag_loss s p AG). split; intros H; lra.
Qed.

Lemma gen_sum i j b : (term_sum s (gen_terms m i j b) == at_bus m p i j b)%Q.
Proof.
  unfold gen_terms, at_bus. rewrite term_sum_flat. apply qsum_ext. intros k _. rewrite total_flat. apply total_ext. intros n u _. cbn [fst snd]. destruct (un_bus u =? bs_no b); [|reflexivity]. rewrite term_one, (ag_gen s p AG). ring.
Qed.
Lemma store_sum i j : j < nm_times m -> (term_sum s (if stored m j then store_terms m i j ++ prev_terms m i j else []) == stored_power m p i j)%Q.
Proof.
  intros J. unfold stored_power. destruct (stored m j) eqn:ST.
  - destruct (stored_cases m j U J ST) as (J0 & L1 & _). destruct (Nat.eqb_spec j 0); [lia|]. unfold store_terms, prev_terms. destruct (nm_stores m) as [|e [|]]; try discriminate L1. cbn [enum combine seq List.length map List.app fst snd nth]. unfold total. cbn [enum combine seq List.length map List.app fst snd]. rewrite !term_cons, term_nil. cbn [fst snd]. rewrite !(ag_store s p AG). change (qsum (?a :: ?b)) with (a + qsum b)%Q. change (qsum []) with 0%Q. unfold Qdiv. ring.
  - rewrite term_nil. destruct (Nat.eqb_spec j 0); [reflexivity|]. unfold stored in ST. apply andb_false_iff in ST as [ST|ST].
    + apply Nat.ltb_ge in ST. destruct (nm_stores m); [reflexivity|cbn in ST; lia].
    + apply Nat.ltb_ge in ST. lia.
Qed.
Lemma pump_sum i j : (forall n c, nth_error (nm_pumps m) n = Some c -> (0 <= p_pump p i j n <= fst c)%Q) -> (term_sum s (pump_terms m i j) == - pumped m p i j)%Q.
Proof.
  intros H. unfold pump_terms, pumped. rewrite total_flat. rewrite total_opp. apply total_ext. intros n c E. cbn [fst snd]. specialize (H n c E). destruct (Qle_bool (fst c) 0) eqn:Z.
  - apply Qle_bool_iff in Z. rewrite term_nil. lra.
  - rewrite term_one, (ag_pump s p AG). ring.
Qed.
Lemma flow_sum i j k b : (term_sum s (flow_terms m i j k b) == from_lines m p i j k b)%Q.
Proof.
  unfold flow_terms, from_lines. rewrite total_flat. apply total_ext. intros n l _. cbn [fst snd]. rewrite term_sum_app. pose proof (ag_flow s p AG i j k n) as F. unfold place in *. destruct (ln_from l =? bs_no b), (ln_to l =? bs_no b); unfold term_sum; cbn [map fst snd]; rewrite ?F; change (qsum []) with 0%Q; change (qsum (?a :: ?b)) with (a + qsum b)%Q; change (qsum []) with 0%Q; ring.
Qed.
Lemma curtail_sum i j k n : (term_sum s (curtail_terms m i j k n) == curtailed m p i j k n)%Q.
Proof.
  unfold curtail_terms, curtailed. destruct (nm_feas m); [|reflexivity]. rewrite !term_cons, term_nil. cbn [fst snd]. rewrite (ag_lc s p AG), (ag_gc s p AG). ring.
Qed.
Lemma loss_sum i j k n b : (term_sum s (loss_terms m i j k b) - resource m i j n b == - lost m p i j k b - demand m i j n b)%Q.
Proof.
  unfold loss_terms, resource, lost, demand. destruct (nm_losses m) as [c|].
  - rewrite total_flat. setoid_replace (total (nm_lines m) (fun n0 a => term_sum s ((fun l : nat * line => if (ln_from (snd l) =? bs_no b) || (ln_to (snd l) =? bs_no b) then [((loss_name i j k, fst l), (- (1 # 2))%Q)] else []) (n0, a))))%Q
      with (- total (nm_lines m) (fun n0 l => (1 # 2) * ((if ln_from l =? bs_no b then 1 else 0) + (if ln_to l =? bs_no b then 1 else 0)) * p_loss p i j k n0))%Q.
    + destruct (nm_perc m); ring.
    + rewrite total_opp. apply total_ext. intros o l E. cbn [fst snd]. destruct (us_ends m U l (nth_error_In _ _ E)) as (_ & _ & _ & D). destruct (Nat.eqb_spec (ln_from l) (bs_no b)), (Nat.eqb_spec (ln_to l) (bs_no b)); try congruence; cbn [orb]; [rewrite term_one, (ag_loss s p AG); ring|rewrite term_one, (ag_loss s p AG); ring|rewrite term_nil; ring].
  - rewrite term_nil. rewrite (total_list (nm_lines m) (fun l => (1 # 2) * ((if ln_from l =? bs_no b then 1 else 0) + (if ln_to l =? bs_no b then 1 else 0)) * ln_loss l)%Q).
    rewrite (qsum_ext (fun l => (1 # 2) * ((if ln_from l =? bs_no b then 1 else 0) + (if ln_to l =? bs_no b then 1 else 0)) * ln_loss l)%Q (fun l => (if ln_from l =? bs_no b then (1 # 2) * ln_loss l else 0) + (if ln_to l =? bs_no b then (1 # 2) * ln_loss l else 0))%Q) by (intros l _; destruct (ln_from l =? bs_no b), (ln_to l =? bs_no b); ring).
    destruct (nm_perc m); ring.
Qed.
Lemma node_row_iff i j k n b : j < nm_times m -> (forall o c, nth_error (nm_pumps m) o = Some c -> (0 <= p_pump p i j o <= fst c)%Q) ->
  within (rs_bnd (node_spec m i j k n b)) (term_sum s (rs_terms (node_spec m i j k n b))) <->
  (at_bus m p i j b + stored_power m p i j + from_lines m p i j k b + curtailed m p i j k n == demand m i j n b + pumped m p i j + lost m p i j k b)%Q.
Proof.
  intros J H. unfold node_spec, rs_bnd, rs_terms. cbn [fst snd within]. unfold bus_terms. rewrite !term_sum_app, gen_sum, (store_sum i j J), (pump_sum i j H), flow_sum, curtail_sum. pose proof (loss_sum i j k n b) as L. split; intros E; lra.
Qed.

(** ** Columns *)

Lemma within_between l u q : within (between l u) q <-> (l <= q <= u)%Q.
Proof. unfold between. destruct (Qeq_bool l u) eqn:E; cbn [within]; [|reflexivity]. apply Qeq_bool_iff in E. split; intros; lra. Qed.
Lemma unit_iff k i j n u q : within (unit_bound m k i j n u) q <-> unit_rule m k i j n u q.
Proof. unfold unit_bound, unit_rule. destruct k; [destruct (active m u)| |]; try apply within_between. reflexivity. Qed.
Lemma pump_iff c q : within (pump_bound c) q <-> (0 <= q <= fst c)%Q.
Proof. unfold pump_bound. destruct (Qeq_bool (fst c) 0) eqn:E; cbn [within]; [|reflexivity]. apply Qeq_bool_iff in E. split; intros; lra. Qed.
Lemma has_unit_false b : has_unit m b = false <-> forall g u, In u (nm_units m g) -> un_bus u <> bs_no b.
Proof.
  unfold has_unit. split.
  - intros H g u I X. enough (existsb (fun k => existsb (fun u => un_bus u =? bs_no b) (nm_units m k)) kinds = true) by congruence. apply existsb_exists. exists g. split; [apply in_kinds|]. apply existsb_exists. exists u. split; [exact I|now apply Nat.eqb_eq].
  - intros H. destruct (existsb _ kinds) eqn:E; [|reflexivity]. apply existsb_exists in E as (g & _ & E). apply existsb_exists in E as (u & I & E). apply Nat.eqb_eq in E. now destruct (H g u I).
Qed.
Lemma bounded_in q b : bounded m q b -> In q (map fst (vbnds m)).
Proof. intros H. apply in_vbnds in H. now apply in_map with (f := fst) in H. Qed.
Lemma cost_free k i j n : ~ In (cost_name k i j, n) (map fst (vbnds m)).
Proof. intros I. apply in_map_fst in I as (b & I). apply in_vbnds in I. inversion I; subst; destruct k; try discriminate; match goal with H : _ |- _ => destruct k0; discriminate H end. Qed.
Lemma store_free i j n : ~ In (store_name i j, n) (map fst (vbnds m)).
Proof. intros I. apply in_map_fst in I as (b & I). apply in_vbnds in I. inversion I; subst; try discriminate; match goal with H : _ |- _ => destruct k; discriminate H end. Qed.
Lemma loss_free i j k n l : nth_error (nm_lines m) n = Some l -> ln_on l k = true -> ~ In (loss_name i j k, n) (map fst (vbnds m)).
Proof. intros E O I. apply in_map_fst in I as (b & I). apply in_vbnds in I. inversion I; subst; try discriminate; congruence. Qed.

Theorem conds_rules : conds (vcols m) (vbnds m) (vspecs m) s <-> opf_rules m p.
Proof.
  split.
  - intros (B & Z & R) i j I J. assert (P : period m i j) by (split; assumption). assert (BD : forall q b, bounded m q b -> within b (s q)) by (intros q b H; apply B; now apply in_vbnds).
    assert (ZE : forall q, column m q -> ~ In q (map fst (vbnds m)) -> (0 <= s q)%Q) by (intros q H N; apply Z; [now apply column_inside|exact N]).
    assert (RW : forall r, rowed m r -> within (rs_bnd r) (term_sum s (rs_terms r))) by (intros r H; apply R; now apply in_vspecs).
    assert (PU : forall n c, nth_error (nm_pumps m) n = Some c -> (0 <= p_pump p i j n <= fst c)%Q).
    { intros n c E. rewrite <- (ag_pump s p AG). apply pump_iff. apply BD. now constructor. }
    split.
    + constructor.
      * intros k n u E. rewrite <- (ag_gen s p AG). apply unit_iff. apply BD. now constructor.
      * intros k n u E. split; [rewrite <- (ag_cost s p AG); apply ZE; [now apply (col_cost m k i j n u)|apply cost_free]|].
        intros a b X. apply In_nth_error in X as (l & X). apply (piece_row k i j n l (a, b)). apply RW. now apply (rw_piece m k i j n u l).
      * exact PU.
      * intros n c E. rewrite <- (ag_store s p AG). apply ZE; [now apply (col_store m i j n c)|apply store_free].
    + intros k K. assert (P' : instance m i j k) by (unfold instance; auto). constructor.
      * intros n l E O. split.
        -- pose proof (BD _ _ (bd_flow m i j k n l P' E)) as H. unfold flow_bound in H. rewrite O in H. cbn [andb within] in H. now rewrite (ag_flow s p AG) in H.
        -- intros N. pose proof (BD _ _ (bd_loss m i j k n l N P' E O)) as H. cbn [within] in H. now rewrite (ag_loss s p AG) in H.
      * intros n l E O. split.
        -- pose proof (BD _ _ (bd_flow m i j k n l P' E)) as H. unfold flow_bound in H. rewrite O in H. rewrite (ag_flow s p AG) in H. destruct (Qle_bool (ln_rate l) 0); exact H.
        -- assert (X : In (n, l) (lines_on m k)) by (now apply in_lines_on). apply In_nth_error in X as (c & X). apply (line_row_iff i j k c n l). apply RW. now constructor.
      * intros c n l N E O. split; [rewrite <- (ag_loss s p AG); apply ZE; [apply (col_loss m i j k n l); auto; congruence|now apply (loss_free i j k n l)]|].
        intros a b X. apply In_nth_error in X as (q & X). split.
        -- pose proof (RW _ (rw_loss1 m c i j k n l q (a, b) N P' E O X)) as H. apply loss_row_iff in H. cbn [fst snd] in H. lra.
        -- pose proof (RW _ (rw_loss2 m c i j k n l q (a, b) N P' E O X)) as H. apply loss_row_iff in H. cbn [fst snd] in H. lra.
      * intros N n b E. split; [|].
        -- pose proof (BD _ _ (bd_lc m i j k n b N P' E)) as H. unfold lc_bound in H. rewrite (ag_lc s p AG) in H. destruct (Qle_bool (bs_demand b) 0); exact H.
        -- pose proof (BD _ _ (bd_gc m i j k n b N P' E)) as H. rewrite (ag_gc s p AG) in H. pose proof (has_unit_false b) as X. destruct (has_unit m b); cbn [within] in H; (split; [lra|]); [|intros _; exact H]. intros Y. apply X in Y. discriminate Y.
      * intros n b E T. pose proof (BD _ _ (bd_angle m i j k n b P' E)) as H. rewrite T in H. cbn in H. now rewrite (ag_angle s p AG) in H.
      * intros n b E T. apply (node_row_iff i j k n b J PU). apply RW. now constructor.
  - intros H. unfold conds. sp.
    + intros q b I. apply in_vbnds in I. destruct I as [k i j n u P E|i j n u P E|i j k n u (P1 & P2 & K) E|i j k n u N (P1 & P2 & K) E O|i j k n u N (P1 & P2 & K) E|i j k n u N (P1 & P2 & K) E|i j k n u (P1 & P2 & K) E].
      * rewrite (ag_gen s p AG). apply unit_iff. exact (pr_unit m p i j (proj1 (H i j (proj1 P) (proj2 P))) k n u E).
      * rewrite (ag_pump s p AG). apply pump_iff. exact (pr_pump m p i j (proj1 (H i j (proj1 P) (proj2 P))) n u E).
      * rewrite (ag_flow s p AG). destruct (H i j P1 P2) as (_ & C). specialize (C k K). unfold flow_bound. destruct (ln_on u k) eqn:O; cbn [andb].
        -- pose proof (proj1 (cr_on m p i j k C n u E O)) as X. destruct (Qle_bool (ln_rate u) 0); exact X.
        -- exact (proj1 (cr_off m p i j k C n u E O)).
      * rewrite (ag_loss s p AG). destruct (H i j P1 P2) as (_ & C). exact (proj2 (cr_off m p i j k (C k K) n u E O) N).
      * rewrite (ag_lc s p AG). destruct (H i j P1 P2) as (_ & C). pose proof (proj1 (cr_curtail m p i j k (C k K) N n u E)) as X. unfold lc_bound. destruct (Qle_bool (bs_demand u) 0); exact X.
      * rewrite (ag_gc s p AG). destruct (H i j P1 P2) as (_ & C). destruct (proj2 (cr_curtail m p i j k (C k K) N n u E)) as (X & Y). destruct (has_unit m u) eqn:HU; [exact X|]. apply Y. now apply has_unit_false.
      * rewrite (ag_angle s p AG). destruct (H i j P1 P2) as (_ & C). destruct (Nat.eqb_spec (bs_type u) 3); [|exact I]. exact (cr_angle m p i j k (C k K) n u E e).
    + intros q I N. apply inside_column in I. destruct I as [k i j n u P E|k i j n u P E|i j n u P E|i j n u P E|i j k n u P E|i j k n u L P E|i j k n u L P E|i j k n u L P E|i j k n u P E].
      * exfalso. apply N. eapply bounded_in. now apply (bd_gen m k i j n u).
      * rewrite (ag_cost s p AG). exact (proj1 (pr_cost m p i j (proj1 (H i j (proj1 P) (proj2 P))) k n u E)).
      * rewrite (ag_store s p AG). exact (pr_store m p i j (proj1 (H i j (proj1 P) (proj2 P))) n u E).
      * exfalso. apply N. eapply bounded_in. now apply (bd_pump m i j n u).
      * exfalso. apply N. eapply bounded_in. now apply (bd_flow m i j k n u).
      * destruct (ln_on u k) eqn:O; [|exfalso; apply N; eapply bounded_in; now apply (bd_loss m i j k n u)]. rewrite (ag_loss s p AG). destruct P as (P1 & P2 & K). destruct (H i j P1 P2) as (_ & C). destruct (nm_losses m) as [c|] eqn:NL; [|congruence]. exact (proj1 (cr_loss m p i j k (C k K) c n u NL E O)).
      * exfalso. apply N. eapply bounded_in. now apply (bd_lc m i j k n u).
      * exfalso. apply N. eapply bounded_in. now apply (bd_gc m i j k n u).
      * exfalso. apply N. eapply bounded_in. now apply (bd_angle m i j k n u).
    + intros r I. apply in_vspecs in I. destruct I as [k i j o u l c P E E'|i j k n b (P1 & P2 & K) E T|i j k c n l (P1 & P2 & K) E|c i j k o l q ab N (P1 & P2 & K) E O E'|c i j k o l q ab N (P1 & P2 & K) E O E'].
      * apply piece_row. destruct c as [a b]. exact (proj2 (pr_cost m p i j (proj1 (H i j (proj1 P) (proj2 P))) k o u E) a b (nth_error_In _ _ E')).
      * destruct (H i j P1 P2) as (A & C). apply node_row_iff; [exact P2|exact (pr_pump m p i j A)|]. exact (cr_balance m p i j k (C k K) n b E T).
      * destruct (H i j P1 P2) as (_ & C). apply line_row_iff. apply nth_error_In, in_lines_on in E as (E & O). exact (proj2 (cr_on m p i j k (C k K) n l E O)).
      * destruct (H i j P1 P2) as (_ & C). apply loss_row_iff. destruct ab as [a b]. cbn [fst snd]. destruct (proj2 (cr_loss m p i j k (C k K) c o l N E O) a b (nth_error_In _ _ E')) as (X & Y). lra.
      * destruct (H i j P1 P2) as (_ & C). apply loss_row_iff. destruct ab as [a b]. cbn [fst snd]. destruct (proj2 (cr_loss m p i j k (C k K) c o l N E O) a b (nth_error_In _ _ E')) as (X & Y). lra.
Qed.

(** ** Objective *)

Lemma qsum_flat {A} (f : A -> list Q) l : (qsum (flat_map f l) == qsum (map (fun a => qsum (f a)) l))%Q.
Proof. induction l as [|a l IH]; [reflexivity|]. cbn [flat_map map]. rewrite qsum_app', IH. reflexivity. Qed.
Lemma over_periods_sum (f : nat * nat -> Q) : (qsum (map f (periods m)) == over_periods m (fun i j => f (i, j)))%Q.
Proof.
  unfold periods, over_periods. induction (seq 0 (nm_days m)) as [|i l IH]; [reflexivity|]. cbn [list_prod map]. rewrite map_app, qsum_app', IH. change (qsum (?a :: ?b)) with (a + qsum b)%Q. rewrite map_map. reflexivity.
Qed.
Lemma costs_sum w y : nm_flag m = true -> (term_sum s (flat_map (common_costs m w y) (periods m)) == plan_cost m p w y)%Q.
Proof.
  intros FL. rewrite term_sum_flat, over_periods_sum. unfold plan_cost, over_periods. apply qsum_ext. intros i _. apply qsum_ext. intros j _. unfold common_costs. rewrite FL, !term_sum_app.
  setoid_replace (term_sum s (flat_map (fun k => map (fun u => ((cost_name k i j, fst u), (w i * nm_hours m j)%Q)) (enum (nm_units m k))) kinds)) with (w i * nm_hours m j * qsum (map (fun k => total (nm_units m k) (fun n _ => p_cost p k i j n)) kinds))%Q.
  2:{ rewrite term_sum_flat, <- qsum_times. apply qsum_ext. intros k _. rewrite total_map, <- total_times. apply total_ext. intros n u _. cbn [fst snd]. rewrite (ag_cost s p AG). reflexivity. }
  setoid_replace (term_sum s (map (fun u => ((pump_name i j, fst u), (- w i * nm_hours m j * nm_base m * snd (snd u))%Q)) (enum (nm_pumps m)))) with (- (w i * nm_hours m j * nm_base m) * total (nm_pumps m) (fun n c => snd c * p_pump p i j n))%Q.
  2:{ rewrite total_map, <- total_times. apply total_ext. intros n u _. cbn [fst snd]. rewrite (ag_pump s p AG). ring. }
  destruct (nm_feas m); [|rewrite term_nil; ring].
  setoid_replace (term_sum s (flat_map (fun k => map (fun b => ((lc_name i j k, fst b), (w i * nm_hours m j * y)%Q)) (enum (nm_buses m)) ++ map (fun b => ((gc_name i j k, fst b), (w i * nm_hours m j * y)%Q)) (enum (nm_buses m))) (seq 0 (cases m))))
    with (w i * nm_hours m j * y * qsum (map (fun k => total (nm_buses m) (fun n _ => p_lc p i j k n + p_gc p i j k n)) (seq 0 (cases m))))%Q; [ring|].
  rewrite term_sum_flat, <- qsum_times. apply qsum_ext. intros k _. rewrite term_sum_app, !total_map, <- total_times, <- total_plus. apply total_ext. intros n b _. cbn [fst snd]. rewrite (ag_lc s p AG), (ag_gc s p AG). ring.
Qed.
End Rows.

(** ** Limits *)

Lemma proper_between l u : (l <= u)%Q -> proper (between l u) = true.
Proof.
  intros L. unfold between. destruct (Qeq_bool l u) eqn:E; [reflexivity|]. cbn [proper]. destruct (Qle_bool u l) eqn:F; [|reflexivity]. apply Qle_bool_iff in F. assert (X : (l == u)%Q) by lra. apply Qeq_bool_iff in X. congruence.
Qed.
Lemma limits_proper m : limits_ok m -> forall q b, bounded m q b -> proper b = true.
Proof.
  intros L q b B. destruct B as [k i j n u P E|i j n u P E|i j k n u P E|i j k n u N P E O|i j k n u N P E|i j k n u N P E|i j k n u P E].
  - pose proof (li_unit m L k n u i j (proj1 P) (proj2 P) E) as X. unfold unit_bound. destruct k; [|now apply proper_between|now apply proper_between]. destruct (active m u); [now apply proper_between, X|reflexivity].
  - pose proof (li_pump m L ltac:(destruct P; lia) ltac:(destruct P; lia) u (nth_error_In _ _ E)) as X. unfold pump_bound. destruct (Qeq_bool (fst u) 0) eqn:F; [reflexivity|]. cbn [proper]. destruct (Qle_bool (fst u) 0) eqn:G; [|reflexivity]. apply Qle_bool_iff in G. assert (Y : (fst u == 0)%Q) by lra. apply Qeq_bool_iff in Y. congruence.
  - unfold flow_bound. destruct (ln_on u k); cbn [andb]; [|reflexivity]. destruct (Qle_bool (ln_rate u) 0) eqn:G; [reflexivity|]. cbn [negb proper]. destruct (Qle_bool (ln_rate u) (- ln_rate u)) eqn:F; [|reflexivity]. apply Qle_bool_iff in F. assert (X : ~ (ln_rate u <= 0)%Q) by (intros X; apply Qle_bool_iff in X; congruence). exfalso. apply X. lra.
  - reflexivity.
  - destruct P as (P1 & P2 & _). unfold lc_bound. destruct (Qle_bool (bs_demand u) 0) eqn:G; [reflexivity|]. assert (D : (0 < bs_demand u)%Q) by (apply Qnot_le_lt; intros X; apply Qle_bool_iff in X; congruence). pose proof (li_mult m L N n u i j P1 P2 E D) as M. cbn [proper]. destruct (Qle_bool (bs_demand u * nm_mult m i j n) 0) eqn:F; [|reflexivity]. apply Qle_bool_iff in F. exfalso. pose proof (Qmult_lt_0_compat _ _ D M). lra.
  - destruct (has_unit m u); reflexivity.
  - destruct (bs_type u =? 3); reflexivity.
Qed.
Lemma between_proper l u : proper (between l u) = true -> (l <= u)%Q.
Proof.
  unfold between. destruct (Qeq_bool l u) eqn:E; [apply Qeq_bool_iff in E; intros; lra|]. cbn [proper]. intros H. destruct (Qle_bool u l) eqn:F; [discriminate H|]. assert (X : ~ (u <= l)%Q) by (intros X; apply Qle_bool_iff in X; congruence). lra.
Qed.
Lemma proper_limits m : (forall q b, bounded m q b -> proper b = true) -> limits_ok m.
Proof.
  intros H. constructor.
  - intros k n u i j I J E. pose proof (H _ _ (bd_gen m k i j n u (conj I J) E)) as X. unfold unit_bound in X. destruct k; [intros A; rewrite A in X| |]; now apply between_proper.
  - intros D T c I. apply In_nth_error in I as (n & E). pose proof (H _ _ (bd_pump m 0 0 n c (conj D T) E)) as X. unfold pump_bound in X. destruct (Qeq_bool (fst c) 0) eqn:F; [apply Qeq_bool_iff in F; lra|]. cbn [proper] in X. destruct (Qle_bool (fst c) 0) eqn:G; [discriminate X|]. assert (Y : ~ (fst c <= 0)%Q) by (intros Y; apply Qle_bool_iff in Y; congruence). lra.
  - intros N n b i j I J E D. assert (P : instance m i j 0) by (unfold instance, cases; lia). pose proof (H _ _ (bd_lc m i j 0 n b N P E)) as X. unfold lc_bound in X. destruct (Qle_bool (bs_demand b) 0) eqn:F; [apply Qle_bool_iff in F; lra|]. cbn [proper] in X. destruct (Qle_bool (bs_demand b * nm_mult m i j n) 0) eqn:G; [discriminate X|]. apply Qnot_le_lt. intros Y. assert (Z : (bs_demand b * nm_mult m i j n <= 0)%Q); [|apply Qle_bool_iff in Z; congruence]. setoid_replace 0%Q with (bs_demand b * 0)%Q by ring. apply Qmult_le_l; assumption.
Qed.
