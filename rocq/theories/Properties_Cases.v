(** Properties C47-C53 and C65-C71: the investment-planning entry point. *)
From Coq Require Import List String Ascii Bool Arith ZArith QArith Qround Qabs Lia Lqa Permutation Sorted.
From Verif Require Import Base Graph GraphData GraphDataProofs Reader NumeralSpec NumeralProofs Cases CasesSpec CasesProofs CasesClusters CasesOutputs.
Import ListNotations.
Open Scope nat_scope.
Open Scope list_scope.

Local Ltac sp := repeat match goal with |- _ /\ _ => split end.

(* ------------------------------------------------------------------ *)
(** ** C47 *)

(** Scenario s reads node s / 2^(n-1-y) of stage y; the next stage is read at a child of that
    node; each of the 2^y nodes of the stage is read by 2^(n-1-y) scenarios. *)
Theorem C47_positions : forall n y s, y < n -> s < 2 ^ (n - 1) ->
  tree_position n (Z.of_nat s) y = Z.of_nat (s / 2 ^ (n - 1 - y)) /\
  (S y < n -> tree_position n (Z.of_nat s) y = (tree_position n (Z.of_nat s) (S y) / 2)%Z) /\
  forall k, k < 2 ^ y -> List.length (filter (fun s => tree_position n (Z.of_nat s) y =? Z.of_nat k)%Z (seq 0 (2 ^ (n - 1)))) = 2 ^ (n - 1 - y).
Proof.
  intros n y s Hy Hs. sp.
  - now apply tree_position_spec.
  - intros Hy'. rewrite !tree_position_spec by lia. rewrite position_parent by auto. now rewrite Nat2Z.inj_div.
  - intros k Hk. replace (2 ^ (n - 1)) with (2 ^ y * 2 ^ (n - 1 - y)) by (rewrite <- Nat.pow_add_r; f_equal; lia).
    rewrite <- (count_block (2 ^ (n - 1 - y)) k (2 ^ y)) at 2; [|apply Nat.pow_nonzero; lia|auto]. f_equal. apply filter_ext_in. intros a I. apply in_seq in I.
    rewrite tree_position_spec; [|auto|]. 2:{ rewrite <- Nat.pow_add_r in I. now replace (y + (n - 1 - y)) with (n - 1) in I by lia. }
    destruct (Nat.eqb_spec (a / 2 ^ (n - 1 - y)) k), (Z.eqb_spec (Z.of_nat (a / 2 ^ (n - 1 - y))) (Z.of_nat k)); auto; lia.
Qed.
Print Assumptions C47_positions.

Example C47_witness : map (fun s => map (tree_position 4 s) [0; 1; 2; 3]) [0; 3; 5; 7]%Z = [[0; 0; 0; 0]; [0; 0; 1; 3]; [0; 1; 2; 5]; [0; 1; 3; 7]]%Z.
Proof. reflexivity. Qed.

(** From growth data to the table the planner reads: for data covering all years, every
    scenario, stage and bus with demand has one row, with active and reactive power scaled by
    the multiplier of its node. *)
Theorem C47_planner_input : forall growth dsr k0 t0 k1 t1 others gA gS dA dS y0 later pd qd,
  growth = (k0, t0) :: (k1, t1) :: others -> map fst t0 = y0 :: later ->
  full_data growth k0 (y0 :: later) gA -> full_data growth k1 later gS ->
  full_data dsr k0 (y0 :: later) dA -> full_data dsr k1 later dS -> List.length qd = List.length pd ->
  exists mult flex, growth_tree growth dsr = Ok (y0 :: later, mult, flex) /\
    scenario_rows pd qd (y0 :: later) mult [] = Ok (expected_rows pd qd (y0 :: later) mult).
Proof.
  intros growth dsr k0 t0 k1 t1 others gA gS dA dS y0 later pd qd E Et HA HS DA DS L.
  destruct (growth_tree_spec growth dsr k0 t0 k1 t1 others gA gS dA dS y0 later E Et HA HS DA DS) as (mult & flex & Eg & Lm & Lf & Hm & Hf).
  exists mult, flex. split; auto. apply scenario_rows_ok; auto; [discriminate|]. intros y m H. now destruct (Hm y m H).
Qed.
Print Assumptions C47_planner_input.

Definition ex_growth : yearly :=
  [("Active"%string, [(2020, 0%Q); (2030, 2%Q); (2040, 3%Q)]); ("Slow"%string, [(2020, 0%Q); (2030, 1%Q); (2040, 1%Q)])]%Z.
Example C47_input_witness : match growth_tree ex_growth ex_growth with
  | Ok (yrs, mult, _) => match scenario_rows [10; 0; 5]%Q [1; 7; 2]%Q yrs mult [] with
    | Ok rows => map (fun r => (br_scenario r, br_year r, br_bus r, Qred (br_p r))) (firstn 6 rows) =
        [(1, 2020, 0%nat, 10%Q); (1, 2020, 2%nat, 5%Q); (1, 2030, 0%nat, 12%Q); (1, 2030, 2%nat, 6%Q); (1, 2040, 0%nat, (78 # 5)%Q); (1, 2040, 2%nat, (39 # 5)%Q)]%Z /\ List.length rows = 24
    | Err _ => False
    end
  | Err _ => False
  end.
Proof. vm_compute. auto. Qed.

(* ------------------------------------------------------------------ *)
(** ** C48 *)

(** Stage y has 2^y multipliers, equally spaced from the growth of the first scenario compounded
    over the years to that of the second; the demand-response factors likewise. *)
Theorem C48_multipliers : forall growth dsr k0 t0 k1 t1 others gA gS dA dS y0 later,
  growth = (k0, t0) :: (k1, t1) :: others -> map fst t0 = y0 :: later ->
  full_data growth k0 (y0 :: later) gA -> full_data growth k1 later gS ->
  full_data dsr k0 (y0 :: later) dA -> full_data dsr k1 later dS ->
  exists mult flex, growth_tree growth dsr = Ok (y0 :: later, mult, flex) /\
    List.length mult = S (List.length later) /\ List.length flex = S (List.length later) /\
    (forall y m, nth_error mult y = Some m ->
       evenly (2 ^ y) ((1 + gA y0) * compounded gA y0 (firstn y later)) ((1 + gA y0) * compounded gS y0 (firstn y later)) m) /\
    (forall y f, nth_error flex y = Some f -> exists z, nth_error (y0 :: later) y = Some z /\ evenly (2 ^ y) (1 - dA z) (1 - (if y =? 0 then dA z else dS z)) f).
Proof. exact growth_tree_spec. Qed.
Print Assumptions C48_multipliers.

Example C48_witness : match growth_tree ex_growth ex_growth with
  | Ok (yrs, mult, flex) => yrs = [2020; 2030; 2040]%Z /\ map (map Qred) mult = [[1]; [6 # 5; 11 # 10]; [39 # 25; 433 # 300; 199 # 150; 121 # 100]]%Q /\ map (map Qred) flex = [[1]; [-1 # 1; 0]; [-2 # 1; -4 # 3; -2 # 3; 0]]%Q
  | Err _ => False
  end.
Proof. vm_compute. auto. Qed.

(* ------------------------------------------------------------------ *)
(** ** C49 *)

(** The last multiplier of 2050 is not the last one of 2040 compounded with the slow growth, for
    any of the countries. *)
Theorem C49_refuted : exists c g, country_growth c = Ok g /\ exists m leaf parent,
  get_mult c = Ok m /\ nth_error (nth 3 m []) 7 = Some leaf /\ nth_error (nth 2 m []) 3 = Some parent /\ ~ (leaf == parent * (1 + s50 g * 10 / 100))%Q.
Proof.
  exists "PT"%string. eexists. split; [reflexivity|]. do 3 eexists. sp; try reflexivity. vm_compute. discriminate.
Qed.
Print Assumptions C49_refuted.

Theorem C49_all_countries : forall c g, country_growth c = Ok g -> exists m leaf parent,
  get_mult c = Ok m /\ nth_error (nth 3 m []) 7 = Some leaf /\ nth_error (nth 2 m []) 3 = Some parent /\ (parent * (1 + s50 g * 10 / 100) < leaf)%Q.
Proof.
  intros c g. unfold get_mult, country_growth.
  destruct (String.eqb c "PT"); [|destruct (String.eqb c "UK"); [|destruct (String.eqb c "HR"); [|discriminate]]]; intros E; inversion E; subst; clear E; cbn [rbind];
    do 3 eexists; (sp; [reflexivity|reflexivity|reflexivity|vm_compute; reflexivity]).
Qed.
Print Assumptions C49_all_countries.

(** What holds: 2030 and 2040 run, equally spaced, between the compounded growths of the two
    scenarios; 2050 starts at the compounded active growth, and runs equally spaced to the
    slow growth applied to the second node of 2040. *)
Theorem C49_partial : forall c g, country_growth c = Ok g -> exists m, get_mult c = Ok m /\
  let up x := (1 + x * 10 / 100)%Q in
  exists m30 m40 m50, m = [[1%Q]; m30; m40; m50] /\
    evenly 2 (up (a30 g)) (up (s30 g)) m30 /\ evenly 4 (up (a30 g) * up (a40 g)) (up (s30 g) * up (s40 g)) m40 /\
    exists second, nth_error m40 1 = Some second /\ evenly 8 (up (a30 g) * up (a40 g) * up (a50 g)) (second * up (s50 g)) m50.
Proof.
  intros c g E. unfold get_mult. rewrite E. cbn [rbind]. eexists. split; [reflexivity|]. unfold mult_of. cbn [map seq app].
  do 3 eexists. split; [reflexivity|]. sp; try (eexists; split; [reflexivity|]);
  (split; [reflexivity|]; intros k v H;
   do 8 (destruct k as [|k]; [cbn [nth_error] in H; first [discriminate | inversion H; clear H; subst v; cbn [Z.of_nat Pos.of_succ_nat Pos.succ]; unfold inject_Z; cbn [Z.add Z.sub Z.opp Z.pos_sub Pos.add Pos.succ Pos.pred_double]; field] |]); destruct k; discriminate).
Qed.
Print Assumptions C49_partial.

(** The growth percentages of the countries per decade (SM:20-71): active economy, then slow. *)
Definition decades : list (string * (list Q * list Q)) :=
  [("PT"%string, ([169 # 100; 229 # 100; 187 # 100]%Q, [66 # 100; 132 # 100; 116 # 100]%Q));
   ("UK"%string, ([189 # 100; 300 # 100; 250 # 100]%Q, [110 # 100; 200 # 100; 100 # 100]%Q));
   ("HR"%string, ([160 # 100; 110 # 100; 260 # 100]%Q, [135 # 100; 65 # 100; 70 # 100]%Q))].
(** Ten years of growth at each of the given yearly percentages. *)
Definition compounded (rates : list Q) : Q := fold_right (fun r acc => (1 + 10 * r / 100) * acc)%Q 1%Q rates.

(** Exactly these countries have multipliers; the largest multiplier of every decade is the
    active growth compounded up to it, and the smallest of 2030 and 2040 the slow one. *)
Theorem C49_growth_partial : (forall c, (exists m, get_mult c = Ok m) <-> In c (map fst decades)) /\
  forall c active slow, In (c, (active, slow)) decades -> exists m, get_mult c = Ok m /\ List.length m = 4 /\
    (forall k, k <= 3 -> exists x, nth_error (nth k m []) 0 = Some x /\ (x == compounded (firstn k active))%Q) /\
    (forall k, k <= 2 -> exists x, nth_error (nth k m []) (2 ^ k - 1) = Some x /\ (x == compounded (firstn k slow))%Q).
Proof.
  split.
  - intros c. unfold get_mult, country_growth. cbn [decades map fst In]. split.
    + intros (m & E). destruct (String.eqb_spec c "PT"); auto. destruct (String.eqb_spec c "UK"); auto. destruct (String.eqb_spec c "HR"); auto. discriminate.
    + intros [<-|[<-|[<-|[]]]]; cbn; eauto.
  - intros c active slow I. cbn [decades In] in I. destruct I as [E|[E|[E|[]]]]; injection E as <- <- <-; eexists; (split; [reflexivity|]; sp; [reflexivity| |]);
      intros k L; do 4 (destruct k as [|k]; [try (eexists; split; [reflexivity|vm_compute; reflexivity]); lia|]); lia.
Qed.
Print Assumptions C49_growth_partial.

Example C49_witness : match get_mult "UK" with Ok m => map (@List.length Q) m = [1; 2; 4; 8] | Err _ => False end.
Proof. reflexivity. Qed.

(* ------------------------------------------------------------------ *)
(** ** C50 and C71 *)

(** Screening every node of a tree: each positive reinforcement becomes the least size of the
    catalogue for lines or for transformers, everything else stays; otherwise some value is
    above the catalogue and ValueError is raised.  The recorded values of a branch are sorted
    and are exactly the values reported by the screening model. *)
Theorem C50_clusters : forall M (screen : nat -> nat -> list Q -> M -> res (list Q * list Q)) cat taps mult,
  (forall xy xsc prev m, exists r, screen xy xsc prev m = Ok r) ->
  (forall xy xsc prev m r, screen xy xsc prev m = Ok r -> List.length (fst r) = List.length taps /\ List.length (snd r) = List.length taps) ->
  Forall (fun l => l <> []) mult ->
  (exists dict clusters recs, main_screening screen cat taps mult = Ok (dict, clusters) /\ List.length recs = List.length mult /\
     (forall y l, nth_error mult y = Some l -> exists rs, nth_error recs y = Some rs /\ List.length rs = List.length l /\
        forall s m r, nth_error l s = Some m -> nth_error rs s = Some r -> exists prev, screen y s prev m = Ok r) /\
     Forall2 (fun r c => Forall2 (fun tv x => rounded cat (fst tv) (snd tv) x) (combine taps (snd r)) c) (List.concat recs) clusters /\
     List.length dict = List.length taps /\
     forall b, b < List.length taps -> Permutation (nth b dict []) (map (fun r => nth b (fst r) 0%Q) (List.concat recs)) /\ StronglySorted Qle (nth b dict [])) \/
  (main_screening screen cat taps mult = Err ValueError /\
   exists y s l m prev r tv, nth_error mult y = Some l /\ nth_error l s = Some m /\ screen y s prev m = Ok r /\ In tv (combine taps (snd r)) /\ oversized cat (fst tv) (snd tv)).
Proof.
  intros M screen cat taps mult T Z0 NE. destruct (main_screening_cases screen cat taps T mult NE) as [(dict & cs & E & _)|(E & ([[y s] m] & I & prev & r & Er & tv & It & O))].
  - left. destruct (screening_trace screen cat taps Z0 mult dict cs NE E) as (recs & L & Hy & [D1 D2] & F). exists dict, cs, recs. sp; auto.
    intros y l H. destruct (Hy y l H) as (rs & A & B & C). exists rs. sp; eauto.
  - right. split; auto. apply in_runs in I as (l & H1 & H2). exists y, s, l, m, prev, r, tv. auto.
Qed.
Print Assumptions C50_clusters.

Definition ex_screen (xy xsc : nat) (prev : list Q) (m : Q) : res (list Q * list Q) :=
  Ok (map (fun p => m * inject_Z (Z.of_nat xy) + 0 * p)%Q prev, map (fun p => m * inject_Z (Z.of_nat xy) + 0 * p)%Q prev).
Example C50_witness :
  match main_screening ex_screen ([5; 10]%Q, [8; 16]%Q) [0; 1]%Q [[1]; [3; 9]]%Q, main_screening ex_screen ([5; 10]%Q, [8; 16]%Q) [0; 1]%Q [[1]; [3; 11]]%Q with
  | Ok (dict, cs), Err ValueError => map (map Qred) dict = [[0; 3; 9]; [0; 3; 9]]%Q /\ map (map Qred) cs = [[0; 0]; [5; 8]; [10; 16]]%Q
  | _, _ => False
  end.
Proof. vm_compute. auto. Qed.

(** The sizes listed per branch (interv_dict): a node that needs nothing is listed with the
    least size as soon as another node needs something. *)
Theorem C50_refuted : exists cat tap l r, StronglySorted Qle l /\ In 0%Q l /\ reduce_branch cat tap l = Ok r /\
  forall x, In x r -> (0 < x)%Q.
Proof.
  exists ([5; 10]%Q, []), 0%Q, [0; 0; 7]%Q, [5; 10]%Q. sp; try (now left); try reflexivity.
  - repeat constructor; discriminate.
  - intros x [<-|[<-|[]]]; reflexivity.
Qed.
Print Assumptions C50_refuted.

(** The investments assumed to be built when a node of year y is screened are those of the last
    node of every earlier year, whichever node is screened. *)
Theorem C71_last_scenario_partial : forall M (screen : nat -> nat -> list Q -> M -> res (list Q * list Q)) cat taps mult dict clusters,
  (forall xy xsc prev m r, screen xy xsc prev m = Ok r -> List.length (fst r) = List.length taps /\ List.length (snd r) = List.length taps) ->
  Forall (fun l => l <> []) mult -> main_screening screen cat taps mult = Ok (dict, clusters) ->
  exists recs, List.length recs = List.length mult /\
    (forall y l, nth_error mult y = Some l -> exists rs, nth_error recs y = Some rs /\ List.length rs = List.length l /\
       forall s m r, nth_error l s = Some m -> nth_error rs s = Some r -> screen y s (built (map (fun _ => 0%Q) taps) (firstn y recs)) m = Ok r) /\
    Forall2 (fun r c => Forall2 (fun tv x => rounded cat (fst tv) (snd tv) x) (combine taps (snd r)) c) (List.concat recs) clusters.
Proof.
  intros M screen cat taps mult dict cs Z0 NE E. destruct (screening_trace screen cat taps Z0 mult dict cs NE E) as (recs & L & Hy & _ & F). exists recs. auto.
Qed.
Print Assumptions C71_last_scenario_partial.

(** The first node of year 1 needs 5, the second nothing; the children of the first are screened
    without the 5. *)
Definition parent_screen (xy xsc : nat) (prev : list Q) (_ : unit) : res (list Q * list Q) :=
  if xy =? 1 then Ok (if xsc =? 0 then [5%Q] else [0%Q], if xsc =? 0 then [5%Q] else [0%Q]) else Ok ([0%Q], prev).
Theorem C71_refuted : exists (screen : nat -> nat -> list Q -> unit -> res (list Q * list Q)) mult dict clusters,
  (forall prev, screen 1 0 prev tt = Ok ([5%Q], [5%Q])) /\ (forall s prev, screen 2 s prev tt = Ok ([0%Q], prev)) /\
  mult = [[tt]; [tt; tt]; [tt; tt; tt; tt]] /\
  main_screening screen ([5]%Q, []) [0%Q] mult = Ok (dict, clusters) /\
  nth_error clusters 1 = Some [5%Q] /\ exists v, nth_error clusters 3 = Some [v] /\ (v == 0)%Q.
Proof.
  exists parent_screen, [[tt]; [tt; tt]; [tt; tt; tt; tt]]. eexists. eexists. sp; try reflexivity. eexists. split; reflexivity.
Qed.
Print Assumptions C71_refuted.

Example C71_witness : match main_screening (fun xy xsc prev (_ : unit) => Ok ([inject_Z (Z.of_nat xsc + 1)], prev)) ([1; 2; 3; 4; 5; 6]%Q, []) [0%Q] [[tt]; [tt; tt]; [tt; tt; tt; tt]] with
  | Ok (_, cs) => map (map Qred) cs = [[0]; [1]; [1]; [3]; [3]; [3]; [3]]%Q
  | Err _ => False
  end.
Proof. reflexivity. Qed.

(* ------------------------------------------------------------------ *)
(** ** C51, C52, C69 and C70 *)

(** The clusters offered to the planner come from a list without repetitions holding every
    screened cluster.  If it fits in the limit, exactly the non-empty ones are offered.
    Otherwise [limit] of them are, at increasing positions; one position is the nearest in cost
    to each of the [limit] equal fractions of the cost of the last cluster, among those left. *)
Theorem C51_reduction : forall cat cost limit n l, l <> [] -> rectangular n l -> Forall (listed cat) l ->
  List.length cat <= List.length cost -> 0 < limit ->
  exists o kept, final_clusters cat cost limit l = Ok kept /\
    ForallOrdPairs (fun a b => ~ same_cluster a b) o /\ (forall c, In c o -> In c l) /\ (forall c, In c l -> exists c', In c' o /\ same_cluster c c') /\
    (List.length o <= limit -> forall c, In c kept <-> In c o /\ reinforces c) /\
    (limit < List.length o -> exists is xs ideals costs top,
       List.length is = limit /\ StronglySorted lt is /\ Forall2 (fun i c => nth_error o i = Some c) is kept /\ Permutation xs is /\
       Forall2 (costs_of cat cost) o costs /\ nth_error costs (List.length o - 1) = Some top /\
       List.length ideals = limit /\ (forall i v, nth_error ideals i = Some v -> (v == top * inject_Z (Z.of_nat (S i)) / inject_Z (Z.of_nat limit))%Q) /\
       picks costs [] ideals xs).
Proof.
  intros cat cost limit n l NE R Hl Hc Hlim.
  destruct (final_clusters_cases cat cost limit n l NE R Hl Hc Hlim) as (o & kept & E & P & Cs).
  destruct (dedupe_spec l) as (D1 & D2 & D3).
  assert (Ro : rectangular n o) by (eapply rectangular_perm; [exact P|]; now apply dedupe_rectangular).
  exists o, kept. sp; auto.
  - eapply distinct_perm; [|exact P|exact D1]. intros a b H1 H2. apply H1. now apply same_sym.
  - intros c I. apply D2. eapply Permutation_in; [symmetry; exact P|auto].
  - intros c I. destruct (D3 c I) as (c' & I' & S'). exists c'. split; auto. eapply Permutation_in; eauto.
  - intros L c. destruct Cs as [[_ ->]|[L' _]]; [|lia]. rewrite filter_In, positive_reinforces. tauto.
  - intros L. destruct Cs as [[L' _]|[_ Er]]; [lia|].
    destruct (mapM_total (cluster_cost cat cost n) o) as (costs & Ec).
    { intros c I. apply cluster_cost_total; auto.
      - unfold rectangular in Ro. rewrite Forall_forall in Ro. auto.
      - rewrite Forall_forall in Hl. apply Hl, D2. eapply Permutation_in; [symmetry; exact P|]. auto. }
    destruct (reduce_spec cat cost n limit o costs Ec) as (kept' & is & Ek & Li & Si & F & top & Ht & Eis); [lia|]. rewrite Er in Ek. inversion Ek; subst kept'. clear Ek.
    apply mapM_Forall2 in Ec. assert (Lc : List.length o = List.length costs) by (clear - Ec; induction Ec; cbn; auto).
    exists is, (choose (linspace (top / inject_Z (Z.of_nat limit)) top limit) costs (map (fun _ => true) o)), (linspace (top / inject_Z (Z.of_nat limit)) top limit), costs, top. sp; auto.
    + rewrite Eis. symmetry. apply nsort_perm.
    + unfold rectangular in Ro. rewrite Forall_forall in Ro. clear - Ec Ro. induction Ec as [|c q o costs Eq Ec IH]; constructor.
      * rewrite <- (Ro c (or_introl eq_refl)) in Eq. now apply cluster_cost_spec.
      * apply IH. intros; apply Ro; now right.
    + apply linspace_length.
    + intros i v H. now apply linspace_nth.
    + apply choose_picks.
      * now rewrite map_length.
      * rewrite linspace_length, count_all. lia.
      * intros x Lx. rewrite nth_error_map. destruct (nth_error o x) eqn:Ex; [cbn; tauto|]. apply nth_error_None in Ex. lia.
Qed.
Print Assumptions C51_reduction.

Example C51_witness : final_clusters [5; 10; 20]%Q [1; 2; 4]%Q 2 [[0; 0]; [5; 0]; [20; 5]; [5; 0]; [10; 5]]%Q = Ok [[10; 5]; [20; 5]]%Q /\
  final_clusters [5; 10; 20]%Q [1; 2; 4]%Q 5 [[20; 5]; [0; 0]; [5; 0]; [5; 0]]%Q = Ok [[5; 0]; [20; 5]]%Q.
Proof. split; reflexivity. Qed.

(** A limit of zero does not keep zero clusters: it raises ZeroDivisionError. *)
Theorem C51_zero_refuted : exists cat cost l, l <> [] /\ rectangular 1 l /\ Forall (listed cat) l /\ List.length cat <= List.length cost /\
  final_clusters cat cost 0 l = Err ZeroDivisionError.
Proof.
  exists [5%Q], [1%Q], [[5%Q]]. sp; try reflexivity; try discriminate.
  - repeat constructor.
  - constructor; [|constructor]. intros v [<-|[]] _. exists 5%Q. split; [now left|reflexivity].
Qed.
Print Assumptions C51_zero_refuted.

Theorem C52_ordering : forall n l, l <> [] -> rectangular n l ->
  exists o, order_clusters (dedupe l) = Ok o /\ Permutation (dedupe l) o /\
    ForallOrdPairs (fun a b => ~ same_cluster a b) o /\ (forall c, In c o -> In c l) /\ (forall c, In c l -> exists c', In c' o /\ same_cluster c c').
Proof.
  intros n l NE R. destruct (order_total n (dedupe l)) as (o & E); [now apply dedupe_nonempty|now apply dedupe_rectangular|].
  pose proof (order_perm _ _ E) as P. destruct (dedupe_spec l) as (D1 & D2 & D3). exists o. sp; auto.
  - eapply distinct_perm; [|exact P|exact D1]. intros a b H1 H2. apply H1. now apply same_sym.
  - intros c I. apply D2. eapply Permutation_in; [symmetry; exact P|auto].
  - intros c I. destruct (D3 c I) as (c' & I' & S'). exists c'. split; auto. eapply Permutation_in; eauto.
Qed.
Print Assumptions C52_ordering.

Example C52_witness : order_clusters (dedupe [[5; 5]; [0; 5]; [5; 5]; [10; 5]; [0; 0]]%Q) = Ok [[0; 0]; [0; 5]; [5; 5]; [10; 5]]%Q.
Proof. reflexivity. Qed.

(** Empty clusters are only dropped when no reduction takes place. *)
Theorem C69_refuted : exists cat cost limit l kept c, 0 < limit /\ Forall (listed cat) l /\ final_clusters cat cost limit l = Ok kept /\ In c kept /\ ~ reinforces c.
Proof.
  exists [10%Q], [10%Q], 2, [[0; 0]; [0; 10]; [10; 0]]%Q, [[0; 0]; [10; 0]]%Q, [0; 0]%Q. sp; try reflexivity; auto.
  - repeat (constructor; [intros v I P; exists 10%Q; split; [now left|];
      cbn in I; repeat match goal with H : _ \/ _ |- _ => destruct H as [<-|H] | H : False |- _ => destruct H end; try reflexivity; vm_compute in P; discriminate|]). constructor.
  - now left.
  - intros (v & I & P). cbn in I. repeat match goal with H : _ \/ _ |- _ => destruct H as [<-|H] | H : False |- _ => destruct H end; vm_compute in P; discriminate.
Qed.
Print Assumptions C69_refuted.

(** Clusters that can be compared branch by branch end up in increasing order, so the last one
    covers all others. *)
Theorem C70_nested_partial : forall n l, l <> [] -> rectangular n l -> chain l ->
  exists o, order_clusters l = Ok o /\ Permutation l o /\ StronglySorted below o /\ forall c, last_of o = Ok c -> forall a, In a l -> below a c.
Proof.
  intros n l NE R C. destruct (order_sorts n l NE R C) as (o & E & P & S0). exists o. sp; auto. intros c Hc. eapply order_last_top; eauto.
Qed.
Print Assumptions C70_nested_partial.

Example C70_witness : order_clusters [[10; 5]; [0; 5]; [0; 0]; [10; 10]]%Q = Ok [[0; 0]; [0; 5]; [10; 5]; [10; 10]]%Q.
Proof. reflexivity. Qed.

(** Without that, the cluster in last place, whose cost is taken as the greatest, can be the
    cheapest. *)
Theorem C70_refuted : exists cat cost l o c c' q q', order_clusters l = Ok o /\ last_of o = Ok c /\ In c' o /\
  costs_of cat cost c q /\ costs_of cat cost c' q' /\ (q < q')%Q.
Proof.
  exists [5; 10]%Q, [1; 2]%Q, [[5; 0]; [0; 10]]%Q, [[0; 10]; [5; 0]]%Q, [5; 0]%Q, [0; 10]%Q, 1%Q, 2%Q. sp; try reflexivity.
  - now left.
  - apply (cluster_cost_spec [5; 10]%Q [1; 2]%Q [5; 0]%Q). reflexivity.
  - apply (cluster_cost_spec [5; 10]%Q [1; 2]%Q [0; 10]%Q). reflexivity.
Qed.
Print Assumptions C70_refuted.

(* ------------------------------------------------------------------ *)
(** ** C53 *)

Theorem C53_single_digits_partial : forall sep l, (forall a, In a sep -> is_digit a = false) -> Forall digits l -> Forall (fun ds => ds <> []) l ->
  (text_to_list (text_of sep l) = map (fun ds => inject_Z (positional ds)) l <-> Forall (fun ds => List.length ds = 1) l).
Proof.
  intros sep l Hs Hd NE. rewrite text_digits by auto. split; intros H.
  - apply (f_equal (@List.length Q)) in H. rewrite !map_length in H.
    assert (G : forall l, Forall (fun ds : list nat => ds <> []) l -> List.length l <= List.length (List.concat l)).
    { induction 1 as [|ds r N _ IH]; cbn; [lia|]. rewrite app_length. destruct ds; [congruence|cbn; lia]. }
    clear - NE H G. induction NE as [|ds r N NE IH]; constructor; cbn in H; rewrite app_length in H; pose proof (G r NE); destruct ds as [|d [|d' ds]]; try congruence; cbn in *; try lia; try reflexivity.
    apply IH. lia.
  - clear - H. induction H as [|ds r L H IH]; cbn [List.concat map]; auto. rewrite map_app, IH. destruct ds as [|d [|]]; try discriminate. cbn [map app]. f_equal. f_equal. cbn. lia.
Qed.
Print Assumptions C53_single_digits_partial.

Example C53_witness : text_to_list (list_ascii_of_string "[1, 2, 7]") = [1; 2; 7]%Q /\ text_of [","%char] [[1]; [2; 0]] = list_ascii_of_string ",1,20,".
Proof. split; reflexivity. Qed.

(** "[10,20]" is read as the list 1, 0, 2, 0. *)
Theorem C53_refuted : exists sep l, (forall a, In a sep -> is_digit a = false) /\ Forall digits l /\ Forall (fun ds => ds <> []) l /\
  map positional l = [10; 20]%Z /\ text_to_list (text_of sep l) = [1; 0; 2; 0]%Q.
Proof.
  exists [","%char], [[1; 0]; [2; 0]]. sp; try reflexivity.
  - intros a [<-|[]]. reflexivity.
  - repeat constructor.
  - repeat constructor; discriminate.
Qed.
Print Assumptions C53_refuted.

(* ------------------------------------------------------------------ *)
(** ** C65 and C66 *)

Lemma options_sound : forall cat cost lengths oversize n l opts, rectangular n l ->
  investment_options cat cost lengths oversize l = Ok opts -> Forall2 (option_for cat cost lengths oversize) l opts.
Proof.
  intros cat cost lengths oversize n l opts R H. unfold investment_options in H.
  destruct (at_ l 0) as [first|] eqn:E0; cbn [rbind] in H; [|discriminate]. apply at_nth in E0. rewrite (rectangular_nth _ _ _ _ R E0) in H.
  apply mapM_Forall2 in H. unfold rectangular in R. rewrite Forall_forall in R. clear E0.
  induction H as [|c o l opts E _ IH]; constructor; [|apply IH; intros; apply R; now right].
  rewrite investment_option_eq in E. apply options_loop in E as (xs & F & He & Hc & Hq). cbn [op_elements op_capacity op_cost app] in *. rewrite <- (R c (or_introl eq_refl)) in *.
  exists xs. sp; auto. rewrite Hq. apply Qplus_0_l.
Qed.

(** The options written to the planner input describe the clusters: branches counted from one,
    sizes from the catalogue, cost per length times length. *)
Theorem C65_options : forall cat cost lengths oversize n l opts, rectangular n l ->
  investment_options cat cost lengths oversize l = Ok opts -> Forall2 (option_for cat cost lengths oversize) l opts.
Proof. exact options_sound. Qed.
Print Assumptions C65_options.

(** With all sizes in the catalogue and no oversizing there is an option for each cluster, with
    the capacities of the cluster. *)
Theorem C65_exact : forall cat cost lengths n l, l <> [] -> rectangular n l -> Forall (listed cat) l -> List.length cost = List.length cat -> n <= List.length lengths ->
  exists opts, investment_options cat cost lengths 0 l = Ok opts /\
    Forall2 (fun c o => option_for cat cost lengths 0 c o /\ Forall2 Qeq (map (fun b => nth b c 0%Q) (reinforced c)) (op_capacity o)) l opts.
Proof.
  intros cat cost lengths n l NE R Hl Lc Ll.
  assert (Hex : exists opts, investment_options cat cost lengths 0 l = Ok opts).
  { unfold investment_options. destruct (at_total l 0) as (first & E0 & H0); [destruct l; [congruence|cbn; lia]|]. rewrite E0. cbn [rbind]. rewrite (rectangular_nth _ _ _ _ R H0).
    apply mapM_total. intros c I. rewrite investment_option_eq. unfold rectangular in R. rewrite Forall_forall in R, Hl. apply options_total; auto. intros b Ib. apply in_seq in Ib. rewrite (R c I). lia. }
  destruct Hex as (opts & E). exists opts. split; auto. apply (options_sound _ _ _ _ n) in E; auto. clear - E.
  induction E as [|c o l opts H _ IH]; constructor; auto. split; auto. destruct H as (xs & F & _ & -> & _). clear - F.
  induction F as [|b x bs xs [(s & Hs & Es) _] _ IH]; cbn [map]; constructor; auto. rewrite Nat.add_0_r. rewrite (nth_error_nth _ _ 0%Q Hs). auto.
Qed.
Print Assumptions C65_exact.

(** Missing line lengths: the first one given, or one. *)
Theorem C65_line_lengths : forall n given, List.length (line_lengths n given) = Nat.max n (List.length given) /\
  forall b, b < n -> nth b (line_lengths n given) 0%Q = (if b <? List.length given then nth b given 0%Q else hd 1%Q given).
Proof.
  intros n [|x r]; cbn [line_lengths].
  - rewrite repeat_length. split; [cbn; lia|]. intros b L. cbn. rewrite nth_repeat_lt || (rewrite (nth_indep _ _ 1%Q) by (rewrite repeat_length; lia); apply nth_repeat).
  - rewrite app_length, repeat_length. split; [lia|]. intros b L. destruct (Nat.ltb_spec b (List.length (x :: r))).
    + now rewrite app_nth1.
    + rewrite app_nth2 by auto. rewrite (nth_indep _ _ x) by (rewrite repeat_length; lia). apply nth_repeat.
Qed.
Print Assumptions C65_line_lengths.

Example C65_witness : investment_options [5; 10; 20]%Q [1; 2; 4]%Q (line_lengths 3 [2; 3]%Q) 1 [[0; 5; 10]; [10; 0; 0]]%Q =
  Ok [mkOpt (0 + 2 * 3 + 4 * 2)%Q [2; 3] [10; 20]%Q; mkOpt (0 + 4 * 2)%Q [1] [20]%Q].
Proof. reflexivity. Qed.

(** Any branch whose size is not in the catalogue of lines, or is too near its end to be
    oversized, stops the construction with IndexError. *)
Theorem C66_unlisted : forall cat cost lengths oversize n c b, b < n -> (0 < nth b c 0)%Q ->
  (forall s, In s cat -> ~ (nth b c 0 == s)%Q) \/ (exists x, takes cat c b x /\ List.length cat <= x + oversize) ->
  investment_option cat cost lengths oversize n c = Err IndexError.
Proof. exact option_fails. Qed.
Print Assumptions C66_unlisted.

(** Transformer sizes proposed by the screening loop cannot be costed. *)
Theorem C66_refuted : exists cat taps vect c cost lengths, round_cluster cat taps vect = Ok c /\ List.length taps = List.length vect /\
  List.length cost = List.length (fst cat) /\ List.length lengths = List.length vect /\
  investment_options (fst cat) cost lengths 0 [c] = Err IndexError.
Proof. exists ([5; 10]%Q, [25]%Q), [0; 1]%Q, [3; 20]%Q, [5; 25]%Q, [1; 2]%Q, [1; 1]%Q. sp; reflexivity. Qed.
Print Assumptions C66_refuted.

Example C66_witness : takes [5; 10]%Q [0; 10]%Q 1 1 /\ List.length [5; 10]%Q <= 1 + 1 /\ investment_option [5; 10]%Q [1; 2]%Q [1; 1]%Q 1 2 [0; 10]%Q = Err IndexError.
Proof.
  unfold takes. sp; auto.
  - exists 10%Q. split; reflexivity.
  - intros [|y] s L H; [|lia]. inversion H; subst. discriminate.
Qed.

(* ------------------------------------------------------------------ *)
(** ** C67 *)

(** Up to four years, with a solution for each node of the tree numbered level by level: the two
    reported scenarios are the first and the last node of each level, and the total is the
    cost in the last year. *)
Theorem C67_paths : forall lines costs yrs, yrs <> [] -> List.length yrs <= 4 ->
  2 ^ List.length yrs - 1 <= List.length lines -> 2 ^ List.length yrs - 1 <= List.length costs ->
  exists a s, save_results lines costs yrs = Ok (a, s) /\
    rp_years a = map (fun y => (nth y yrs 0%Z, (nth (2 ^ y - 1) lines [], nth (2 ^ y - 1) costs 0%Q))) (seq 0 (List.length yrs)) /\
    rp_years s = map (fun y => (nth y yrs 0%Z, (nth (2 ^ (y + 1) - 2) lines [], nth (2 ^ (y + 1) - 2) costs 0%Q))) (seq 0 (List.length yrs)) /\
    rp_total a = nth (2 ^ (List.length yrs - 1) - 1) costs 0%Q /\ rp_total s = nth (2 ^ List.length yrs - 2) costs 0%Q.
Proof.
  intros lines costs yrs NE L4 Ll Lc.
  assert (N1 : forall y, y < 4 -> nth_error [0; 1; 3; 7] y = Some (2 ^ y - 1)) by (intros y Hy; do 4 (destruct y as [|y]; [reflexivity|]); lia).
  assert (N2 : forall y, y < 4 -> nth_error [0; 2; 6; 14] y = Some (2 ^ (y + 1) - 2)) by (intros y Hy; do 4 (destruct y as [|y]; [reflexivity|]); lia).
  assert (P : 0 < List.length yrs) by (destruct yrs; [congruence|cbn; lia]).
  assert (B : forall i, i < List.length yrs -> 2 ^ (i + 1) <= 2 ^ List.length yrs) by (intros; apply Nat.pow_le_mono_r; lia).
  assert (B1 : forall i, 1 <= 2 ^ i) by (intros i; pose proof (Nat.pow_nonzero 2 i); lia).
  destruct (report_gen [0; 1; 3; 7] lines costs yrs 0 (mkReport [] 0)) as (a & Ea & Ya & Ta).
  { intros i Hi. exists (2 ^ i - 1). split; [apply N1; lia|]. specialize (B i Hi). specialize (B1 i). rewrite Nat.pow_add_r in B. cbn [Nat.pow] in B. lia. }
  destruct (report_gen [0; 2; 6; 14] lines costs yrs 0 (mkReport [] 0)) as (s & Es & Ys & Ts).
  { intros i Hi. exists (2 ^ (i + 1) - 2). split; [apply N2; lia|]. specialize (B i Hi). specialize (B1 i). rewrite Nat.pow_add_r in *. cbn [Nat.pow] in *. lia. }
  exists a, s. unfold save_results, report_of. rewrite Ea, Es. cbn [rbind]. cbn [rp_years app] in Ya, Ys. rewrite (combine_seq 0%Z), map_map in Ya, Ys. sp; auto.
  - rewrite Ya. apply map_ext_in. intros y I. apply in_seq in I. cbn [fst snd]. now rewrite (nth_error_nth _ _ 0 (N1 y ltac:(lia))).
  - rewrite Ys. apply map_ext_in. intros y I. apply in_seq in I. cbn [fst snd]. now rewrite (nth_error_nth _ _ 0 (N2 y ltac:(lia))).
  - rewrite Ta by auto. cbn [Nat.add]. now rewrite (nth_error_nth _ _ 0 (N1 (List.length yrs - 1) ltac:(lia))).
  - rewrite Ts by auto. cbn [Nat.add]. rewrite (nth_error_nth _ _ 0 (N2 (List.length yrs - 1) ltac:(lia))). now replace (List.length yrs - 1 + 1) with (List.length yrs) by lia.
Qed.
Print Assumptions C67_paths.

Example C67_witness : save_results [[0]; [1]; [2]]%Q [0; 10; 20]%Q [2020; 2030]%Z =
  Ok (mkReport [(2020%Z, ([0]%Q, 0%Q)); (2030%Z, ([1]%Q, 10%Q))] 10, mkReport [(2020%Z, ([0]%Q, 0%Q)); (2030%Z, ([2]%Q, 20%Q))] 20).
Proof. reflexivity. Qed.

(** Five or more years: IndexError, whatever the solution. *)
Theorem C67_five_years : forall lines costs yrs, 4 < List.length yrs -> save_results lines costs yrs = Err IndexError.
Proof.
  intros lines costs yrs L. unfold save_results, report_of. rewrite report_fails; auto. destruct yrs; [cbn in L; lia|discriminate].
Qed.
Print Assumptions C67_five_years.

Theorem C67_refuted : exists lines costs yrs, List.length lines = 2 ^ List.length yrs - 1 /\ List.length costs = 2 ^ List.length yrs - 1 /\
  save_results lines costs yrs = Err IndexError.
Proof. exists (repeat [0%Q] 31), (repeat 0%Q 31), [2020; 2030; 2040; 2050; 2060]%Z. sp; reflexivity. Qed.
Print Assumptions C67_refuted.

(* ------------------------------------------------------------------ *)
(** ** C68 *)

(** Whatever the planner decided, if every chosen cluster has a line nothing is saved. *)
Theorem C68_never_saved : forall known n positions capacity rows, rows <> [] ->
  Forall (fun r => sr_lines r <> [] /\ sr_scenario r < 1000)%Z rows ->
  exists e, save_interventions known n positions capacity rows = Err e.
Proof.
  intros known n positions capacity rows NE F. unfold save_interventions.
  destruct (first_last_first rows NE) as [N0 B].
  { destruct rows as [|r rows]; [congruence|]. inversion F as [|? ? [_ H] _]; subst. exists r. split; [now left|auto]. }
  destruct (first_last rows) as [p0 p1]. cbn [fst] in *. destruct p0 as [|i p0]; [congruence|]. cbn [foldM].
  destruct (at_total rows i (B i (or_introl eq_refl))) as (r & -> & Hr). cbn [rbind].
  rewrite Forall_forall in F. destruct (F r (nth_error_In _ _ Hr)) as [Nl _].
  destruct (save_row_fails known n positions capacity "Scenario 1"%string r eq_refl Nl) as (e & ->). cbn [rbind]. eauto.
Qed.
Print Assumptions C68_never_saved.

Theorem C68_refuted : exists known n positions capacity rows, save_interventions known n positions capacity rows = Err KeyError /\
  rows = [mkS 1 2030 [2]%Z] /\ positions = [[2]]%Z /\ capacity = [[5%Q]] /\ known 2030%Z = true /\ n = 3.
Proof. exists (fun _ => true), 3, [[2]]%Z, [[5%Q]], [mkS 1 2030 [2]%Z]. sp; reflexivity. Qed.
Print Assumptions C68_refuted.

(** The cluster found for a row is the first one with as many lines, not the one chosen. *)
Theorem C68_cluster : forall lines clusters i, find_cluster lines clusters = Ok i ->
  exists c, nth_error clusters i = Some c /\ List.length c = List.length lines /\ forall j c', j < i -> nth_error clusters j = Some c' -> List.length c' <> List.length lines.
Proof. intros lines clusters i. apply find_cluster_size. Qed.
Print Assumptions C68_cluster.

Theorem C68_cluster_refuted : exists lines clusters i c, In lines clusters /\ find_cluster lines clusters = Ok i /\ nth_error clusters i = Some c /\ c <> lines.
Proof. exists [7]%Z, [[2]; [7]]%Z, 0, [2]%Z. sp; try reflexivity; [right; now left|discriminate]. Qed.
Print Assumptions C68_cluster_refuted.

Example C68_witness : save_interventions (fun _ => true) 9 [[2]; [7; 8]]%Z [[5]; [5; 10]]%Q [mkS 1 2030 [2]%Z; mkS 2 2030 [7; 8]%Z] = Err KeyError /\
  first_last [mkS 1 2030 [2]%Z; mkS 2 2030 [7; 8]%Z; mkS 1 2040 [2]%Z] = ([0; 2], [1]) /\ find_cluster [7; 8]%Z [[2]; [7; 8]]%Z = Ok 1.
Proof. sp; reflexivity. Qed.
