(** The transformers of a PSS/E raw file. *)
From Coq Require Import List String Ascii Bool Arith ZArith QArith Qminmax Lqa Lia.
From Verif Require Import Base GraphDataProofs Reader NumeralSpec NumeralProofs MatFile Converter ConverterSpec ConverterProofs Psse PsseSpec PsseProofs.
Import ListNotations.
Open Scope string_scope.
Open Scope nat_scope.
Open Scope list_scope.

Local Ltac sp := repeat match goal with |- _ /\ _ => split end.
Local Ltac ia H := erewrite int_at_field; [|reflexivity|exact H]; cbn [rbind].
Local Ltac fa H q V := match goal with |- context [rbind (float_at ?ws ?i) _] => let E := fresh in destruct (float_at_field ws i _ _ eq_refl H) as (q & E & V); rewrite E; clear E; cbn [rbind] end.

Section Root.
Variable root : Q -> Q.
Hypothesis ROOT : root_ok root.
Variables base base' : Q.
Hypothesis BASE : (base' == base)%Q.

Lemma first_read l b1 b2 b3 cz : first_line l b1 b2 b3 cz -> ends l = false /\ int_at (cut "," l) 2 = Ok b3.
Proof.
  intros (w0 & w1 & w2 & w3 & w4 & w5 & w6 & more & cw & cm & L & I0 & I1 & I2 & I4 & I5 & I6). split.
  - eapply not_end; [|exact L|exact I0]. discriminate.
  - rewrite (line_cut _ _ _ L). ia I2. reflexivity.
Qed.
Lemma voltage_read l : voltage_line l -> exists v, float_at (cut "," l) 1 = Ok v.
Proof. intros (w0 & w1 & v & more & L & R). rewrite (line_cut _ _ _ L). destruct (float_at_field (w0 :: w1 :: more) 1 _ _ eq_refl R) as (q & E & _). eauto. Qed.

Lemma two_read b1 b2 cz p ls : trafo_lines (Two b1 b2 cz p) ls -> sound base cz p ->
  exists l0 l1 l2 l3, ls = [l0; l1; l2; l3] /\ ends l0 = false /\ int_at (cut "," l0) 2 = Ok 0%Z /\
    forall rest, exists r, two_winding root base' l0 (l1 :: l2 :: l3 :: rest) = Ok r /\ forall k, rows_of_trafo root base k (Two b1 b2 cz p) [r].
Proof.
  intros (l0 & l1 & l2 & l3 & ws & more & -> & F & L1 & (wr & wx & w_s & -> & HR & HX & HS) & V2 & V3) SO. exists l0, l1, l2, l3. destruct (first_read _ _ _ _ _ F) as (E0 & E2). sp; auto. intros rest.
  destruct F as (w0 & w1 & w2 & w3 & w4 & w5 & w6 & more0 & cw & cm & L & I0 & I1 & I2 & I4 & I5 & I6). destruct (voltage_read l2 V2) as (v2 & EV2). destruct (voltage_read l3 V3) as (v3 & EV3).
  unfold two_winding. cbn [field nth_error rbind]. cbv zeta. rewrite (line_cut _ _ _ L), (line_cut _ _ _ L1). ia I0. ia I1. ia I4. ia I5. ia I6. cbn [app].
  fa HR r ER. fa HX x EX. fa HS s ES. rewrite EV2, EV3. cbn [rbind]. destruct (to_base_ok root ROOT base base' cz p r x s BASE ER EX ES SO) as (R & X & EZ & IM). rewrite EZ. cbn [rbind fst snd].
  eexists. split; [reflexivity|]. intros k. cbn [rows_of_trafo]. eexists. split; [reflexivity|]. cbn [r_from r_to r_r r_x]. sp; auto.
Qed.
Lemma two_bad b1 b2 cz p ls e : trafo_lines (Two b1 b2 cz p) ls -> (forall r x s, r == p_r p -> x == p_x p -> s == p_s p -> to_base root base' cz r x s = Err e)%Q ->
  exists l0 l1 l2 l3, ls = [l0; l1; l2; l3] /\ ends l0 = false /\ int_at (cut "," l0) 2 = Ok 0%Z /\ forall rest, two_winding root base' l0 (l1 :: l2 :: l3 :: rest) = Err e.
Proof.
  intros (l0 & l1 & l2 & l3 & ws & more & -> & F & L1 & (wr & wx & w_s & -> & HR & HX & HS) & V2 & V3) SO. exists l0, l1, l2, l3. destruct (first_read _ _ _ _ _ F) as (E0 & E2). sp; auto. intros rest.
  destruct F as (w0 & w1 & w2 & w3 & w4 & w5 & w6 & more0 & cw & cm & L & I0 & I1 & I2 & I4 & I5 & I6). destruct (voltage_read l2 V2) as (v2 & EV2). destruct (voltage_read l3 V3) as (v3 & EV3).
  unfold two_winding. cbn [field nth_error rbind]. cbv zeta. rewrite (line_cut _ _ _ L), (line_cut _ _ _ L1). ia I0. ia I1. ia I4. ia I5. ia I6. cbn [app].
  fa HR r ER. fa HX x EX. fa HS s ES. rewrite EV2, EV3. cbn [rbind]. rewrite (SO r x s ER EX ES). reflexivity.
Qed.
Lemma three_read b1 b2 b3 cz p q r ls : trafo_lines (Three b1 b2 b3 cz p q r) ls -> sound_trafo root base (Three b1 b2 b3 cz p q r) ->
  exists l0 l1 l2 l3 l4, ls = [l0; l1; l2; l3; l4] /\ ends l0 = false /\ int_at (cut "," l0) 2 = Ok b3 /\ b3 <> 0%Z /\
    forall k rest, exists rs, three_winding root base' k l0 (l1 :: l2 :: l3 :: l4 :: rest) = Ok rs /\ rows_of_trafo root base k (Three b1 b2 b3 cz p q r) rs.
Proof.
  intros (N3 & l0 & l1 & l2 & l3 & l4 & u & v & w & more & -> & F & L1 & (ur & ux & us & -> & UR & UX & US) & (vr & vx & vs & -> & VR & VX & VS) & (wr & wx & ws & -> & WR & WX & WS) & V2 & V3 & V4) (S1 & S2 & S3 & POS).
  exists l0, l1, l2, l3, l4. destruct (first_read _ _ _ _ _ F) as (E0 & E2). sp; auto. intros k rest.
  destruct F as (w0 & w1 & w2 & w3 & w4 & w5 & w6 & more0 & cw & cm & L & I0 & I1 & I2 & I4 & I5 & I6). destruct (voltage_read l2 V2) as (v2 & EV2). destruct (voltage_read l3 V3) as (v3 & EV3). destruct (voltage_read l4 V4) as (v4 & EV4).
  unfold three_winding. cbn [field nth_error rbind]. cbv zeta. rewrite (line_cut _ _ _ L), (line_cut _ _ _ L1). ia I0. ia I1. ia I2. ia I4. ia I5. ia I6. cbn [app].
  fa UR r12 ER12. fa UX x12 EX12. fa US s12 ES12. fa VR r23 ER23. fa VX x23 EX23. fa VS s23 ES23. fa WR r31 ER31. fa WX x31 EX31. fa WS s31 ES31. rewrite EV2, EV3, EV4. cbn [rbind].
  destruct (to_base_ok root ROOT base base' cz p _ _ _ BASE ER12 EX12 ES12 S1) as (R12 & X12 & EZ & IM12). rewrite EZ. clear EZ. cbn [rbind].
  destruct (to_base_ok root ROOT base base' cz q _ _ _ BASE ER23 EX23 ES23 S2) as (R23 & X23 & EZ & IM23). rewrite EZ. clear EZ. cbn [rbind].
  destruct (to_base_ok root ROOT base base' cz r _ _ _ BASE ER31 EX31 ES31 S3) as (R31 & X31 & EZ & IM31). rewrite EZ. clear EZ. cbn [rbind].
  destruct (POS _ _ _ _ _ _ IM12 IM23 IM31) as (P12 & P23 & P31). pose proof (least3_ok X12 X23 X31) as LE. set (m := least3 X12 X23 X31) in *.
  assert (PM : (0 < m)%Q) by (destruct LE as ([E|[E|E]] & _); rewrite E; assumption).
  destruct (capped_ok m X12 PM) as (Y12 & EY & Q12). rewrite EY. clear EY. cbn [rbind]. destruct (capped_ok m X23 PM) as (Y23 & EY & Q23). rewrite EY. clear EY. cbn [rbind]. destruct (capped_ok m X31 PM) as (Y31 & EY & Q31). rewrite EY. clear EY. cbn [rbind].
  eexists. split; [reflexivity|]. cbn [rows_of_trafo]. eexists _, _, _. split; [reflexivity|]. cbn [r_from r_to r_r r_x]. sp; auto.
  exists R12, X12, R23, X23, R31, X31, m. split; [assumption|]. split; [assumption|]. split; [assumption|]. split; [assumption|]. split; apply half_star; auto; reflexivity.
Qed.

(** What the arrays hold after the rows [new], when [n] transformers have come before. *)
Definition filled (n : nat) (new old : list row) : list row := match new with [] => old | _ => if n =? 0 then new else old ++ new end.
Lemma filled_step n a old b : a <> [] -> (n = 0 -> List.length old = 1) -> filled (S n) b (store (S n) a old) = filled n (a ++ b) old.
Proof.
  intros NE L. unfold filled, store. destruct a as [|x a]; [congruence|]. cbn [app Nat.eqb]. destruct n as [|n].
  - specialize (L eq_refl). destruct old as [|y [|]]; try discriminate. cbn [Nat.eqb skipn]. rewrite List.app_nil_r. destruct b; [now rewrite List.app_nil_r|reflexivity].
  - cbn [Nat.eqb]. destruct b; [now rewrite List.app_nil_r|now rewrite <- app_assoc].
Qed.
Lemma rows_nonempty k t rs : rows_of_trafo root base k t rs -> rs <> [].
Proof. destruct t; cbn [rows_of_trafo]; [intros (r & -> & _)|intros (a & b & c & -> & _)]; discriminate. Qed.

Lemma read_prefix ts tls tail : Forall2 trafo_lines ts tls -> Forall (sound_trafo root base) ts ->
  forall t, (t_two t = 0 -> List.length (t_conv t) = 1) -> (t_three t = 0 -> List.length (t_star t) = 1) ->
  exists t' conv star, read_trafos root base' (List.concat tls ++ tail) t = read_trafos root base' tail t' /\ t_conv t' = filled (t_two t) conv (t_conv t) /\ t_star t' = filled (t_three t) star (t_star t) /\
    t_two t' = t_two t + List.length (filter is_two ts) /\ t_three t' = t_three t + List.length (filter (fun t => negb (is_two t)) ts) /\
    (forall k, rows_are root base k (filter is_two ts) conv) /\ rows_are root base (S (t_three t)) (filter (fun t => negb (is_two t)) ts) star.
Proof.
  intros F. induction F as [|tr ls ts tls T F IH]; intros S0 t H2 H3.
  - exists t, [], []. cbn [List.concat app filter rows_are filled List.length]. sp; auto.
  - inversion S0 as [|? ? St S1]; subst. cbn [List.concat]. rewrite <- app_assoc. destruct tr as [b1 b2 cz p|b1 b2 b3 cz p q r].
    + destruct (two_read b1 b2 cz p ls T St) as (l0 & l1 & l2 & l3 & -> & EN & B3 & RD). destruct (RD (List.concat tls ++ tail)) as (rw & ER & RO). cbn [app read_trafos]. rewrite EN, B3. cbn [rbind Z.eqb]. rewrite ER. cbn [rbind].
      destruct (IH S1 (mkTrafos (S (t_two t)) (t_three t) (store (S (t_two t)) [rw] (t_conv t)) (t_star t))) as (t' & conv & star & ET & C & D & N2 & N3 & RC & RS); cbn [t_two t_three t_conv t_star] in *; [discriminate|exact H3|].
      exists t', ([rw] ++ conv), star. cbn [filter is_two negb List.length]. sp; auto; [|lia|].
      * rewrite C. apply filled_step; [discriminate|exact H2].
      * intros k. cbn [rows_are]. exists [rw], conv. auto.
    + destruct (three_read b1 b2 b3 cz p q r ls T St) as (l0 & l1 & l2 & l3 & l4 & -> & EN & B3 & NZ & RD). destruct (RD (S (t_three t)) (List.concat tls ++ tail)) as (rs & ER & RO). cbn [app read_trafos]. rewrite EN, B3. cbn [rbind].
      rewrite (proj2 (Z.eqb_neq b3 0) NZ). rewrite ER. cbn [rbind].
      destruct (IH S1 (mkTrafos (t_two t) (S (t_three t)) (t_conv t) (store (S (t_three t)) rs (t_star t)))) as (t' & conv & star & ET & C & D & N2 & N3 & RC & RS); cbn [t_two t_three t_conv t_star] in *; [exact H2|discriminate|].
      exists t', conv, (rs ++ star). cbn [filter is_two negb List.length]. sp; auto; [|lia|].
      * rewrite D. apply filled_step; [eapply rows_nonempty; eauto|exact H3].
      * cbn [rows_are]. exists rs, star. auto.
Qed.
Lemma read_ok ts tls e rest : Forall2 trafo_lines ts tls -> Forall (sound_trafo root base) ts -> end_line e ->
  forall t, (t_two t = 0 -> List.length (t_conv t) = 1) -> (t_three t = 0 -> List.length (t_star t) = 1) ->
  exists t' conv star, read_trafos root base' (List.concat tls ++ e :: rest) t = Ok t' /\ t_conv t' = filled (t_two t) conv (t_conv t) /\ t_star t' = filled (t_three t) star (t_star t) /\
    (forall k, rows_are root base k (filter is_two ts) conv) /\ rows_are root base (S (t_three t)) (filter (fun t => negb (is_two t)) ts) star.
Proof.
  intros F S0 E t H2 H3. destruct (read_prefix ts tls (e :: rest) F S0 t H2 H3) as (t' & conv & star & ET & C & D & _ & _ & RC & RS). exists t', conv, star. sp; auto. rewrite ET. cbn [read_trafos]. now rewrite (end_ends e E).
Qed.

(** Three windings whose least reactance is not positive. *)
Lemma three_least b1 b2 b3 cz p q r ls r12 x12 r23 x23 r31 x31 m : trafo_lines (Three b1 b2 b3 cz p q r) ls -> sound base cz p -> sound base cz q -> sound base cz r ->
  impedance root base cz p r12 x12 -> impedance root base cz q r23 x23 -> impedance root base cz r r31 x31 -> least m x12 x23 x31 ->
  exists l0 l1 l2 l3 l4, ls = [l0; l1; l2; l3; l4] /\ ends l0 = false /\ int_at (cut "," l0) 2 = Ok b3 /\ b3 <> 0%Z /\
   (m == 0 -> forall k rest, three_winding root base' k l0 (l1 :: l2 :: l3 :: l4 :: rest) = Err ZeroDivisionError)%Q /\
   (m < 0 -> forall k rest, exists ra rb rc, three_winding root base' k l0 (l1 :: l2 :: l3 :: l4 :: rest) = Ok [ra; rb; rc] /\ star_of (r_r ra) (r_r rb) (r_r rc) r12 r23 r31 /\ star_of (r_x ra) (r_x rb) (r_x rc) x12 x23 x31)%Q.
Proof.
  intros (N3 & l0 & l1 & l2 & l3 & l4 & u & v & w & more & -> & F & L1 & (ur & ux & us & -> & UR & UX & US) & (vr & vx & vs & -> & VR & VX & VS) & (wr & wx & ws & -> & WR & WX & WS) & V2 & V3 & V4) S1 S2 S3 J12 J23 J31 LM.
  exists l0, l1, l2, l3, l4. destruct (first_read _ _ _ _ _ F) as (E0 & E2).
  destruct F as (w0 & w1 & w2 & w3 & w4 & w5 & w6 & more0 & cw & cm & L & I0 & I1 & I2 & I4 & I5 & I6). destruct (voltage_read l2 V2) as (v2 & EV2). destruct (voltage_read l3 V3) as (v3 & EV3). destruct (voltage_read l4 V4) as (v4 & EV4).
  assert (UNI : forall p R X R' X', impedance root base cz p R X -> impedance root base cz p R' X' -> (R == R' /\ X == X')%Q).
  { intros p0 R X R' X'. unfold impedance. destruct cz as [|[[c|c|]|[c|c|]|]|c]; intros (A & B) (A' & B'); rewrite ?A, ?B, ?A', ?B'; try (split; reflexivity). split; [reflexivity|]. apply ROOT. rewrite A, A'. reflexivity. }
  assert (G : exists R12 X12 R23 X23 R31 X31, (R12 == r12 /\ X12 == x12 /\ R23 == r23 /\ X23 == x23 /\ R31 == r31 /\ X31 == x31)%Q /\ forall k rest, three_winding root base' k l0 (l1 :: l2 :: l3 :: l4 :: rest) =
     let m := least3 X12 X23 X31 in
     do x12 <- capped m X12; do x23 <- capped m X23; do x31 <- capped m X31;
     let star := (1000000 + Z.of_nat k)%Z in
     Ok [mkRow b1 star (half R12 R31 R23) (half x12 x31 x23); mkRow b2 star (half R12 R23 R31) (half x12 x23 x31); mkRow b3 star (half R31 R23 R12) (half x31 x23 x12)]).
  { destruct (float_at_field ([ur; ux; us] ++ [vr; vx; vs] ++ [wr; wx; ws] ++ more) 0 _ _ eq_refl UR) as (r12' & A1 & ER12). destruct (float_at_field ([ur; ux; us] ++ [vr; vx; vs] ++ [wr; wx; ws] ++ more) 1 _ _ eq_refl UX) as (x12' & A2 & EX12).
    destruct (float_at_field ([ur; ux; us] ++ [vr; vx; vs] ++ [wr; wx; ws] ++ more) 2 _ _ eq_refl US) as (s12' & A3 & ES12). destruct (float_at_field ([ur; ux; us] ++ [vr; vx; vs] ++ [wr; wx; ws] ++ more) 3 _ _ eq_refl VR) as (r23' & A4 & ER23).
    destruct (float_at_field ([ur; ux; us] ++ [vr; vx; vs] ++ [wr; wx; ws] ++ more) 4 _ _ eq_refl VX) as (x23' & A5 & EX23). destruct (float_at_field ([ur; ux; us] ++ [vr; vx; vs] ++ [wr; wx; ws] ++ more) 5 _ _ eq_refl VS) as (s23' & A6 & ES23).
    destruct (float_at_field ([ur; ux; us] ++ [vr; vx; vs] ++ [wr; wx; ws] ++ more) 6 _ _ eq_refl WR) as (r31' & A7 & ER31). destruct (float_at_field ([ur; ux; us] ++ [vr; vx; vs] ++ [wr; wx; ws] ++ more) 7 _ _ eq_refl WX) as (x31' & A8 & EX31).
    destruct (float_at_field ([ur; ux; us] ++ [vr; vx; vs] ++ [wr; wx; ws] ++ more) 8 _ _ eq_refl WS) as (s31' & A9 & ES31).
    destruct (to_base_ok root ROOT base base' cz p _ _ _ BASE ER12 EX12 ES12 S1) as (R12 & X12 & Z12 & IM12). destruct (to_base_ok root ROOT base base' cz q _ _ _ BASE ER23 EX23 ES23 S2) as (R23 & X23 & Z23 & IM23).
    destruct (to_base_ok root ROOT base base' cz r _ _ _ BASE ER31 EX31 ES31 S3) as (R31 & X31 & Z31 & IM31). exists R12, X12, R23, X23, R31, X31.
    destruct (UNI _ _ _ _ _ IM12 J12). destruct (UNI _ _ _ _ _ IM23 J23). destruct (UNI _ _ _ _ _ IM31 J31). split; [sp; assumption|]. intros k rest.
    unfold three_winding. cbn [field nth_error rbind]. cbv zeta. rewrite (line_cut _ _ _ L), (line_cut _ _ _ L1). ia I0. ia I1. ia I2. ia I4. ia I5. ia I6.
    cbn [app] in A1, A2, A3, A4, A5, A6, A7, A8, A9 |- *. rewrite A1, A2, A3, A4, A5, A6, A7, A8, A9, EV2, EV3, EV4. cbn [rbind]. rewrite Z12, Z23, Z31. reflexivity. }
  destruct G as (R12 & X12 & R23 & X23 & R31 & X31 & (Q1 & Q2 & Q3 & Q4 & Q5 & Q6) & G).
  pose proof (least3_ok X12 X23 X31) as LE. set (m0 := least3 X12 X23 X31) in *.
  assert (EM : (m0 == m)%Q). { destruct LE as (D1 & U1 & U2 & U3). destruct LM as (D2 & W1 & W2 & W3). rewrite Q2, Q4, Q6 in *. apply Qle_antisym; [destruct D2 as [E|[E|E]]; rewrite E|destruct D1 as [E|[E|E]]; rewrite E]; assumption. }
  split; [reflexivity|]. split; [assumption|]. split; [assumption|]. split; [assumption|]. split.
  - intros MZ k rest. rewrite G. cbv zeta. unfold capped at 1, over. assert (E : Qeq_bool m0 0 = true) by (apply Qeq_bool_iff; rewrite EM; exact MZ). rewrite E. reflexivity.
  - intros MN k rest. rewrite G. cbv zeta. assert (NZ : ~ (m0 == 0)%Q) by (rewrite EM; lra).
    assert (C : forall x, (m0 <= x)%Q -> capped m0 x = Ok x).
    { intros x Lx. unfold capped. rewrite over_ok by exact NZ. cbn [rbind]. assert (Z : (x / m0 <= 1)%Q). { setoid_replace (x / m0)%Q with ((- x) / (- m0))%Q by (field; lra). apply Qle_shift_div_r; [lra|]. lra. } rewrite (proj2 (Qle_bool_iff _ _)) by lra. reflexivity. }
    destruct LE as (_ & U1 & U2 & U3). rewrite (C X12 U1), (C X23 U2), (C X31 U3). cbn [rbind]. eexists _, _, _. split; [reflexivity|]. cbn [r_r r_x]. split; apply half_star; assumption.
Qed.
End Root.
