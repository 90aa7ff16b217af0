(** PSS/E raw files: their lines and what they say, independently of the reader. *)
From Coq Require Import List String Ascii Bool Arith ZArith QArith Qminmax.
From Verif Require Import Base NumeralSpec MatFile Converter ConverterSpec Psse.
Import ListNotations.
Open Scope string_scope.
Open Scope nat_scope.
Open Scope list_scope.

(** A line is its fields with commas between them. *)
Fixpoint join (ws : list text) : text := match ws with [] => [] | [w] => w | w :: r => w ++ ","%char :: join r end.
Definition line_is (l : text) (ws : list text) : Prop := Forall (fun w => ~ In ","%char w) ws /\ l = join ws.
(** A field that is a number, with blanks around it. *)
Definition c_blank (a : ascii) : Prop := In (nat_of_ascii a) [9; 10; 11; 12; 13; 32].
Definition real_field (w : text) (q : Q) : Prop :=
  exists b n b', w = b ++ numeral_text n ++ b' /\ Forall c_blank b /\ Forall c_blank b' /\ numeral_ok n /\ (numeral_value n == q)%Q.
Definition int_field (w : text) (z : Z) : Prop :=
  exists b n b', w = b ++ numeral_text n ++ b' /\ Forall c_blank b /\ Forall c_blank b' /\ numeral_ok n /\ plain n /\ (numeral_value n == inject_Z z)%Q.
(** The line that ends a section. *)
Definition end_line (l : text) : Prop := exists more, l = word "0 /" ++ more.

(** The first line of the file: change code, base, version, units of the ratings of transformers and of other branches,
    and the frequency, which a comment may follow. *)
Definition header_is (l : text) (base : Q) (ver tu ou : Z) (freq : Q) : Prop :=
  exists w0 w1 w2 w3 w4 f c more, line_is l (w0 :: w1 :: w2 :: w3 :: w4 :: (f ++ c) :: more) /\
    real_field w1 base /\ int_field w2 ver /\ int_field w3 tu /\ int_field w4 ou /\ real_field f freq /\ (c = [] \/ exists c', c = "/"%char :: c').
(** A bus: number, name, nominal voltage. *)
Definition bus_line_is (b : Z * Q) (l : text) : Prop :=
  exists w0 w1 w2 more, line_is l (w0 :: w1 :: w2 :: more) /\ int_field w0 (fst b) /\ real_field w2 (snd b).

(** A transformer: its buses, the code of its impedances, and resistance, reactance and base of each pair of windings. *)
Record pair := mkPair { p_r : Q; p_x : Q; p_s : Q }.
Inductive trafo := Two (bus1 bus2 cz : Z) (p12 : pair) | Three (bus1 bus2 bus3 cz : Z) (p12 p23 p31 : pair).
Definition voltage_line (l : text) : Prop := exists w0 w1 v more, line_is l (w0 :: w1 :: more) /\ real_field w1 v.
Definition first_line (l : text) (b1 b2 b3 cz : Z) : Prop :=
  exists w0 w1 w2 w3 w4 w5 w6 more cw cm, line_is l (w0 :: w1 :: w2 :: w3 :: w4 :: w5 :: w6 :: more) /\
    int_field w0 b1 /\ int_field w1 b2 /\ int_field w2 b3 /\ int_field w4 cw /\ int_field w5 cz /\ int_field w6 cm.
Definition pair_fields (ws : list text) (p : pair) : Prop :=
  exists r x s, ws = [r; x; s] /\ real_field r (p_r p) /\ real_field x (p_x p) /\ real_field s (p_s p).
Definition trafo_lines (t : trafo) (ls : list text) : Prop :=
  match t with
  | Two b1 b2 cz p => exists l0 l1 l2 l3 ws more, ls = [l0; l1; l2; l3] /\ first_line l0 b1 b2 0 cz /\ line_is l1 (ws ++ more) /\ pair_fields ws p /\
      voltage_line l2 /\ voltage_line l3
  | Three b1 b2 b3 cz p q r => b3 <> 0%Z /\ exists l0 l1 l2 l3 l4 u v w more, ls = [l0; l1; l2; l3; l4] /\ first_line l0 b1 b2 b3 cz /\ line_is l1 (u ++ v ++ w ++ more) /\
      pair_fields u p /\ pair_fields v q /\ pair_fields w r /\ voltage_line l2 /\ voltage_line l3 /\ voltage_line l4
  end.

(** The impedance of a pair of windings that the reader takes: code 2 is in per unit of the base of the windings, code 3 gives
    losses in W and the absolute impedance, any other code is in per unit of the base of the system. *)
Definition impedance (root : Q -> Q) (base : Q) (cz : Z) (p : pair) (r x : Q) : Prop :=
  match cz with
  | 2%Z => r == p_r p * base / p_s p /\ x == p_x p * base / p_s p
  | 3%Z => r == p_r p / (base * inject_Z 1000000) /\ x == root (p_x p * p_x p - r * r)
  | _ => r == p_r p /\ x == p_x p
  end%Q.
(** Data for which it exists. *)
Definition sound (base : Q) (cz : Z) (p : pair) : Prop :=
  (cz = 2%Z -> ~ p_s p == 0)%Q /\ (cz = 3%Z -> ~ base == 0 /\ 0 <= p_x p * p_x p - (p_r p / (base * inject_Z 1000000)) * (p_r p / (base * inject_Z 1000000)))%Q.
Definition root_ok (root : Q -> Q) : Prop := forall p q, (p == q -> root p == root q)%Q.

(** The branches of the star that stands for three windings: any two of them in series are the impedance of the pair. *)
Definition star_of (z1 z2 z3 z12 z23 z31 : Q) : Prop := (z1 + z2 == z12 /\ z2 + z3 == z23 /\ z3 + z1 == z31)%Q.
Definition least (m a b c : Q) : Prop := ((m == a \/ m == b \/ m == c) /\ m <= a /\ m <= b /\ m <= c)%Q.
(** The rows of a transformer; [k] is its number among those of three windings.  No reactance counts more than a hundred times the least. *)
Definition rows_of_trafo (root : Q -> Q) (base : Q) (k : nat) (t : trafo) (rs : list row) : Prop :=
  match t with
  | Two b1 b2 cz p => exists r, rs = [r] /\ r_from r = b1 /\ r_to r = b2 /\ impedance root base cz p (r_r r) (r_x r)
  | Three b1 b2 b3 cz p q r => exists a b c, rs = [a; b; c] /\ r_from a = b1 /\ r_from b = b2 /\ r_from c = b3 /\
      r_to a = (1000000 + Z.of_nat k)%Z /\ r_to b = (1000000 + Z.of_nat k)%Z /\ r_to c = (1000000 + Z.of_nat k)%Z /\
      exists r12 x12 r23 x23 r31 x31 m, impedance root base cz p r12 x12 /\ impedance root base cz q r23 x23 /\ impedance root base cz r r31 x31 /\
        least m x12 x23 x31 /\ star_of (r_r a) (r_r b) (r_r c) r12 r23 r31 /\
        star_of (r_x a) (r_x b) (r_x c) (Qmin x12 (100 * m)) (Qmin x23 (100 * m)) (Qmin x31 (100 * m))
  end.
Definition sound_trafo (root : Q -> Q) (base : Q) (t : trafo) : Prop :=
  match t with
  | Two _ _ cz p => sound base cz p
  | Three _ _ _ cz p q r => sound base cz p /\ sound base cz q /\ sound base cz r /\
      forall r12 x12 r23 x23 r31 x31, impedance root base cz p r12 x12 -> impedance root base cz q r23 x23 -> impedance root base cz r r31 x31 -> (0 < x12 /\ 0 < x23 /\ 0 < x31)%Q
  end.
Definition is_two (t : trafo) : bool := match t with Two _ _ _ _ => true | _ => false end.
(** The rows of the transformers of a list, from the number [k] on. *)
Fixpoint rows_are (root : Q -> Q) (base : Q) (k : nat) (ts : list trafo) (rs : list row) : Prop :=
  match ts with
  | [] => rs = []
  | t :: ts' => exists a b, rs = a ++ b /\ rows_of_trafo root base k t a /\ rows_are root base (S k) ts' b
  end.

(** A whole file. *)
Record file := mkFile { fi_base : Q; fi_version : Z; fi_tu : Z; fi_ou : Z; fi_freq : Q; fi_buses : list (Z * Q); fi_trafos : list trafo }.
Definition nodes_part (f : file) (fc : list text) : Prop :=
  exists l0 l1 l2 bls e rest, fc = l0 :: l1 :: l2 :: bls ++ e :: rest /\ header_is l0 (fi_base f) (fi_version f) (fi_tu f) (fi_ou f) (fi_freq f) /\
    Forall2 bus_line_is (fi_buses f) bls /\ end_line e.
Definition trafos_part (f : file) (fc : list text) : Prop :=
  exists before tls e rest, fc = before ++ List.concat tls ++ e :: rest /\ List.length before = first_trafo /\ Forall2 trafo_lines (fi_trafos f) tls /\ end_line e.
