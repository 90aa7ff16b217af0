(** Decimal numerals and their values, independently of the number reader. *)
From Coq Require Import List String Ascii Bool Arith ZArith QArith.
Import ListNotations.
Open Scope nat_scope.
Open Scope list_scope.

(** A digit as a number below ten, and its character. *)
Definition digit_char (d : nat) : ascii := ascii_of_nat (48 + d).
Definition digits (ds : list nat) : Prop := Forall (fun d => d < 10) ds.

(** Positional value of a sequence of digits. *)
Fixpoint positional (ds : list nat) : Z :=
  match ds with
  | [] => 0
  | d :: r => Z.of_nat d * 10 ^ Z.of_nat (List.length r) + positional r
  end%Z.

(** [-] digits [. digits] [e (+|-) digits] *)
Record numeral := mkNum {
  nu_neg : bool; nu_int : list nat; nu_frac : option (list nat); nu_exp : option (bool * list nat) }.

Definition frac_digits (n : numeral) : list nat := match nu_frac n with Some f => f | None => [] end.

Record numeral_ok (n : numeral) : Prop := {
  no_int : digits (nu_int n);
  no_frac : digits (frac_digits n);
  no_some : nu_int n ++ frac_digits n <> [];
  no_exp : forall b e, nu_exp n = Some (b, e) -> digits e /\ e <> [] }.

Definition mantissa_text (n : numeral) : list ascii :=
  map digit_char (nu_int n) ++ match nu_frac n with Some f => "."%char :: map digit_char f | None => [] end.
Definition exponent_text (n : numeral) : list ascii :=
  match nu_exp n with
  | Some (neg, e) => "e"%char :: (if neg then "-"%char else "+"%char) :: map digit_char e
  | None => []
  end.
Definition unsigned_text (n : numeral) : list ascii := mantissa_text n ++ exponent_text n.
Definition numeral_text (n : numeral) : list ascii := (if nu_neg n then ["-"%char] else []) ++ unsigned_text n.

Definition unsigned_value (n : numeral) : Q :=
  ((inject_Z (positional (nu_int n)) + inject_Z (positional (frac_digits n)) / 10 ^ Z.of_nat (List.length (frac_digits n))) *
   10 ^ (match nu_exp n with Some (neg, e) => if neg then - positional e else positional e | None => 0 end))%Q.
Definition numeral_value (n : numeral) : Q := if nu_neg n then (- unsigned_value n)%Q else unsigned_value n.
