(** MATPOWER case files: layout and contents, independently of the reader. *)
From Coq Require Import List String Ascii Bool Arith ZArith QArith.
From Verif Require Import Base NumeralSpec MatFile.
Import ListNotations.
Open Scope nat_scope.
Open Scope list_scope.

(** Blanks, tabs, line ends and the other separators below code 33. *)
Definition blank (a : ascii) : Prop := In (nat_of_ascii a) [9; 10; 11; 12; 13; 28; 29; 30; 31; 32].

(** A line that consists of the words [ws], separated by any amount of blanks. *)
Inductive written : text -> list text -> Prop :=
| written_nil b : Forall blank b -> written b []
| written_cons b w l ws : Forall blank b -> w <> [] -> Forall (fun a => ~ blank a) w ->
    written l ws -> (ws = [] \/ exists a l', l = a :: l' /\ blank a) -> written (b ++ w ++ l) (w :: ws).

(** Characters that belong neither to a number nor to a blank. *)
Definition punctuation (a : ascii) : Prop := In a [";"; ","; "["; "]"; "'"; """"]%char.

(** A word that holds one number: a numeral, possibly followed by punctuation (a quoted or bracketed
    number may also follow an opening mark, if it is not negative).  Numerals with an exponent
    stand alone. *)
Definition number_word (n : numeral) (w : text) : Prop :=
  numeral_ok n /\ exists pre suf, w = pre ++ numeral_text n ++ suf /\ Forall punctuation pre /\ Forall punctuation suf /\
    (pre = [] \/ nu_neg n = false) /\ (nu_exp n = None \/ suf = []).

(** The tables and their widths. *)
Definition width (name : string) : option nat :=
  (if String.eqb name "bus" then Some 13 else if String.eqb name "gen" then Some 21
   else if String.eqb name "branch" then Some 13 else if String.eqb name "gencost" then Some 6 else None)%string.
Definition word_of (s : string) : text := list_ascii_of_string s.
Definition mpc (name : string) : text := word_of ("mpc." ++ name).

(** The first word of a line, up to an equality sign. *)
Definition heads (w : text) (t : text) : Prop :=
  ~ In "="%char t /\ (w = t \/ exists r, w = t ++ "="%char :: r).
Definition known : list string := ["version"; "baseMVA"; "bus"; "gen"; "branch"; "gencost"]%string.

(** The parts of a case file. *)
Inductive part :=
| Other (l : text)
| Assign (name : string) (n : numeral) (l : text)
| Matrix (name : string) (header : text) (rows : list (list numeral * text)) (closing : text).

Definition part_ok (p : part) : Prop :=
  match p with
  | Other l => exists ws, written l ws /\ (ws = [] \/ exists w ws' t, ws = w :: ws' /\ heads w t /\ forall name, In name known -> t <> mpc name)
  | Assign name n l => In name ["version"; "baseMVA"]%string /\
      exists w ws, written l (mpc name :: word_of "=" :: w :: ws) /\ number_word n w
  | Matrix name header rows closing => exists k, width name = Some k /\
      (exists w ws, written header (w :: ws) /\ heads w (mpc name) /\ List.length (w :: ws) <= k) /\
      (forall ns l, In (ns, l) rows -> exists ws more, List.length ns = k /\ written l (ws ++ more) /\ Forall2 number_word ns ws) /\
      (exists ws, written closing ws /\ List.length ws < k)
  end.

(** The lines of a part, and what it defines. *)
Definition lines_of (p : part) : list text :=
  match p with
  | Other l => [l]
  | Assign _ _ l => [l]
  | Matrix _ header rows closing => header :: map snd rows ++ [closing]
  end.
Inductive content := Number (n : numeral) | Numbers (rows : list (list numeral)).
Definition defines (name : string) (p : part) : option content :=
  match p with
  | Other _ => None
  | Assign name' n _ => if String.eqb name' name then Some (Number n) else None
  | Matrix name' _ rows _ => if String.eqb name' name then Some (Numbers (map fst rows)) else None
  end.

(** The last definition of a name. *)
Fixpoint contents_of (name : string) (ps : list part) : option content :=
  match ps with
  | [] => None
  | p :: r => match contents_of name r with Some c => Some c | None => defines name p end
  end.

(** The value read is the content. *)
Definition represents (c : option content) (v : option mat_value) : Prop :=
  match c, v with
  | None, None => True
  | Some (Number n), Some (Scalar q) => (q == numeral_value n)%Q
  | Some (Numbers rows), Some (Table t) => Forall2 (Forall2 (fun n q => q == numeral_value n)%Q) rows t
  | _, _ => False
  end.
