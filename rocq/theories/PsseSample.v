(** PSS/E raw files of whole numbers, for examples. *)
From Coq Require Import List String Ascii Bool Arith ZArith QArith Lia.
From Verif Require Import Base NumeralSpec MatFile Converter ConverterSpec ConverterProofs MatWriterProofs Psse PsseSpec PsseProofs.
Import ListNotations.
Open Scope string_scope.
Open Scope nat_scope.
Open Scope list_scope.

Local Ltac sp := repeat match goal with |- _ /\ _ => split end.

Definition line (zs : list Z) : text := join (map (fun z => word (str_Z z)) zs).
Lemma int_word z : int_field (word (str_Z z)) z.
Proof. destruct (int_numeral z) as (n & OK & P & E & V). exists [], n, []. rewrite List.app_nil_r. cbn [app]. sp; auto. Qed.
Lemma real_word z : real_field (word (str_Z z)) (inject_Z z).
Proof. destruct (int_numeral z) as (n & OK & P & E & V). exists [], n, []. rewrite List.app_nil_r. cbn [app]. sp; auto. Qed.
Lemma word_no_comma z : ~ In ","%char (word (str_Z z)).
Proof. intros I. apply (int_field_chars _ z _ (int_word z)) in I. unfold c_blank in I. cbn in I. intuition discriminate. Qed.
Lemma line_line zs : line_is (line zs) (map (fun z => word (str_Z z)) zs).
Proof. split; [|reflexivity]. apply Forall_map, Forall_forall. intros z _. apply word_no_comma. Qed.

Definition zpair (r x s : Z) : pair := mkPair (inject_Z r) (inject_Z x) (inject_Z s).
Definition two_lines (b1 b2 cz r x s : Z) : list text := [line [b1; b2; 0; 1; 1; cz; 1]%Z; line [r; x; s]; line [1; 220]%Z; line [1; 110]%Z].
Definition three_lines (b1 b2 b3 cz r x s r' x' s' r'' x'' s'' : Z) : list text :=
  [line [b1; b2; b3; 1; 1; cz; 1]%Z; line [r; x; s; r'; x'; s'; r''; x''; s'']; line [1; 220]%Z; line [1; 110]%Z; line [1; 20]%Z].
Lemma first_sample b1 b2 b3 cz : first_line (line [b1; b2; b3; 1; 1; cz; 1]%Z) b1 b2 b3 cz.
Proof. eexists _, _, _, _, _, _, _, _, _, _. sp; [exact (line_line [b1; b2; b3; 1; 1; cz; 1]%Z)|apply int_word..]. Qed.
Lemma voltage_sample v : voltage_line (line [1; v]%Z).
Proof. eexists _, _, _, _. sp; [exact (line_line [1; v]%Z)|apply real_word]. Qed.
Lemma pair_sample r x s : pair_fields [word (str_Z r); word (str_Z x); word (str_Z s)] (zpair r x s).
Proof. eexists _, _, _. sp; [reflexivity|apply real_word..]. Qed.
Lemma two_sample b1 b2 cz r x s : trafo_lines (Two b1 b2 cz (zpair r x s)) (two_lines b1 b2 cz r x s).
Proof. exists (line [b1; b2; 0; 1; 1; cz; 1]%Z), (line [r; x; s]), (line [1; 220]%Z), (line [1; 110]%Z). eexists _, []. sp; [reflexivity|apply first_sample| |apply pair_sample|apply voltage_sample..]. exact (line_line [r; x; s]). Qed.
Lemma three_sample b1 b2 b3 cz r x s r' x' s' r'' x'' s'' : b3 <> 0%Z ->
  trafo_lines (Three b1 b2 b3 cz (zpair r x s) (zpair r' x' s') (zpair r'' x'' s'')) (three_lines b1 b2 b3 cz r x s r' x' s' r'' x'' s'').
Proof.
  intros N. split; [exact N|]. eexists _, _, _, _, _, _, _, _, []. split; [reflexivity|]. split; [apply first_sample|]. split; [|split; [apply pair_sample|split; [apply pair_sample|split; [apply pair_sample|sp; apply voltage_sample]]]].
  exact (line_line [r; x; s; r'; x'; s'; r''; x''; s'']).
Qed.

(** A file: base, version, buses and transformers. *)
Definition zbus (b : Z * Z) : Z * Q := (fst b, inject_Z (snd b)).
Definition sample_lines (base ver : Z) (bs : list (Z * Z)) (tls : list (list text)) : list text :=
  line [0; base; ver; 0; 1; 50]%Z :: [] :: [] :: map (fun b => line [fst b; 7; snd b]%Z) bs ++ word "0 /" :: repeat [] (first_trafo - (4 + List.length bs)) ++ List.concat tls ++ [word "0 /"].
Definition sample (base ver : Z) (bs : list (Z * Z)) (ts : list trafo) : file := mkFile (inject_Z base) ver 0 1 50 (map zbus bs) ts.
Lemma header_sample base ver : header_is (line [0; base; ver; 0; 1; 50]%Z) (inject_Z base) ver 0 1 50.
Proof.
  exists (word (str_Z 0)), (word (str_Z base)), (word (str_Z ver)), (word (str_Z 0)), (word (str_Z 1)), (word (str_Z 50)), [], []. rewrite List.app_nil_r. split; [exact (line_line [0; base; ver; 0; 1; 50]%Z)|].
  sp; [apply real_word|apply int_word..|apply (real_word 50)|now left].
Qed.
Lemma buses_sample bs : Forall2 bus_line_is (map zbus bs) (map (fun b => line [fst b; 7; snd b]%Z) bs).
Proof. induction bs as [|b bs IH]; constructor; [|exact IH]. eexists _, _, _, _. sp; [exact (line_line [fst b; 7; snd b]%Z)|apply int_word|apply real_word]. Qed.
Lemma end_sample : end_line (word "0 /").
Proof. now exists []. Qed.
Lemma nodes_sample base ver bs ts tls : nodes_part (sample base ver bs ts) (sample_lines base ver bs tls).
Proof. eexists _, _, _, _, _, _. sp; [reflexivity|apply header_sample|apply buses_sample|apply end_sample]. Qed.
Lemma trafos_sample base ver bs ts tls : List.length bs < 1000 -> Forall2 trafo_lines ts tls -> trafos_part (sample base ver bs ts) (sample_lines base ver bs tls).
Proof.
  intros L F. exists (line [0; base; ver; 0; 1; 50]%Z :: [] :: [] :: map (fun b => line [fst b; 7; snd b]%Z) bs ++ word "0 /" :: repeat [] (first_trafo - (4 + List.length bs))), tls, (word "0 /"), [].
  split; [|split; [|split; [exact F|apply end_sample]]].
  - unfold sample_lines. cbn [app]. do 3 f_equal. rewrite <- app_assoc. reflexivity.
  - cbn [List.length]. rewrite app_length, map_length. cbn [List.length]. rewrite repeat_length. unfold first_trafo. lia.
Qed.
