(** Python text primitives used by several modules: [str.strip], [int(s)],
    [float(s)].  What depends on the Unicode database or on decimal to binary
    conversion is a parameter ([pytext]) with the laws that the theorems use. *)
From Coq Require Import String NArith ZArith Bool Lia List.
From Coq.Floats Require Import SpecFloat.
From Verif Require Import Base PyVal.
Import ListNotations.
Local Open Scope string_scope.
Local Open Scope list_scope.

Record pytext := mkPytext {
  digitVal : N -> option N;          (* decimal value of a character (category Nd) *)
  isSpace : N -> bool;               (* str.isspace *)
  parseFloat : str -> option spec_float;  (* float(s), None for ValueError *)
}.
Definition asciiDigit (c : N) : option N := if (48 <=? c)%N && (c <=? 57)%N then Some (c - 48)%N else None.
Definition asciiSpace (c : N) : bool := mem c [9; 10; 11; 12; 13; 28; 29; 30; 31; 32]%N.
Record pytext_laws (T : pytext) : Prop := {
  digit_ascii : forall c, (c < 128)%N -> digitVal T c = asciiDigit c;
  digit_range : forall c d, digitVal T c = Some d -> (d < 10)%N;
  space_ascii : forall c, (c < 128)%N -> isSpace T c = asciiSpace c;
  float_nan : parseFloat T (u "nan") = Some S754_nan;
}.
(** an instance: the ASCII part of the Unicode tables *)
Definition asciiText : pytext :=
  mkPytext asciiDigit asciiSpace (fun s => if eqb s (u "nan") then Some S754_nan else if eqb s (u ".5") then Some (S754_finite false 1 (-1)) else None).
Lemma asciiText_laws : pytext_laws asciiText.
Proof.
  constructor; cbn [asciiText digitVal isSpace parseFloat]; try reflexivity.
  intros c d H. unfold asciiDigit in H. destruct (N.leb_spec 48 c), (N.leb_spec c 57); cbn in H; inversion H; subst. lia.
Qed.

(** str.strip() *)
Fixpoint lstrip (sp : N -> bool) (s : str) : str :=
  match s with [] => [] | c :: r => if sp c then lstrip sp r else s end.
Definition strip (sp : N -> bool) (s : str) : str := rev (lstrip sp (rev (lstrip sp s))).

(** int(s): None for ValueError.  Surrounding white space, a sign and single
    underscores between digits are accepted.  (The limit of 4300 digits of newer
    Python versions is not modelled.  Python does not strip the characters 28 to
    31 from ASCII strings here; the texts in question come from XML documents,
    which can not contain them, or have been stripped by str.strip before.) *)
Fixpoint intDigits (T : pytext) (s : str) (acc : Z) (afterDigit : bool) : option Z :=
  match s with
  | [] => if afterDigit then Some acc else None
  | c :: r =>
    if N.eqb c 95 then if afterDigit then intDigits T r acc false else None
    else match digitVal T c with
         | Some d => intDigits T r (acc * 10 + Z.of_N d)%Z true
         | None => None
         end
  end.
Definition parseInt (T : pytext) (s : str) : option Z :=
  match strip (isSpace T) s with
  | 43%N :: r => intDigits T r 0 false
  | 45%N :: r => match intDigits T r 0 false with Some z => Some (- z)%Z | None => None end
  | r => intDigits T r 0 false
  end.
