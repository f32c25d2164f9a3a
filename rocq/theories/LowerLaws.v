(** The facts about python's [str.lower] that some theorems use, and an
    instance.  They hold of CPython: [lower] maps code points one by one except
    for the final-sigma rule, which looks at neighbouring cased letters through
    case-ignorable characters; digits and "_" are neither cased nor
    case-ignorable, so they separate contexts. *)
From Coq Require Import String NArith ZArith Bool Lia List.
From Verif Require Import Base.
Import ListNotations.

Definition sep_char (c : N) : bool := is_digit c || N.eqb c 95.
Definition is_ascii (c : N) : bool := (c <? 128)%N.

Record lower_laws (lower : str -> str) : Prop := {
  lower_nil : lower [] = [];
  lower_sep : forall a d b, d <> [] -> forallb sep_char d = true -> lower (a ++ d ++ b) = lower a ++ d ++ lower b;
  lower_ascii : forall s, forallb is_ascii s = true -> lower s = ascii_lower s
}.

Lemma lower_char_sep c : sep_char c = true -> lower_char c = c.
Proof.
  unfold sep_char, is_digit, lower_char. intro H.
  destruct (N.leb_spec 65 c), (N.leb_spec c 90); cbn; try reflexivity.
  exfalso. apply orb_prop in H as [H|H].
  - apply andb_prop in H as [_ H]. apply N.leb_le in H. lia.
  - apply N.eqb_eq in H. lia.
Qed.
Lemma ascii_lower_laws : lower_laws ascii_lower.
Proof.
  constructor; [reflexivity| |reflexivity].
  intros a d b _ H. unfold ascii_lower. rewrite !map_app. do 2 f_equal.
  induction d as [|c d IH]; [reflexivity|]. cbn in *. apply andb_prop in H as [Hc H].
  rewrite lower_char_sep by exact Hc. f_equal. apply IH; exact H.
Qed.
