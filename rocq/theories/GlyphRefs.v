(** Model of the parts of glifLib.GlyphSet that look into all files of a glyph
    set.  The state and getGLIF are those of GlyphSet.v, the parsers those of
    Glif.v (for well-formed documents, as described there). *)
From Coq Require Import String NArith ZArith Bool Lia List.
From Coq.Floats Require Import SpecFloat.
From Verif Require Import Base PyVal PyText Xml Etree Glif GlyphSet.
Import ListNotations.
Local Open Scope string_scope.
Local Open Scope list_scope.

Section Refs.
Variable T : pytext.
Variable canon : str -> str.
(** glifLib 470-475, 485-490, 500-505: the loop of the three functions *)
Fixpoint collect {A} (fetchText : bytes -> res A) (names : list str) (d : list (str * A)) : GlyphSet.M (list (str * A)) :=
  match names with
  | [] => GlyphSet.ret d
  | n :: r =>
    GlyphSet.mbind (getGLIF canon n) (fun text =>
    GlyphSet.mbind (GlyphSet.lift (fetchText text)) (fun a => collect fetchText r (set n a d)))
  end.
(** glifLib 469, 484, 499: [None] stands for the argument left out *)
Definition references {A} (fetchText : bytes -> res A) (names : option (list str)) : GlyphSet.M (list (str * A)) :=
  GlyphSet.mbind getGs (fun g => collect fetchText (match names with Some l => l | None => keys (contents g) end) []).
(** glifLib 462-475 *)
Definition getUnicodes : option (list str) -> GlyphSet.M (list (str * list Z)) := references (fun b => do root <- parseBytes b; Ok (fetchUnicodes T root)).
(** glifLib 477-490 *)
Definition getComponentReferences : option (list str) -> GlyphSet.M (list (str * list str)) := references (fun b => do root <- parseBytes b; Ok (fetchComponents root)).
(** glifLib 492-505 *)
Definition getImageReferences : option (list str) -> GlyphSet.M (list (str * option str)) := references (fun b => do root <- parseBytes b; Ok (fetchImage root)).
End Refs.
