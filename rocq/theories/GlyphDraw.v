(** Model of the glyph objects of glifLib.py (60-84) and of the dictionary methods
    of GlyphSet (442-458). *)
From Coq Require Import String NArith ZArith Bool List.
From Verif Require Import Base PyVal PyText Xml FS PointPen Glif GlyphSet.
Import ListNotations.
Local Open Scope string_scope.
Local Open Scope list_scope.

(** coordinates are pairs compared with python's [==] *)
Definition coordEq (a b : coord) : bool := py_eq (fst a) (fst b) && py_eq (snd a) (snd b).

(** glifLib 444-453: keys, has_key, __contains__, __len__ *)
Definition gsKeys (w : world) : list str := keys (contents (gs w)).
Definition gsHasKey (name : str) (w : world) : bool := has name (contents (gs w)).
Definition gsLen (w : world) : nat := length (contents (gs w)).
(** a glyph object (71-73): its name; the glyph set it is of is the one it is used with *)
Record glyphObj := mkGlyphObj { glyphName : str }.
(** glifLib 455-458: __getitem__ with the default glyphClass *)
Definition gsGetItem (name : str) (w : world) : res glyphObj :=
  check gsHasKey name w else KeyError;
  Ok (mkGlyphObj name).
Section Draw.
Variable T : pytext.
Variable canon : str -> str.
(** the UFO version of the glyph set *)
Variable ufo : Z.
(** glifLib 82-84 with readGlyph (299-346): the calls the pen gets; the
    attributes set on the glyph object are left out here.  When reading fails, the
    calls made before are not recorded. *)
Definition drawPoints (o : glyphObj) (w : world) : res (list gcall) :=
  do b <- snd (getGLIF canon (glyphName o) w);
  do r <- gsReadBytes T ufo true true true b;
  Ok (rcalls r).
(** glifLib 75-80: PointToSegmentPen is made with outputImpliedClosingLine=False *)
Definition draw (o : glyphObj) (w : world) : res (list (scall coord (list pyval))) :=
  do cs <- drawPoints o w;
  pointToSegment (None : ident) false cs.
End Draw.
