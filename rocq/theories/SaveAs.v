(** Model of a client that loads a whole UFO and saves it under another name as UFO 3:
    the calls of a UFOReader and its glyph sets, and those of a UFOWriter for a new
    UFO with the data that was read (Font.v).  No code of its own.
    - All validation is switched on; glyphs are written as GLIF 2, the default.
    - The glyph object and the info objects keep every attribute set on them.
    - Modification times are not kept. *)
From Coq Require Import String NArith ZArith Bool Lia List Permutation.
From Coq.Floats Require Import SpecFloat.
From Verif Require Import Base PyVal PyText FloatRepr Filenames GlyphSet Xml FS Ufo Plist Etree PlistFiles PointPen PropPointPen Glif GlifProofs GlifOutline GlifAccepted PropGlif FontInfo PropFontInfo PropSession Font.
Import ListNotations.
Local Open Scope string_scope.
Local Open Scope list_scope.

(** what was read; the layers in the order of layercontents.plist *)
Record ufont := mkUfont {
  uInfo : list (str * pyval); uGroups : list (str * list pyval); uKerning : list (str * str * pyval);
  uLib : list (pyval * pyval); uFeatures : str; uImages : list (str * bytes); uData : list (path * bytes);
  uLayers : list (str * (list (str * greading) * list (str * pyval))); uDefault : str }.

Section SaveAs.
Variable T : pytext.
Variable R : spec_float -> str.
Notation C := (plistCodec T R).

Definition orTypeError {A} (x : option A) : res A := match x with Some a => Ok a | None => Err TypeError end.
(** __init__.py 622-662, glifLib 105-164 *)
Definition openLayerOf (v : Z) (t : node) (layer : str) : res (node * GlyphSet.world) :=
  do (d, _) <- getGlyphSetR C v t (Some layer) true;
  do p <- components d;
  match find t p with
  | None => Err FSError
  | Some n => match openSet (fun f => f) (contentsLoads T) (filesIn n) with (w, Ok _) => Ok (n, w) | (_, Err e) => Err e end
  end.
(** glifLib 229-249, 299-356, 444-445 *)
Definition loadLayer (v : Z) (t : node) (name : str) : res (str * (list (str * greading) * list (str * pyval))) :=
  do (n, w) <- openLayerOf v t name;
  do glyphs <- mapM (fun g => do r <- readGlyphOf T v (fun f => f) g w; Ok (g, r)) (keys (contents (gs w)));
  do l <- readLayerInfo C T n true;
  do info <- orTypeError (asInner l);
  Ok (name, (glyphs, info)).
(** __init__.py 374-758; [perm] and [perm'] are the orders of the sets of
    attributes of UFO 1 and of kerning groups *)
Definition loadUfo (perm perm' : list str -> list str) (t : node) : res ufont :=
  do v <- readMetaInfo C t true;
  do rawInfo <- readInfoFile C t true;
  do info <- readInfo T perm v true rawInfo;
  let '(cache, g) := readGroups C (convPy perm') v t None true in
  do g <- g;
  do groups <- orTypeError (asGroups (items g));
  do k <- snd (readKerning C (convPy perm') v t cache true);
  do kerning <- orTypeError (asKerning (items k));
  do lib <- Ufo.readLib C t true;
  do features <- readFeatures t;
  do imageNames <- getImageDirectoryListing v t true;
  do images <- mapM (fun f => do b <- Ufo.readImage v t f true; Ok (f, b)) imageNames;
  do data <- mapM (fun p => do o <- readBytesFromPath t (dataPath p); do b <- orTypeError o; Ok (p, b)) (getDataDirectoryListing t);
  do names <- getLayerNames C v t true;
  do default <- getDefaultLayerName C v t true;
  do layers <- mapM (loadLayer v t) names;
  Ok (mkUfont info groups kerning (items lib) features images data layers default).
End SaveAs.

(** the contours and components that a list of calls of a point pen draws *)
Fixpoint grouped (cs : list gcall) (open : option (ident * list gpoint)) : list gitem :=
  match cs with
  | [] => []
  | PBegin i :: r => grouped r (Some (i, []))
  | PAdd p :: r => grouped r (match open with Some (i, pts) => Some (i, pts ++ [p]) | None => None end)
  | PEnd :: r => match open with Some (i, pts) => GContour (theId i) pts :: grouped r None | None => grouped r None end
  | PComponent b t i :: r => GComponent b t (theId i) :: grouped r None
  end.
(** ... with identifiers passed as None where there are none *)
Definition regroup (cs : list gcall) : list gitem := grouped (map asPassed cs) None.

(** writing it all: __init__.py 1123-1586, glifLib 251-279 and 358-403 *)
Definition saveLayer (default : str) (l : str * (list (str * greading) * list (str * pyval))) : list faction :=
  let '(n, (glyphs, info)) := l in
  ALayer (Some n) (eqb n default) ::
  map (fun '(g, r) => AGlyph n g (rattrs r) (Some (regroup (rcalls r))) None) glyphs ++ [ALayerInfo n info].
Definition saveAll (f : ufont) : list faction :=
  [AInfo (uInfo f); AGroups (uGroups f); AKerning (uKerning f); ALib (uLib f); AFeatures (uFeatures f)] ++
  map (fun '(n, b) => AImage n b) (uImages f) ++
  map (fun '(p, b) => AData p b) (uData f) ++
  flat_map (saveLayer (uDefault f)) (uLayers f).
(** [saveAs t]: what is in the file system after saving [t] under another name *)
Definition saveAs (T : pytext) (R : spec_float -> str) (ro : pyval -> str) (lower : str -> str) (toFileName : str -> list (str * str) -> res str) (creator : pyval) (f : ufont) : res node :=
  do s <- fsession T R ro lower toFileName creator (saveAll f);
  do s' <- save T R lower toFileName (map fst (uLayers f)) s;
  Ok (tree (writer s')).
(** a client that changes a UFO 3 in place: __init__.py 799-932 *)
Definition editing (T : pytext) (R : spec_float -> str) (ro : pyval -> str) (lower : str -> str) (toFileName : str -> list (str * str) -> res str) (creator : pyval) (t : node) (l : list faction) : res fstate :=
  do s <- opened T R (mkCfg 3 true creator) t; foldM (factOn T R ro lower toFileName) s l.
