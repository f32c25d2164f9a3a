(** Model of a client that writes a UFO 3: a UFOWriter (Ufo.v) together with the
    GlyphSet objects it hands out (GlyphSet.v), on one file system; and of reading
    it with a UFOReader and its glyph sets.
    - plistlib is the one of Plist.v and Etree.v, the GLIF writer and reader are
      those of Glif.v; all validation is switched on.
    - A glyph set works in the directory of its layer (__init__.py 1424-1430 and
      1463-1473: fs.opendir, glyphSetFileSystem): what it does there is what GlyphSet.v
      says about the files of that directory.  The file system is case-sensitive.
    - The client keeps one GlyphSet object for each layer: a second object that it
      gets for the same layer is dropped.  It drops the object of a layer that it
      renames or deletes, after saving its contents in the first case. *)
From Coq Require Import String NArith ZArith Bool Lia List Permutation.
From Coq.Floats Require Import SpecFloat.
From Verif Require Import Base PyVal PyText FloatRepr Filenames GlyphSet Xml FS Ufo Plist Etree PlistFiles PointPen Glif GlifProofs GlifOutline PropGlif FontInfo PropFontInfo PropSession.
Import ListNotations.
Local Open Scope string_scope.
Local Open Scope list_scope.

(** a writer, and the objects of its layers with their directories *)
Record fstate := mkFst { cfg : wcfg; writer : ust; sets : list (str * (path * gset)) }.

(** the files of a directory, and the directory after they have changed *)
Definition filesIn (n : node) : dirT :=
  flat_map (fun '(f, m) => match m with File b => [(f, b)] | Dir _ => [] end) (entries n).
Definition withFiles (n : node) (d : dirT) : node :=
  Dir (map (fun '(f, b) => (f, File b)) d ++ filter (fun '(_, m) => match m with Dir _ => true | File _ => false end) (entries n)).

(** what a client does *)
Inductive faction :=
| AInfo (info : list (str * pyval))
| AGroups (g : list (str * list pyval))
| AKerning (k : list (str * str * pyval))
| ALib (d : list (pyval * pyval))
| AFeatures (text : str)
| AImage (fileName : str) (data : bytes)
| ARemoveImage (fileName : str)
| AData (p : path) (data : bytes)
| ARemoveData (p : path)
| ALayer (name : option str) (defaultLayer : bool)
| AGlyph (layer name : str) (g : list (str * pyval)) (items : option (list gitem)) (fv : option Z)
| ACall (layer : str) (c : call)
| ALayerInfo (layer : str) (info : list (str * pyval))
| ADelete (layer : str)
| ARename (layer newName : str) (defaultLayer : bool)
| ASave (order : list str)
| AReopen (order : list str).

(** a path below the data directory *)
Definition dataPath (p : path) : str := join [slash] (nData :: p).

Section Font.
Variable T : pytext.
Variable R : spec_float -> str.
Variable ro : pyval -> str.
Variable lower : str -> str.
Variable toFileName : str -> list (str * str) -> res str.
Notation C := (plistCodec T R).

(** a call of the writer *)
Definition onWriter {A} (m : wcfg -> Ufo.M A) (s : fstate) : res (fstate * A) :=
  match m (cfg s) (writer s) with
  | (w, Ok a) => Ok (mkFst (cfg s) w (sets s), a)
  | (_, Err e) => Err e
  end.
Definition onWriter_ (m : wcfg -> Ufo.M unit) (s : fstate) : res fstate := do (s', _) <- onWriter m s; Ok s'.
(** a call of the glyph set of a layer *)
Definition onLayer (layer : str) (f : gset -> node -> res (gset * node)) (s : fstate) : res fstate :=
  match get layer (sets s) with
  | None => Err KeyError
  | Some (p, g) =>
    let w := writer s in
    match find (tree w) p with
    | None => Err FSError
    | Some n =>
      do (g', n') <- f g n;
      match put p n' (tree w) with
      | None => Err FSError
      | Some t => Ok (mkFst (cfg s) (mkUst t (Ufo.log w) (layers w) (remap w)) (set layer (p, g') (sets s)))
      end
    end
  end.
Definition glyphCall (c : call) (g : gset) (n : node) : res (gset * node) :=
  match GlyphSet.exec (fun f => f) lower toFileName (contentsDumps T R) (contentsLoads T) c (mkWorld g (filesIn n) []) with
  | (w, Ok _) => Ok (gs w, withFiles n (dir w))
  | (_, Err e) => Err e
  end.
Definition layerInfoCall (info : list (str * pyval)) (g : gset) (n : node) : res (gset * node) :=
  match writeLayerInfo C T 3 (havePrev g) info true (mkUst n [] [] None) with
  | (s, Ok _) => Ok (g, tree s)
  | (_, Err e) => Err e
  end.
(** __init__.py 1390-1397: the layer that getGlyphSet is about *)
Definition layerKey (name : option str) (s : fstate) : str :=
  match name with
  | Some n => n
  | None => match lastDefault (layers (writer s)) with Some n => n | None => u "public.default" end
  end.
(** __init__.py 1368-1473 and glifLib 105-164 *)
Definition getLayer (name : option str) (defaultLayer : bool) (s : fstate) : res fstate :=
  let key := layerKey name s in
  do (s1, r) <- onWriter (fun c => getGlyphSet C lower c name defaultLayer true) s;
  if has key (sets s1) then Ok s1 else
  do p <- components (fst r);
  match find (tree (writer s1)) p with
  | None => Err FSError
  | Some n =>
    match openSet (fun f => f) (contentsLoads T) (filesIn n) with
    | (w, Ok _) => Ok (mkFst (cfg s1) (writer s1) (set key (p, gs w) (sets s1)))
    | (_, Err e) => Err e
    end
  end.
(** the contents of all glyph sets, and the layer contents *)
Definition saveSets (s : fstate) : res fstate := foldM (fun s n => onLayer n (glyphCall CWriteContents) s) s (keys (sets s)).
Definition save (order : list str) (s : fstate) : res fstate :=
  do s1 <- saveSets s; onWriter_ (fun c => writeLayerContents C c (Some (map Some order)) true) s1.
(** a new UFOWriter for the same UFO: __init__.py 799-932 *)
Definition opened (c : wcfg) (t : node) : res fstate :=
  match initWriter C T c true (mkUst t [] [] None) with
  | (w, Ok _) => Ok (mkFst c w [])
  | (_, Err e) => Err e
  end.
Definition factOn (s : fstate) (a : faction) : res fstate :=
  match a with
  | AInfo info => do d <- writeInfo T 3 true info; onWriter_ (fun c => writeInfoFile C c (asDict d)) s
  | AGroups g => onWriter_ (fun c => writeGroups C c (groupsVal g) true) s
  | AKerning k => onWriter_ (fun c => writeKerning C c (pairsVal k) true) s
  | ALib d => onWriter_ (fun c => Ufo.writeLib C c (PDict d) true) s
  | AFeatures text => onWriter_ (fun c => writeFeatures c (PStr text) true) s
  | AImage f data => onWriter_ (fun c => Ufo.writeImage c f data true) s
  | ARemoveImage f => onWriter_ (fun c => removeImage c f) s
  | AData p data => onWriter_ (fun c => writeBytesToPath (hp c) (dataPath p) data) s
  | ARemoveData p => onWriter_ (fun _ => removePath (dataPath p) false true) s
  | ALayer name df => getLayer name df s
  | AGlyph layer n g items fv =>
    onLayer layer (glyphCall (CWrite n (negb (isOk (writeVersion 3 fv))) (gsWriteBytes T R ro 3 (PStr n) g (option_map gdrawing items) fv true))) s
  | ACall layer c => onLayer layer (glyphCall c) s
  | ALayerInfo layer info => onLayer layer (layerInfoCall info) s
  | ADelete layer =>
    do s1 <- onWriter_ (fun c => deleteGlyphSet c (Some layer)) s;
    Ok (mkFst (cfg s1) (writer s1) (del layer (sets s1)))
  | ARename layer newName df =>
    do s1 <- (if has layer (sets s) then onLayer layer (glyphCall CWriteContents) s else Ok s);
    do s2 <- onWriter_ (fun c => renameGlyphSet lower c (Some layer) (Some newName) df) s1;
    Ok (mkFst (cfg s2) (writer s2) (del layer (sets s2)))
  | ASave order => save order s
  | AReopen order => do s1 <- save order s; opened (mkCfg 3 true (creator (cfg s1))) (tree (writer s1))
  end.
(** a new UFO, and actions all of which succeed *)
Definition fsession (creator : pyval) (l : list faction) : res fstate :=
  do s <- opened (mkCfg 3 false creator) (Dir []); foldM factOn s l.

(** reading: __init__.py 622-662, glifLib 105-164 and 299-356 *)
Definition openLayer (t : node) (layer : option str) : res (node * GlyphSet.world) :=
  do (d, _) <- getGlyphSetR C 3 t layer true;
  do p <- components d;
  match find t p with
  | None => Err FSError
  | Some n => match openSet (fun f => f) (contentsLoads T) (filesIn n) with (w, Ok _) => Ok (n, w) | (_, Err e) => Err e end
  end.
Definition readLayerGlyph (t : node) (layer : option str) (name : str) : res greading :=
  do (_, w) <- openLayer t layer; readGlyphOf T 3 (fun f => f) name w.
(** glifLib 444-445 *)
Definition namesOfLayer (t : node) (layer : option str) : res (list str) :=
  do (_, w) <- openLayer t layer; Ok (keys (contents (gs w))).
Definition readInfoOfLayer (t : node) (layer : option str) : res (list (pyval * pyval)) :=
  do (n, _) <- openLayer t layer; readLayerInfo C T n true.
End Font.
