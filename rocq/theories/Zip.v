(** Model of UFOWriter and UFOReader on a path of the local file system: opening
    a package or a zip archive, working on it, and close().
    - A zip archive is the tree of files that fs.zipfs.ZipFS shows; how the zip
      format stores it is not modelled.  A ZipFS opened for writing and a TempFS are
      file systems of their own (FS.v) that start empty; the archive is written
      when the ZipFS is closed.  This is what ufoLib relies on of the fs library.
    - Methods called after close() are not modelled, but close() itself is. *)
From Coq Require Import String NArith ZArith Bool Lia List.
From Verif Require Import Base Filenames PyVal PyText Kerning FS Ufo.
Import ListNotations.
Local Open Scope string_scope.
Local Open Scope list_scope.

(** what is at a path: nothing, a directory, a zip archive, another file *)
Inductive place := Nothing | Folder (t : node) | Archive (t : node) | OtherFile (b : bytes).
Definition destOf (p : place) : dest :=
  match p with Nothing => Missing true | Folder _ => AtDir | Archive _ => AtZip | OtherFile _ => AtFile end.

(** os.path.basename and the first part of os.path.splitext of a name *)
Definition basename (p : str) : str := last (split1 slash p) [].
Definition splitextRoot (name : str) : str :=
  match rev (split1 dot name) with
  | [] | [_] => name
  | _ :: r => let root := join [dot] (rev r) in if forallb (N.eqb dot) root then name else root
  end.
(** __init__.py 862 and 1575: the root directory of a new archive *)
Definition rootDir (p : str) : str := splitextRoot (basename p) ++ u ".ufo".

(** __init__.py 219-235 and 841-858: the only root directory of an archive,
    besides the metadata of macOS *)
Definition rootDirs (t : node) : list (str * node) :=
  filter (fun '(k, n) => (match n with Dir _ => true | File _ => false end) && negb (eqb k (u "__MACOSX"))) (entries t).
Definition rootOf (t : node) : res node :=
  match rootDirs t with [(_, n)] => Ok n | _ => Err UFOLibError end.
(** fs.copy.copy_fs into an empty file system *)
Definition copyFs (t : node) : res node := match merge t (Dir []) with Some t' => Ok t' | None => Err FSError end.

(** a UFOWriter: its constants, the structure of its UFO, its state, and whether
    its file system has been closed *)
Record wopen := mkOpen { wconf : wcfg; zipped : bool; ustate : ust; shut : bool }.

Section Zip.
Variable C : codec.
Variable T : pytext.
Variable lower : str -> str.

(** __init__.py 790-932 for a path whose directory exists.  The result is what
    is at the path afterwards and the new object.  [hp] of the configuration is
    not used: it is whether there is something at the path. *)
Definition openWriter (s : structArg) (version : Z) (fileCreator : pyval) (validate : bool) (p : place) : place * res wopen :=
  if negb (mem version supported) then (p, Err UFOLibError) else
  match structureOf s (destOf p) with
  | Err e => (p, Err e)
  | Ok (zip, _) =>
    let c := mkCfg version (match p with Nothing => false | _ => true end) fileCreator in
    if zip then
      match (match p with Archive t => do t' <- copyFs t; rootOf t' | _ => Ok (Dir []) end) with
      | Err e => (p, Err e)
      | Ok t =>
        match initWriter C T c validate (mkUst t [] [] None) with
        | (st, Ok _) => (p, Ok (mkOpen c true st false))
        | (_, Err e) => (p, Err e)
        end
      end
    else
      let t := match p with Folder t => t | _ => Dir [] end in
      match initWriter C T c validate (mkUst t [] [] None) with
      | (st, Ok _) => (Folder (tree st), Ok (mkOpen c false st false))
      | (st, Err e) => (Folder (tree st), Err e)
      end
  end.
(** a method of the writer: in a package it works on the files of the path, in an
    archive on those of the temporary file system *)
Definition onOpen {A} (m : wcfg -> M A) (p : place) (w : wopen) : place * wopen * res A :=
  let '(st, r) := m (wconf w) (ustate w) in
  ((if zipped w then p else Folder (tree st)), mkOpen (wconf w) (zipped w) st (shut w), r).
(** __init__.py 1571-1579.  Copying from a closed file system raises; leaving the
    with statement writes the archive nevertheless.  Closing the ZipFS of a new
    archive writes it, once. *)
Definition closeWriter (path : str) (p : place) (w : wopen) : place * wopen * res unit :=
  let closed := mkOpen (wconf w) (zipped w) (ustate w) true in
  if zipped w then
    if hp (wconf w) then
      if shut w then (Archive (Dir [(rootDir path, Dir [])]), w, Err FSError)
      else match copyFs (tree (ustate w)) with
           | Ok t => (Archive (Dir [(rootDir path, t)]), closed, Ok tt)
           | Err e => (Archive (Dir [(rootDir path, Dir [])]), w, Err e)
           end
    else ((if shut w then p else Archive (Dir [(rootDir path, tree (ustate w))])), closed, Ok tt)
  else (p, closed, Ok tt).
(** __init__.py 204-262: the file system that a UFOReader reads from *)
Definition readerRoot (p : place) : res node :=
  do s <- sniff (destOf p);
  match p with
  | Folder t => Ok t
  | Archive t => rootOf t
  | _ => Err UFOLibError
  end.

(** the methods of a UFOWriter that work on its files; [WOther] is anything else
    that a client does to the files, for example through a glyph set *)
Inductive wmethod :=
| WMaps (maps : list (str * str) * list (str * str))
| WGroups (v : pyval) (validate : bool)
| WKerning (v : pyval) (validate : bool)
| WLib (v : pyval) (validate : bool)
| WFeatures (v : pyval) (validate : bool)
| WInfo (v : pyval)
| WGetGlyphSet (name : option str) (defaultLayer validate : bool)
| WRename (name newName : option str) (defaultLayer : bool)
| WDelete (name : option str)
| WLayerContents (order : option (list (option str))) (validate : bool)
| WImage (fileName : str) (data : bytes) (validate : bool)
| WRemoveImage (fileName : str)
| WCopyImage (src : node) (from to : str)
| WCopy (src : node) (from to : str)
| WBytes (path : str) (data : bytes)
| WRemove (path : str) (force removeEmptyParents : bool)
| WOther (f : node -> node).
Definition wcall (m : wmethod) (c : wcfg) : M unit :=
  match m with
  | WMaps maps => setRenameMaps c maps
  | WGroups v b => writeGroups C c v b
  | WKerning v b => writeKerning C c v b
  | WLib v b => writeLib C c v b
  | WFeatures v b => writeFeatures c v b
  | WInfo v => writeInfoFile C c v
  | WGetGlyphSet n d b => let! _ := getGlyphSet C lower c n d b in ret tt
  | WRename n m d => renameGlyphSet lower c n m d
  | WDelete n => deleteGlyphSet c n
  | WLayerContents o b => writeLayerContents C c o b
  | WImage f d b => writeImage c f d b
  | WRemoveImage f => removeImage c f
  | WCopyImage s a b => copyImageFromReader c s a b
  | WCopy s a b => copyFromReader s a b
  | WBytes f d => writeBytesToPath (hp c) f d
  | WRemove f a b => removePath f a b
  | WOther f => let! t := getTree in change (OWrite []) (f t)
  end.
(** a session: a writer is made, methods are called, some of which may raise, and
    the writer is closed.  The results are what the constructor and the methods
    returned or raised. *)
Record session := mkSession { sversion : Z; screator : pyval; svalidate : bool; smethods : list wmethod }.
Fixpoint runMethods (ms : list wmethod) (p : place) (w : wopen) : place * wopen * list (res unit) :=
  match ms with
  | [] => (p, w, [])
  | m :: r =>
    let '(p', w', x) := onOpen (wcall m) p w in
    let '(p'', w'', xs) := runMethods r p' w' in (p'', w'', x :: xs)
  end.
Definition runSession (path : str) (a : structArg) (s : session) (p : place) : place * list (res unit) :=
  match openWriter a (sversion s) (screator s) (svalidate s) p with
  | (p', Err e) => (p', [Err e])
  | (p', Ok w) =>
    let '(p'', w', xs) := runMethods (smethods s) p' w in
    let '(q, _, x) := closeWriter path p'' w' in (q, Ok tt :: xs ++ [x])
  end.
Fixpoint runSessions (path : str) (a : structArg) (ss : list session) (p : place) : place * list (list (res unit)) :=
  match ss with
  | [] => (p, [])
  | s :: r =>
    let '(p', x) := runSession path a s p in
    let '(q, xs) := runSessions path a r p' in (q, x :: xs)
  end.
End Zip.
