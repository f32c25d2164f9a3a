(** Model of the stateful part of glifLib.GlyphSet: contents, caches, files.
    - The directory of the glyph set is a flat map from file names to bytes.
      [canon] maps a file name to the identity of the file it denotes: the
      identity function on a case-sensitive file system, lower-casing on a
      case-insensitive one.  Sub-directories, permissions and I/O errors are
      not modelled.
    - The bytes produced by _writeGlyphToBytes (or the exception it raises) are
      an argument of [writeGlyph]; C50-C59 are about that function.
    - plistlib.dumps/load on the contents dictionary are the parameters
      [dumps] and [loads]; C60-C64 are about them.
    - contents is a dictionary from text to text: a contents.plist of another
      shape makes [loads] fail (validated reading raises GlifLibError or
      UFOLibError there).
    Every operation records the file system operations it performs. *)
From Coq Require Import String NArith ZArith Bool Lia List.
From Verif Require Import Base Filenames.
Import ListNotations.
Local Open Scope string_scope.
Local Open Scope list_scope.

Notation bytes := (list N).
Definition dirT := list (str * bytes).

(** file system operations; [FTrunc] is opening a file for writing *)
Inductive fsop := FSet (f : str) (data : bytes) | FRemove (f : str) | FTrunc (f : str).

Record gset := mkGset {
  contents : list (str * str);
  existing : option (list (str * str));   (* _existingFileNames *)
  reverse : option (list (str * str));    (* _reverseContents *)
  havePrev : bool;                        (* _havePreviousFile *)
}.
Record world := mkWorld { gs : gset; dir : dirT; log : list fsop }.

(** computations that change the world and may raise *)
Definition M (A : Type) := world -> world * res A.
Definition ret {A} (a : A) : M A := fun w => (w, Ok a).
Definition raise {A} (e : exn) : M A := fun w => (w, Err e).
Definition mbind {A B} (m : M A) (f : A -> M B) : M B :=
  fun w => let '(w', r) := m w in match r with Ok a => f a w' | Err e => (w', Err e) end.
Notation "'let!' x := m 'in' k" := (mbind m (fun x => k)) (at level 200, x pattern, m at level 100, k at level 200, right associativity).
Definition getGs : M gset := fun w => (w, Ok (gs w)).
Definition setGs (g : gset) : M unit := fun w => (mkWorld g (dir w) (log w), Ok tt).
Definition lift {A} (r : res A) : M A := fun w => (w, r).

Section GlyphSet.
Variable canon : str -> str.
Variable lower : str -> str.
(** glyphNameToFileNameFunc, given the dictionary _existingFileNames *)
Variable toFileName : str -> list (str * str) -> res str.
Variable dumps : list (str * str) -> res bytes.
Variable loads : bytes -> res (list (str * str)).

Definition contentsName : str := u "contents.plist".

(** the effect of a file system operation on the directory *)
Definition applyOp (d : dirT) (o : fsop) : dirT :=
  match o with
  | FSet f data => set (canon f) data d
  | FRemove f => del (canon f) d
  | FTrunc f => set (canon f) [] d
  end.
Definition perform (o : fsop) : M unit := fun w => (mkWorld (gs w) (applyOp (dir w) o) (log w ++ [o]), Ok tt).

(** fs.exists, fs.getbytes, fs.setbytes, fs.remove *)
Definition fsExists (f : str) : M bool := fun w => (w, Ok (has (canon f) (dir w))).
Definition fsGetbytes (f : str) : M bytes := fun w => (w, match get (canon f) (dir w) with Some b => Ok b | None => Err FSError end).
Definition fsSetbytes (f : str) (data : bytes) : M unit := perform (FSet f data).
Definition fsRemove (f : str) : M unit :=
  let! e := fsExists f in if e then perform (FRemove f) else raise FSError.

(** __init__.py 134-160 and glifLib 171-204: rebuildContents (validated) *)
Definition checkFiles (d : dirT) (c : list (str * str)) : bool := forallb (fun nf => has (canon (snd nf)) d) c.
Definition rebuildContents : M unit :=
  fun w =>
    match (match get (canon contentsName) (dir w) with Some b => loads b | None => Ok [] end) with
    | Err e => (w, Err e)
    | Ok c =>
      if checkFiles (dir w) c
      then (mkWorld (mkGset c None None (havePrev (gs w))) (dir w) (log w), Ok tt)
      else (w, Err GlifLibError)
    end.

(** glifLib 105-164: opening a directory *)
Definition openSet (d : dirT) : world * res unit :=
  rebuildContents (mkWorld (mkGset [] None None (has (canon contentsName) d)) d []).

(** glifLib 206-220 *)
Definition invert (c : list (str * str)) : list (str * str) :=
  fold_left (fun d '(k, v) => set (lower v) k d) c [].
Definition getReverseContents : M (list (str * str)) :=
  let! g := getGs in
  match reverse g with
  | Some d => ret d
  | None => let d := invert (contents g) in
            let! _ := setGs (mkGset (contents g) (existing g) (Some d) (havePrev g)) in ret d
  end.

(** __init__.py 163-198 on contents.plist; glifLib 222-227.  When dumping
    fails, nothing has been written to the opened file: the tree is built
    first.  (plistlib.dump after openbin.) *)
Definition writeContents : M unit :=
  let! g := getGs in
  if havePrev g then
    let! data := lift (match dumps (contents g) with Ok b => Ok b | Err _ => Err UFOLibError end) in
    let! e := fsExists contentsName in
    let! same := (if e then let! old := fsGetbytes contentsName in ret (eqb data old) else ret false) in
    if same then ret tt else fsSetbytes contentsName data
  else
    let! _ := perform (FTrunc contentsName) in
    let! data := lift (match dumps (contents g) with Ok b => Ok b | Err _ => Err UFOLibError end) in
    perform (FSet contentsName data).

(** glifLib 279-297 *)
Definition getGLIF (name : str) : M bytes :=
  let! g := getGs in
  match get name (contents g) with
  | None => raise KeyError
  | Some f => fun w => (w, match get (canon f) (dir w) with Some b => Ok b | None => Err GlifLibError end)
  end.

(** glifLib 404-417: find or create the file name of a glyph *)
Definition existingOf (g : gset) : list (str * str) :=
  match existing g with
  | Some e => e
  | None => fold_left (fun d '(_, f) => set f (lower f) d) (contents g) []
  end.
Definition fileNameFor (name : str) : M str :=
  let! g := getGs in
  match get name (contents g) with
  | Some f => ret f
  | None =>
    let e := existingOf g in
    let! _ := setGs (mkGset (contents g) (Some e) (reverse g) (havePrev g)) in
    let! f := lift (toFileName name e) in
    let! _ := setGs (mkGset (set name f (contents g)) (Some (set f (lower f) e))
                            (match reverse g with Some r => Some (set (lower f) name r) | None => None end) (havePrev g)) in
    ret f
  end.
(** glifLib 358-428.  [badVersion] is the refusal of lines 388-401;
    [data] the result of _writeGlyphToBytes *)
Definition writeGlyph (name : str) (badVersion : bool) (data : res bytes) : M unit :=
  if badVersion then raise GlifLibError else
  let! f := fileNameFor name in
  let! data := lift data in
  let! g := getGs in
  let! same := (if havePrev g
                then let! e := fsExists f in if e then let! old := fsGetbytes f in ret (eqb data old) else ret false
                else ret false) in
  if same then ret tt else fsSetbytes f data.

(** glifLib 430-441; [del d[k]] raises KeyError for a missing key *)
Definition deleteGlyph (name : str) : M unit :=
  let! g := getGs in
  match get name (contents g) with
  | None => raise KeyError
  | Some f =>
    let! _ := fsRemove f in
    let! e := (match existing g with
               | None => ret None
               | Some e => if has f e then ret (Some (del f e)) else raise KeyError
               end) in
    let! _ := setGs (mkGset (contents g) e (reverse g) (havePrev g)) in
    let! r := (match reverse g with
               | None => ret None
               | Some r => if has (lower f) r then ret (Some (del (lower f) r)) else raise KeyError
               end) in
    setGs (mkGset (del name (contents g)) e r (havePrev g))
  end.

(** the calls a client can make *)
Inductive call :=
| CWrite (name : str) (badVersion : bool) (data : res bytes)
| CDelete (name : str)
| CWriteContents
| CRebuild
| CReverse
| CGet (name : str).
Definition exec (c : call) : M unit :=
  match c with
  | CWrite n b d => writeGlyph n b d
  | CDelete n => deleteGlyph n
  | CWriteContents => writeContents
  | CRebuild => rebuildContents
  | CReverse => let! _ := getReverseContents in ret tt
  | CGet n => let! _ := getGLIF n in ret tt
  end.
Definition run (cs : list call) (w : world) : world := fold_left (fun w c => fst (exec c w)) cs w.
End GlyphSet.

(** glifLib 414, 522-534: the default file name function gets the dictionary
    _existingFileNames, and [x in dictionary] looks at its keys *)
Definition defaultFileName (lower : str -> str) (name : str) (ex : list (str * str)) : res str :=
  glyphNameToFileName lower name (keys ex).
