(** Model of UFOReader and UFOWriter (/repo/Lib/ufoLib/__init__.py 100-1625) on
    top of the file system of FS.v.
    - plistlib.load/dumps are the parameter [C : codec]; C60-C67 are about them.
    - validate=None (use the validate flag of the object) is resolved by the
      caller: every method takes the flag.
    - Log messages and warnings are not modelled; closing of file systems and zip
      archives are modelled in Zip.v (the structure decision of the constructor
      here: see [structureOf]).
    - Texts returned by reference (the cached groups of a converted UFO 1/2) are
      values here: a caller changing a returned dictionary in place is not
      modelled. *)
From Coq Require Import String NArith ZArith Bool Lia List.
From Coq.Floats Require Import SpecFloat.
From Verif Require Import Base Filenames PyVal PyText Validators Kerning FS.
Import ListNotations.
Local Open Scope string_scope.
Local Open Scope list_scope.

(** plistlib.dumps (or dump) and load; any exception of theirs is an [Err] *)
Record codec := mkCodec { dumps : pyval -> res bytes; loads : bytes -> res pyval }.

(** what is recorded of the changes made to the file system *)
Inductive fsop := OWrite (p : path) | ORemove (p : path) | OMakedir (p : path) | OMove (p q : path).

(** the file system and the mutable attributes of a UFOWriter: layerContents and
    _downConversionKerningData *)
Record ust := mkUst { tree : node; log : list fsop; layers : list (str * str); remap : option (list (str * str)) }.
(** the constant attributes of a UFOWriter: _formatVersion, _havePreviousFile,
    _fileCreator *)
Record wcfg := mkCfg { ver : Z; hp : bool; creator : pyval }.

Definition M (A : Type) := ust -> ust * res A.
Definition ret {A} (a : A) : M A := fun s => (s, Ok a).
Definition raise {A} (e : exn) : M A := fun s => (s, Err e).
Definition mbind {A B} (m : M A) (f : A -> M B) : M B :=
  fun s => let '(s', r) := m s in match r with Ok a => f a s' | Err e => (s', Err e) end.
Notation "'let!' x := m 'in' k" := (mbind m (fun x => k)) (at level 200, x pattern, m at level 100, k at level 200, right associativity).
Definition lift {A} (r : res A) : M A := fun s => (s, r).
Definition getTree : M node := fun s => (s, Ok (tree s)).
Definition getLayers : M (list (str * str)) := fun s => (s, Ok (layers s)).
Definition setLayers (l : list (str * str)) : M unit := fun s => (mkUst (tree s) (log s) l (remap s), Ok tt).
Definition getRemap : M (option (list (str * str))) := fun s => (s, Ok (remap s)).
Definition setRemap (m : option (list (str * str))) : M unit := fun s => (mkUst (tree s) (log s) (layers s) m, Ok tt).
Definition change (o : fsop) (t : node) : M unit := fun s => (mkUst t (log s ++ [o]) (layers s) (remap s), Ok tt).

(** __init__.py 81-93 *)
Definition nGlyphs : str := u "glyphs".
Definition nData : str := u "data".
Definition nImages : str := u "images".
Definition nMetainfo : str := u "metainfo.plist".
Definition nFontinfo : str := u "fontinfo.plist".
Definition nLib : str := u "lib.plist".
Definition nGroups : str := u "groups.plist".
Definition nKerning : str := u "kerning.plist".
Definition nFeatures : str := u "features.fea".
Definition nLayercontents : str := u "layercontents.plist".
Definition nLayerinfo : str := u "layerinfo.plist".
Definition nContents : str := u "contents.plist".
Definition nDefault : str := u "public.default".
(** __init__.py 95 *)
Definition supported : list Z := [1; 2; 3]%Z.

(** Python truth value *)
Definition truthy (v : pyval) : bool :=
  match v with
  | PNone => false
  | PBool b => b
  | PInt z => negb (Z.eqb z 0)
  | PFloat f => match f with S754_zero _ => false | _ => true end
  | PStr s => negb (eqb s [])
  | PBytes s => negb (eqb s [])
  | PList l | PTuple l => match l with [] => false | _ => true end
  | PDict d => match d with [] => false | _ => true end
  | PDate _ _ _ _ _ _ _ | POther _ => true
  end.

(** str.encode("utf8") and the strict decoder.  Surrogates can not be encoded. *)
Definition utf8Char (c : N) : option bytes :=
  if (c <? 0x80)%N then Some [c]
  else if (c <? 0x800)%N then Some [0xC0 + c / 64; 0x80 + c mod 64]%N
  else if ((0xD800 <=? c) && (c <? 0xE000))%N then None
  else if (c <? 0x10000)%N then Some [0xE0 + c / 4096; 0x80 + c / 64 mod 64; 0x80 + c mod 64]%N
  else if (c <? 0x110000)%N then Some [0xF0 + c / 262144; 0x80 + c / 4096 mod 64; 0x80 + c / 64 mod 64; 0x80 + c mod 64]%N
  else None.
Fixpoint utf8Encode (s : str) : res bytes :=
  match s with
  | [] => Ok []
  | c :: r => match utf8Char c with
              | None => Err ValueError
              | Some b => do rest <- utf8Encode r; Ok (b ++ rest)
              end
  end.
Definition cont (b : N) : bool := ((0x80 <=? b) && (b <? 0xC0))%N.
(** the decoder refuses overlong forms, surrogates and values above 0x10FFFF *)
Fixpoint utf8Decode (b : bytes) : res str :=
  match b with
  | [] => Ok []
  | a :: r =>
    if (a <? 0x80)%N then do s <- utf8Decode r; Ok (a :: s)
    else if (a <? 0xC2)%N then Err ValueError
    else if (a <? 0xE0)%N then
      match r with
      | x :: r' => if cont x then do s <- utf8Decode r'; Ok (((a - 0xC0) * 64 + (x - 0x80))%N :: s) else Err ValueError
      | _ => Err ValueError
      end
    else if (a <? 0xF0)%N then
      match r with
      | x :: y :: r' =>
        let c := ((a - 0xE0) * 4096 + (x - 0x80) * 64 + (y - 0x80))%N in
        if cont x && cont y && (0x800 <=? c)%N && negb ((0xD800 <=? c) && (c <? 0xE000))%N
        then do s <- utf8Decode r'; Ok (c :: s) else Err ValueError
      | _ => Err ValueError
      end
    else if (a <? 0xF5)%N then
      match r with
      | x :: y :: z :: r' =>
        let c := ((a - 0xF0) * 262144 + (x - 0x80) * 4096 + (y - 0x80) * 64 + (z - 0x80))%N in
        if cont x && cont y && cont z && (0x10000 <=? c)%N && (c <? 0x110000)%N
        then do s <- utf8Decode r'; Ok (c :: s) else Err ValueError
      | _ => Err ValueError
      end
    else Err ValueError
  end.

Section Ufo.
Variable C : codec.
Variable T : pytext.
Variable lower : str -> str.

(** * Shared methods *)
(** __init__.py 123-132 *)
Definition readBytesFromPath (t : node) (p : str) : res (option bytes) :=
  do cs <- components p;
  match getbytes t cs with
  | FOk b => Ok (Some b)
  | FErr ResourceNotFound => Ok None
  | FErr _ => Err FSError
  end.
(** __init__.py 135-160; [name] is a single component *)
Definition getPlist (t : node) (name : str) (default : option pyval) : res pyval :=
  match getbytes t [name] with
  | FOk b => match loads C b with Ok v => Ok v | Err _ => Err UFOLibError end
  | FErr ResourceNotFound => match default with None => Err UFOLibError | Some d => Ok d end
  | FErr _ => Err UFOLibError
  end.
Definition dumpsU (v : pyval) : res bytes := match dumps C v with Ok b => Ok b | Err _ => Err UFOLibError end.
Definition fsSetbytes (p : path) (b : bytes) : M unit :=
  let! t := getTree in
  match setbytes t p b with FOk t' => change (OWrite p) t' | FErr _ => raise FSError end.
(** __init__.py 163-198 *)
Definition writePlist (prev : bool) (name : str) (v : pyval) : M unit :=
  if prev then
    let! data := lift (dumpsU v) in
    let! t := getTree in
    if existsAt t [name] then
      match getbytes t [name] with
      | FErr _ => raise FSError
      | FOk old => if eqb data old then ret tt else fsSetbytes [name] data
      end
    else fsSetbytes [name] data
  else
    let! _ := fsSetbytes [name] [] in
    let! data := lift (dumpsU v) in
    fsSetbytes [name] data.

(** * UFOWriter: raw files *)
(** __init__.py 1044-1066 *)
Definition removePath (p : str) (force removeEmptyParents : bool) : M unit :=
  let! cs := lift (components p) in
  let! t := getTree in
  let! _ := (match remove t cs with
             | FOk t' => change (ORemove cs) t'
             | FErr FileExpected =>
               match removetree t cs with FOk t' => change (ORemove cs) t' | FErr _ => raise FSError end
             | FErr ResourceNotFound => if force then ret tt else raise UFOLibError
             | FErr _ => raise FSError
             end) in
  if removeEmptyParents then
    match dirname p with
    | [] => ret tt
    | parent =>
      let! ps := lift (components parent) in
      let! t := getTree in
      let '(t', e) := removeEmpty t (rev ps) in
      let! _ := change (ORemove ps) t' in
      match e with None => ret tt | Some _ => raise FSError end
    end
  else ret tt.
(** __init__.py 997-1015 *)
Definition writeBytesToPath (prev : bool) (p : str) (data : bytes) : M unit :=
  let! cs := lift (components p) in
  let! t := getTree in
  if prev && (match getbytes t cs with FOk old => eqb data old | FErr _ => false end) then ret tt else
  match setbytes t cs data with
  | FOk t' => change (OWrite cs) t'
  | FErr FileExpected => raise UFOLibError
  | FErr ResourceNotFound =>
    let! ps := lift (components (dirname p)) in
    match makedirs t ps with
    | FErr _ => raise FSError
    | FOk t' => let! _ := change (OMakedir ps) t' in fsSetbytes cs data
    end
  | FErr _ => raise FSError
  end.
(** __init__.py 976-995; [src] is the file system of the reader.  The destination
    can only exist after its parent has been made when the path ends in "/" or
    "/..": a file cannot be copied there, a directory can be copied into the empty
    directory just made.  Copying a directory to a path ending in "/.." would
    merge; this is not modelled and raises here. *)
Definition copyFromReader (src : node) (sourcePath destPath : str) : M unit :=
  let! sp := lift (components sourcePath) in
  match find src sp with
  | None => raise UFOLibError
  | Some n =>
    let! dp := lift (components destPath) in
    let! t := getTree in
    if existsAt t dp then raise UFOLibError else
    let! ps := lift (components (dirname destPath)) in
    match makedirs t ps with
    | FErr _ => raise FSError
    | FOk t1 =>
      let! _ := change (OMakedir ps) t1 in
      match n, find t1 dp with
      | _, None | Dir _, Some (Dir []) =>
        match put dp n t1 with
        | Some t2 => change (OWrite dp) t2
        | None => raise FSError
        end
      | _, _ => raise FSError
      end
    end
  end.

(** * UFOWriter: constructor *)
(** int(x): truncation of floats, parsing of text; ValueError and TypeError are
    both caught by the caller, OverflowError (an infinite float) is not.
    __init__.py 910-914 *)
Definition truncFloat (f : spec_float) : res Z :=
  match f with
  | S754_zero _ => Ok 0%Z
  | S754_infinity _ => Err OverflowError
  | S754_nan => Err ValueError
  | S754_finite s m e =>
    let a := (if (0 <=? e)%Z then Zpos m * 2 ^ e else Zpos m / 2 ^ (- e))%Z in
    Ok (if s then (- a)%Z else a)
  end.
Definition pyInt (v : pyval) : res Z :=
  match v with
  | PInt z => Ok z
  | PBool b => Ok (if b then 1 else 0)%Z
  | PFloat f => truncFloat f
  | PStr s => match parseInt T s with Some z => Ok z | None => Err ValueError end
  | PBytes s => match parseInt T s with Some z => Ok z | None => Err ValueError end
  | _ => Err TypeError
  end.
(** __init__.py 775-828 of validators.py on the file system *)
Definition layersValid (t : node) (v : pyval) : res bool :=
  layerContentsValidator (fun d => do cs <- components d; Ok (existsAt t cs)) v.
(** __init__.py 1311-1328.  Without validation, only a list of pairs of texts is
    modelled: anything else raises here. *)
Fixpoint asPairs (l : list pyval) : option (list (str * str)) :=
  match l with
  | [] => Some []
  | (PList [PStr n; PStr d] | PTuple [PStr n; PStr d]) :: r =>
    match asPairs r with Some ps => Some ((n, d) :: ps) | None => None end
  | _ => None
  end.
Definition readLayersW (t : node) (validate : bool) : res (list (str * str)) :=
  do raw <- getPlist t nLayercontents None;
  do ok <- (if validate then layersValid t raw else Ok true);
  check ok else UFOLibError;
  match asPairs (elems raw) with
  | Some ps => Ok (fold_left (fun d '(n, dir) => set n dir d) ps [])
  | None => Err ValueError
  end.
(** __init__.py 1089-1094 *)
Definition writeMetaInfo (c : wcfg) : M unit :=
  writePlist (hp c) nMetainfo (PDict [(PStr (u "creator"), creator c); (PStr (u "formatVersion"), PInt (ver c))]).
(** __init__.py 904-932; the file system has been opened and _havePreviousFile
    determined: for a path it says whether the path existed, for an FS object
    whether there is a metainfo.plist *)
Definition initWriter (c : wcfg) (validate : bool) : M unit :=
  let! _ := (if mem (ver c) supported then ret tt else raise UFOLibError) in
  let! t := getTree in
  let! prevVersion :=
    (if hp c then
       let! metaInfo := lift (getPlist t nMetainfo None) in
       match metaInfo with
       | PDict _ =>
         match pyInt (vget (u "formatVersion") metaInfo) with
         | Err OverflowError => raise OverflowError
         | Err _ => raise UFOLibError
         | Ok v => if mem v supported then ret (Some v) else raise UFOLibError
         end
       | _ => raise AttributeError
       end
     else ret None) in
  let! _ := (match prevVersion with Some v => if (ver c <? v)%Z then raise UFOLibError else ret tt | None => ret tt end) in
  let! _ := (match prevVersion with
             | Some v =>
               if (3 <=? v)%Z then let! l := lift (readLayersW t validate) in setLayers l
               else setLayers (if existsAt t [nGlyphs] then [(nDefault, nGlyphs)] else [])
             | None => setLayers (if existsAt t [nGlyphs] then [(nDefault, nGlyphs)] else [])
             end) in
  writeMetaInfo c.

(** * UFOWriter: groups, kerning, lib, features *)
(** __init__.py 1098-1121 *)
Definition setRenameMaps (c : wcfg) (maps : list (str * str) * list (str * str)) : M unit :=
  if (3 <=? ver c)%Z then ret tt else setRemap (Some (flipMaps maps)).
(** a dictionary from texts to sequences.  groupsValidator accepts nothing else;
    without validation other data is not modelled and raises here. *)
Fixpoint asGroups (l : list (pyval * pyval)) : option (list (str * list pyval)) :=
  match l with
  | [] => Some []
  | (PStr n, v) :: r => if is_seq v then match asGroups r with Some g => Some ((n, elems v) :: g) | None => None end else None
  | _ => None
  end.
Definition groupsVal (g : list (str * list pyval)) : pyval := PDict (map (fun '(n, l) => (PStr n, PList l)) g).
(** __init__.py 1123-1171 *)
Definition writeGroups (c : wcfg) (v : pyval) (validate : bool) : M unit :=
  if validate && negb (groupsValidator v) then raise UFOLibError else
  match v, asGroups (items v) with
  | PDict _, Some g =>
    let! m := getRemap in
    let g := match m with
             | Some r => if (ver c <? 3)%Z then remapGroups r g else g
             | None => g
             end in
    match g with
    | [] => if hp c then removePath nGroups true false else ret tt
    | _ => writePlist (hp c) nGroups (groupsVal g)
    end
  | _, _ => raise TypeError
  end.
(** a dictionary from pairs of texts to values; other data (possible only
    without validation) is not modelled and raises here *)
Fixpoint asKerning (l : list (pyval * pyval)) : option (list (str * str * pyval)) :=
  match l with
  | [] => Some []
  | (PTuple [PStr a; PStr b], v) :: r => match asKerning r with Some k => Some ((a, b, v) :: k) | None => None end
  | _ => None
  end.
(** __init__.py 1234-1247 *)
Definition kerningArgOk (v : pyval) : bool :=
  is_dict v && forallb (fun '(p, x) =>
    is_seq p && match elems p with [PStr _; PStr _] => true | _ => false end && is_number x) (items v).
Definition nestedVal (k : list (str * list (str * pyval))) : pyval :=
  PDict (map (fun '(a, inner) => (PStr a, PDict (map (fun '(b, x) => (PStr b, x)) inner))) k).
(** __init__.py 1217-1267 *)
Definition writeKerning (c : wcfg) (v : pyval) (validate : bool) : M unit :=
  if validate && negb (kerningArgOk v) then raise UFOLibError else
  match v, asKerning (items v) with
  | PDict _, Some k =>
    let! m := getRemap in
    let k := match m with
             | Some r => if (ver c <? 3)%Z then remapKerning r k else k
             | None => k
             end in
    match nest k with
    | [] => if hp c then removePath nKerning true false else ret tt
    | n => writePlist (hp c) nKerning (nestedVal n)
    end
  | _, _ => raise TypeError
  end.
(** __init__.py 1271-1288 *)
Definition writeLib (c : wcfg) (v : pyval) (validate : bool) : M unit :=
  if validate && negb (fontLibValidator v) then raise UFOLibError else
  if truthy v then writePlist (hp c) nLib v
  else if hp c then removePath nLib true false else ret tt.
(** __init__.py 1292-1307.  Without validation, features that are not text
    raise: of the modelled values only bytes have no encode method either. *)
Definition writeFeatures (c : wcfg) (v : pyval) (validate : bool) : M unit :=
  if Z.eqb (ver c) 1 then raise UFOLibError else
  if validate && negb (is_str v) then raise UFOLibError else
  if truthy v then
    match v with
    | PStr s => let! b := lift (utf8Encode s) in writeBytesToPath (hp c) nFeatures b
    | _ => raise AttributeError
    end
  else if hp c then removePath nFeatures true false else ret tt.
(** __init__.py 1212-1213; the conversion of the attributes is modelled in
    FontInfo.v, [v] is its result *)
Definition writeInfoFile (c : wcfg) (v : pyval) : M unit := writePlist (hp c) nFontinfo v.

(** * UFOWriter: layers *)
(** glifLib 105-204: the constructor of GlyphSet reads contents.plist *)
Fixpoint contentsOk (n : node) (l : list (pyval * pyval)) : res bool :=
  match l with
  | [] => Ok true
  | (k, PStr f) :: r =>
    do cs <- components f;
    check existsAt n cs else GlifLibError;
    do ok <- contentsOk n r;
    Ok (is_str k && ok)
  | _ :: r => do _ <- contentsOk n r; Ok false
  end.
Definition openGlyphSet (n : node) (validateRead : bool) : res pyval :=
  do contents <- getPlist n nContents (Some (PDict []));
  if validateRead then
    match contents with
    | PDict l => do ok <- contentsOk n l; check ok else GlifLibError; Ok contents
    | _ => Err GlifLibError
    end
  else Ok contents.
(** __init__.py 1411, 1423, 1463: makedir(recreate=True), an error is not caught *)
Definition fsMakedir (p : path) : M unit :=
  let! t := getTree in
  match makedir t p with
  | FErr _ => raise FSError
  | FOk t' => if existsAt t p then ret tt else change (OMakedir p) t'
  end.
Definition openDir (p : path) (validateRead : bool) : M pyval :=
  let! t := getTree in
  match find t p with Some n => lift (openGlyphSet n validateRead) | None => raise FSError end.
(** __init__.py 1330-1353; [order] = None stands for the argument None, the
    elements of the list for its elements *)
Definition writeLayerContents (c : wcfg) (order : option (list (option str))) (validate : bool) : M unit :=
  if (ver c <? 3)%Z then ret tt else
  let! l := getLayers in
  let names := match order with
               | Some o => map (fun n => match n with Some n => n | None => nDefault end) o
               | None => keys l
               end in
  if validate && negb (forallb (fun n => mem n (keys l)) names && forallb (fun n => mem n names) (keys l))
  then raise UFOLibError else
  let! pairs := lift (mapM (fun n => match get n l with Some d => Ok (PTuple [PStr n; PStr d]) | None => Err KeyError end) names) in
  writePlist (hp c) nLayercontents (PList pairs).
(** __init__.py 1355-1366 *)
Fixpoint findDirectory (l : list (str * str)) (layerName : option str) : res str :=
  match l with
  | [] => Err UFOLibError
  | (n, d) :: r =>
    if match layerName with None => eqb d nGlyphs | Some x => eqb n x end
    then match d with [] => Err UFOLibError | _ => Ok d end
    else findDirectory r layerName
  end.
(** __init__.py 1390-1397 *)
Definition lastDefault (l : list (str * str)) : option str :=
  fold_left (fun acc '(n, d) => if eqb d nGlyphs then Some n else acc) l None.
(** __init__.py 1451-1463 and 1507-1514 *)
Definition newDirectory (layerName : str) (l : list (str * str)) : res str :=
  userNameToFileName lower layerName (map lower (values l)) (u "glyphs.") [].
(** __init__.py 1432-1473 *)
Definition getGlyphSet3 (layerName : str) (defaultLayer validateRead : bool) : M (str * pyval) :=
  let! l := getLayers in
  if defaultLayer && existsb (fun '(n, d) => if eqb d nGlyphs then negb (eqb n layerName) else eqb n layerName) l
  then raise UFOLibError else
  let! directory := (match get layerName l with
                     | Some d => ret d
                     | None => if defaultLayer then ret nGlyphs else lift (newDirectory layerName l)
                     end) in
  let! cs := lift (components directory) in
  let! _ := fsMakedir cs in
  let! _ := setLayers (set layerName directory l) in
  let! contents := openDir cs validateRead in
  ret (directory, contents).
(** __init__.py 1368-1430.  In UFO 1 line 1411 makes a tuple, which the
    constructor of GlyphSet refuses. *)
Definition getGlyphSet (c : wcfg) (layerName : option str) (defaultLayer validateRead : bool) : M (str * pyval) :=
  if (ver c <? 3)%Z && (negb defaultLayer || match layerName with Some _ => true | None => false end)
  then raise UFOLibError else
  let! l := getLayers in
  let! name := (match layerName with
                | Some n => ret n
                | None => if defaultLayer
                          then ret (match lastDefault l with Some n => n | None => nDefault end)
                          else raise UFOLibError
                end) in
  if Z.eqb (ver c) 1 then
    let! _ := fsMakedir [nGlyphs] in raise TypeError
  else if Z.eqb (ver c) 2 then
    let! _ := fsMakedir [nGlyphs] in
    let! contents := openDir [nGlyphs] validateRead in
    ret (nGlyphs, contents)
  else getGlyphSet3 name defaultLayer validateRead.
(** __init__.py 1475-1516 *)
Definition renameGlyphSet (c : wcfg) (layerName newLayerName : option str) (defaultLayer : bool) : M unit :=
  if (ver c <? 3)%Z then ret tt else
  let! l := getLayers in
  let! go := (if eqb layerName newLayerName then
                match layerName with
                | None => raise KeyError
                | Some n =>
                  match get n l with
                  | None => raise KeyError
                  | Some d => ret (xorb (eqb d nGlyphs) defaultLayer, n)
                  end
                end
              else
                let new := match newLayerName with Some n => n | None => nDefault end in
                if has new l then raise UFOLibError else
                if defaultLayer && mem nGlyphs (values l) then raise UFOLibError else
                ret (true, new)) in
  let '(proceed, new) := go in
  if negb proceed then ret tt else
  let! oldDirectory := lift (findDirectory l layerName) in
  let! directory := (if defaultLayer then ret nGlyphs else lift (newDirectory new l)) in
  match layerName with
  | None => raise KeyError
  | Some n =>
    if has n l then
      let! _ := setLayers (set new directory (del n l)) in
      let! src := lift (components oldDirectory) in
      let! dst := lift (components directory) in
      let! t := getTree in
      let '(t', e) := movedir t src dst in
      let! _ := change (OMove src dst) t' in
      match e with None => ret tt | Some _ => raise FSError end
    else raise KeyError
  end.
(** __init__.py 1518-1528 *)
Definition deleteGlyphSet (c : wcfg) (layerName : option str) : M unit :=
  if (ver c <? 3)%Z then ret tt else
  let! l := getLayers in
  let! d := lift (findDirectory l layerName) in
  let! _ := removePath d false false in
  match layerName with
  | Some n => if has n l then setLayers (del n l) else raise KeyError
  | None => raise KeyError
  end.

(** * UFOWriter: images *)
(** __init__.py 1532-1546 *)
Definition imagePath (fileName : str) : str := nImages ++ [slash] ++ fileName.
Definition writeImage (c : wcfg) (fileName : str) (data : bytes) (validate : bool) : M unit :=
  if (ver c <? 3)%Z then raise UFOLibError else
  if validate && negb (pngValidator data) then raise UFOLibError else
  writeBytesToPath (hp c) (imagePath fileName) data.
(** __init__.py 1548-1555 *)
Definition removeImage (c : wcfg) (fileName : str) : M unit :=
  if (ver c <? 3)%Z then raise UFOLibError else removePath (imagePath fileName) false true.
(** __init__.py 1557-1569 *)
Definition copyImageFromReader (c : wcfg) (src : node) (sourceFileName destFileName : str) : M unit :=
  if (ver c <? 3)%Z then raise UFOLibError else
  copyFromReader src (imagePath sourceFileName) (imagePath destFileName).

(** * UFOReader *)
(** __init__.py 374-398: the format version.  Without validation, versions that
    are not integers are not modelled and raise here. *)
Definition readMetaInfo (t : node) (validate : bool) : res Z :=
  do data <- getPlist t nMetainfo None;
  check negb (validate && negb (is_dict data)) else UFOLibError;
  match data with
  | PDict d =>
    match dget (u "formatVersion") d with
    | None => Err KeyError
    | Some v =>
      match v with
      | PInt _ | PBool _ =>
        let z := match v with PInt z => z | PBool b => if b then 1%Z else 0%Z | _ => 0%Z end in
        check negb (validate && negb (mem z supported)) else UFOLibError;
        Ok z
      | _ => if validate then Err UFOLibError else Err TypeError
      end
    end
  | _ => Err TypeError
  end.
(** __init__.py 402-403 and 512-514 *)
Definition readGroupsRaw (t : node) : res pyval := getPlist t nGroups (Some (PDict [])).
Definition readKerningRaw (t : node) : res pyval := getPlist t nKerning (Some (PDict [])).
(** __init__.py 320-331 *)
Definition rawGroupsOk (v : pyval) : bool :=
  is_dict v && forallb (fun '(k, l) => is_str k && is_list l && forallb is_str (elems l)) (items v).

(** the attribute _upConvertedKerningData; "groupRenameMaps" is missing until
    the conversion has succeeded *)
Record upc := mkUpc { upKerning : pyval; origKerning : pyval; upGroups : pyval; origGroups : pyval; upMaps : option pyval }.
Section Reader.
(** convertUFO1OrUFO2KerningToUFO3Kerning on unvalidated data; modelled in
    Kerning.v for well-formed data *)
Variable conv : pyval -> pyval -> res (pyval * pyval * pyval).
(** __init__.py 301-346; the cache is set before the conversion *)
Definition upConvert (t : node) (cache : option upc) (validate : bool) : option upc * res unit :=
  match cache with
  | Some d =>
    (cache,
     do k <- readKerningRaw t;
     check py_eq k (origKerning d) else UFOLibError;
     do g <- readGroupsRaw t;
     check py_eq g (origGroups d) else UFOLibError;
     Ok tt)
  | None =>
    match readGroupsRaw t with
    | Err e => (None, Err e)
    | Ok g =>
      if validate && negb (rawGroupsOk g) then (None, Err UFOLibError) else
      match readKerningRaw t with
      | Err e => (None, Err e)
      | Ok k =>
        match conv k g with
        | Err e => (Some (mkUpc (PDict []) k (PDict []) g None), Err e)
        | Ok (k', g', m) => (Some (mkUpc k' k g' g (Some m)), Ok tt)
        end
      end
    end
  end.
(** __init__.py 405-424; the cache is always set when upConvert succeeds *)
Definition readGroups (v : Z) (t : node) (cache : option upc) (validate : bool) : option upc * res pyval :=
  let '(cache', r) :=
    if (v <? 3)%Z then
      let '(cache', r) := upConvert t cache validate in
      (cache', do _ <- r; match cache' with Some d => Ok (upGroups d) | None => Err TypeError end)
    else (cache, readGroupsRaw t) in
  (cache', do g <- r; check negb (validate && negb (groupsValidator g)) else UFOLibError; Ok g).
(** __init__.py 537-542: a mapping from pairs to values.  Without validation
    other shapes than a dictionary of dictionaries with text keys are not modelled
    and raise here. *)
Fixpoint asInner (l : list (pyval * pyval)) : option (list (str * pyval)) :=
  match l with
  | [] => Some []
  | (PStr b, x) :: r => match asInner r with Some i => Some ((b, x) :: i) | None => None end
  | _ => None
  end.
Fixpoint asNested (l : list (pyval * pyval)) : option (list (str * list (str * pyval))) :=
  match l with
  | [] => Some []
  | (PStr a, PDict inner) :: r =>
    match asInner inner, asNested r with Some i, Some n => Some ((a, i) :: n) | _, _ => None end
  | _ => None
  end.
Definition pairsVal (k : list (str * str * pyval)) : pyval :=
  PDict (map (fun '(p, x) => (PTuple [PStr (fst p); PStr (snd p)], x)) k).
(** __init__.py 516-542 *)
Definition readKerning (v : Z) (t : node) (cache : option upc) (validate : bool) : option upc * res pyval :=
  let '(cache', r) :=
    if (v <? 3)%Z then
      let '(cache', r) := upConvert t cache validate in
      (cache', do _ <- r; match cache' with Some d => Ok (upKerning d) | None => Err TypeError end)
    else (cache, readKerningRaw t) in
  (cache',
   do k <- r;
   check negb (validate && negb (kerningValidator k)) else UFOLibError;
   match k, asNested (items k) with
   | PDict _, Some n => Ok (pairsVal (flatten n))
   | _, _ => Err TypeError
   end).
(** __init__.py 426-450 *)
Definition readRenameMaps (v : Z) (t : node) (cache : option upc) (validate : bool) : option upc * res pyval :=
  if (3 <=? v)%Z then (cache, Ok (PDict [(PStr (u "side1"), PDict []); (PStr (u "side2"), PDict [])])) else
  let '(cache', r) := readGroups v t cache validate in
  (cache', do _ <- r;
           match cache' with
           | Some d => match upMaps d with Some m => Ok m | None => Err KeyError end
           | None => Err TypeError
           end).
End Reader.
(** convertUFO1OrUFO2KerningToUFO3Kerning (Kerning.v) on plist values: [None] of
    the readers below stands for data on which it raises AttributeError or
    TypeError (kerning that is not a dictionary of dictionaries), or, without
    validation, for groups that are not lists of texts, which are not modelled *)
Fixpoint asTexts (l : list pyval) : option (list str) :=
  match l with
  | [] => Some []
  | PStr s :: r => match asTexts r with Some ss => Some (s :: ss) | None => None end
  | _ => None
  end.
Fixpoint asTextGroups (l : list (pyval * pyval)) : option (list (str * list str)) :=
  match l with
  | [] => Some []
  | (PStr n, PList m) :: r =>
    match asTexts m, asTextGroups r with Some ss, Some g => Some ((n, ss) :: g) | _, _ => None end
  | _ => None
  end.
Definition mapVal (m : list (str * str)) : pyval := PDict (map (fun '(a, b) => (PStr a, PStr b)) m).
Definition convPy (perm : list str -> list str) (k g : pyval) : res (pyval * pyval * pyval) :=
  match k, g with
  | PDict kd, PDict gd =>
    match asNested kd, asTextGroups gd with
    | Some kn, Some gs =>
      match convertKerning perm kn gs with
      | Ok (k', g', (m1, m2)) =>
        Ok (nestedVal k', groupsVal (map (fun '(n, l) => (n, map PStr l)) g'),
            PDict [(PStr (u "side1"), mapVal m1); (PStr (u "side2"), mapVal m2)])
      | Err e => Err e
      end
    | _, _ => Err AttributeError
    end
  | _, _ => Err AttributeError
  end.
(** __init__.py 546-560 *)
Definition readLib (t : node) (validate : bool) : res pyval :=
  do data <- getPlist t nLib (Some (PDict []));
  check negb (validate && negb (fontLibValidator data)) else UFOLibError;
  Ok data.
(** __init__.py 454-458 *)
Definition readInfoFile (t : node) (validate : bool) : res pyval :=
  do data <- getPlist t nFontinfo (Some (PDict []));
  check negb (validate && negb (is_dict data)) else UFOLibError;
  Ok data.
(** __init__.py 564-573 (no newline translation: fs.open uses newline="") *)
Definition readFeatures (t : node) : res str :=
  match getbytes t [nFeatures] with
  | FOk b => utf8Decode b
  | FErr ResourceNotFound => Ok []
  | FErr _ => Err FSError
  end.
(** __init__.py 577-591.  Without validation other shapes than a list of pairs
    of texts are not modelled and raise here. *)
Definition readLayersR (v : Z) (t : node) (validate : bool) : res (list (str * str)) :=
  if (v <? 3)%Z then Ok [(nDefault, nGlyphs)] else
  do raw <- getPlist t nLayercontents None;
  do ok <- (if validate then layersValid t raw else Ok true);
  check ok else UFOLibError;
  match asPairs (elems raw) with Some ps => Ok ps | None => Err ValueError end.
(** __init__.py 593-604 *)
Definition getLayerNames (v : Z) (t : node) (validate : bool) : res (list str) :=
  do l <- readLayersR v t validate; Ok (map fst l).
(** __init__.py 606-620 *)
Fixpoint defaultName (l : list (str * str)) : res str :=
  match l with
  | [] => Err UFOLibError
  | (n, d) :: r => if eqb d nGlyphs then Ok n else defaultName r
  end.
Definition getDefaultLayerName (v : Z) (t : node) (validate : bool) : res str :=
  do l <- readLayersR v t validate; defaultName l.
(** __init__.py 622-662: the directory of the layer and its contents *)
Definition getGlyphSetR (v : Z) (t : node) (layerName : option str) (validateRead : bool) : res (str * pyval) :=
  do name <- (match layerName with Some n => Ok n | None => getDefaultLayerName v t validateRead end);
  do l <- readLayersR v t validateRead;
  match get name l with
  | None => Err UFOLibError
  | Some d =>
    do cs <- components d;
    match find t cs with
    | None => Err UFOLibError
    | Some (File _) => Err FSError
    | Some n => do contents <- openGlyphSet n validateRead; Ok (d, contents)
    end
  end.
(** __init__.py 672-680: [unicodes] is the dictionary returned by getUnicodes *)
Definition characterMapping (unicodes : list (str * list Z)) : list (Z * list str) :=
  fold_left (fun cmap '(glyphName, codes) =>
    fold_left (fun cmap code =>
      match get code cmap with
      | Some l => set code (l ++ [glyphName]) cmap
      | None => set code [glyphName] cmap
      end) codes cmap) unicodes [].
(** __init__.py 684-699: the paths, as components *)
Definition getDataDirectoryListing (t : node) : list path :=
  match find t [nData] with
  | Some (Dir es) => walkFiles (Dir es)
  | _ => []
  end.
(** __init__.py 701-732 *)
Definition getImageDirectoryListing (v : Z) (t : node) (validate : bool) : res (list str) :=
  if (v <? 3)%Z then Ok [] else
  match find t [nImages] with
  | None => Ok []
  | Some (File _) => Err UFOLibError
  | Some (Dir es) =>
    Ok (map fst (filter (fun '(_, n) => match n with
                                        | Dir _ => false
                                        | File b => negb validate || pngValidator b
                                        end) es))
  end.
(** __init__.py 734-758 *)
Definition readImage (v : Z) (t : node) (fileName : str) (validate : bool) : res bytes :=
  if (v <? 3)%Z then Err UFOLibError else
  match find t [nImages] with
  | Some (Dir es) =>
    do cs <- components fileName;
    match getbytes (Dir es) cs with
    | FErr _ => Err FSError
    | FOk data => check negb (validate && negb (pngValidator data)) else UFOLibError; Ok data
    end
  | _ => Err FSError
  end.

(** * Layer info: glifLib 229-279 (the root of the tree is the glyphs directory).
    [info] lists the attributes of the info object; only those of
    layerInfoVersion3ValueData (glifLib 814-817) are looked at, in its order. *)
Definition layerAttrs : list str := [u "color"; u "lib"].
(** glifLib 260-271 *)
Definition gatherLayerInfo (info : list (str * pyval)) : list (str * pyval) :=
  flat_map (fun a => match get a info with
                     | None | Some PNone => []
                     | Some v => if eqb a (u "lib") && negb (truthy v) then [] else [(a, v)]
                     end) layerAttrs.
Definition infoVal (l : list (str * pyval)) : pyval := PDict (map (fun '(a, v) => (PStr a, v)) l).
(** glifLib 819-862: validateLayerInfoVersion3Data returns its argument *)
Definition layerInfoOk (l : list (pyval * pyval)) : bool :=
  forallb (fun '(a, v) => match a with
                          | PStr n => if eqb n (u "color") then colorValidator T v
                                      else if eqb n (u "lib") then is_dict v else false
                          | _ => false
                          end) l.
(** glifLib 251-279 *)
Definition writeLayerInfo (v : Z) (prev : bool) (info : list (str * pyval)) (validate : bool) : M unit :=
  if (v <? 3)%Z then raise GlifLibError else
  match gatherLayerInfo info with
  | [] =>
    let! t := getTree in
    if prev && existsAt t [nLayerinfo] then
      match remove t [nLayerinfo] with FOk t' => change (ORemove [nLayerinfo]) t' | FErr _ => raise FSError end
    else ret tt
  | l =>
    if validate && negb (layerInfoOk (items (infoVal l))) then raise GlifLibError else
    writePlist prev nLayerinfo (infoVal l)
  end.
(** glifLib 232-249: the attributes set on the object; setattr is assumed to work.  Without
    validation an infoDict that is no dictionary raises AttributeError *)
Definition readLayerInfo (t : node) (validate : bool) : res (list (pyval * pyval)) :=
  do d <- getPlist t nLayerinfo (Some (PDict []));
  if validate then
    match d with
    | PDict l => check layerInfoOk l else GlifLibError; Ok l
    | _ => Err GlifLibError
    end
  else match d with PDict l => Ok l | _ => Err AttributeError end.
End Ufo.

(** * Choice of the file structure: __init__.py 799-864 and 1593-1609.
    [dest] is what is at the path. *)
Inductive structure := ZIP | PACKAGE.
(** the structure argument: None, an enum member, or a text; a text that is not
    converted keeps its own identity *)
Inductive structArg := ANone | AEnum (s : structure) | AText (s : str).
Inductive dest := Missing (parentIsDir : bool) | AtZip | AtDir | AtFile.
(** _sniffFileStructure 1593-1609 *)
Definition sniff (d : dest) : res structure :=
  match d with AtZip => Ok ZIP | AtDir => Ok PACKAGE | AtFile | Missing _ => Err UFOLibError end.
(** UFOFileStructure(structure) *)
Definition toEnum (a : structArg) : res structure :=
  match a with
  | AEnum s => Ok s
  | AText s => if eqb s (u "zip") then Ok ZIP else if eqb s (u "package") then Ok PACKAGE else Err ValueError
  | ANone => Err ValueError
  end.
Definition structure_eqb (a b : structure) : bool := match a, b with ZIP, ZIP | PACKAGE, PACKAGE => true | _, _ => false end.
(** result: is a zip archive written, and the attribute _fileStructure *)
Definition structureOf (a : structArg) (d : dest) : res (bool * structArg) :=
  do s <- (match d with
           | Missing parentIsDir =>
             check parentIsDir else UFOLibError;
             Ok (match a with ANone => AEnum PACKAGE | _ => a end)
           | _ =>
             do ex <- sniff d;
             match a with
             | ANone => Ok (AEnum ex)
             | _ => match toEnum a with
                    | Err _ => Err UFOLibError
                    | Ok s => check structure_eqb s ex else UFOLibError; Ok (AEnum s)
                    end
             end
           end);
  Ok (match s with AEnum ZIP => true | _ => false end, s).

(** * makeUFOPath: __init__.py 1612-1625, with os.path.split and os.path.join of
    posixpath *)
(** posixpath.split: the head keeps its trailing slashes only if it consists of
    slashes *)
Definition rstripSlash (s : str) : str := rev (lstrip (fun c => N.eqb c slash) (rev s)).
Definition posixSplit (p : str) : str * str :=
  match rev (split1 slash p) with
  | [] => ([], p)
  | [x] => ([], x)
  | tail :: r =>
    let head := join [slash] (rev r) ++ [slash] in
    (match rstripSlash head with [] => head | h => h end, tail)
  end.
Definition posixJoin (a b : str) : str :=
  if startswith [slash] b then b
  else match rev a with
       | [] => b
       | c :: _ => if N.eqb c slash then a ++ b else a ++ [slash] ++ b
       end.
Definition dot : N := 46%N.
Definition makeUFOPath (p : str) : str :=
  let '(dir, name) := posixSplit p in
  posixJoin dir (join [dot] [join [dot] (removelast (split1 dot name)); u "ufo"]).
