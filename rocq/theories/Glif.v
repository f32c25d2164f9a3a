(** glifLib.py: the GLIF writer and reader (lines 536-808 and 864-1621).
    The glyph object to be written is the list of its attributes; a missing
    attribute and a glyph object None are the same to [getattr(o, a, None)].
    The glyph object to be read into accepts every attribute; the pen given to the
    reader accepts every call, with identifiers.
    A point has two coordinates (or pt=None); names, identifiers and base glyph
    names of pen calls are strings, smooth is a boolean.
    repr of objects other than None, numbers and booleans is a parameter.
    What has been done to the glyph object or drawn before an exception is not
    recorded. *)
From Coq Require Import String NArith ZArith Bool Lia List.
From Coq.Floats Require Import SpecFloat.
From Verif Require Import Base PyVal PyText Xml FS Ufo Plist Etree Validators PointPen.
Import ListNotations.
Local Open Scope string_scope.
Local Open Scope list_scope.

(** pen calls: PointPen.v with pairs of numbers as coordinates, tuples as
    transformations and the identifier as the only further argument of addPoint
    ([None] means not passed, [Some None] passed as None) *)
Notation coord := (pyval * pyval)%type.
Notation ident := (option (option str)).
Notation gpoint := (@point coord ident).
Notation gcall := (@pcall coord (list pyval) ident).
Definition theId (i : ident) : option str := match i with Some x => x | None => None end.

(** glifLib 1505-1513 *)
Definition transformationInfo : list (str * Z) :=
  [(u "xScale", 1%Z); (u "xyScale", 0%Z); (u "yxScale", 0%Z); (u "yScale", 1%Z); (u "xOffset", 0%Z); (u "yOffset", 0%Z)].

(** * Hexadecimal numbers *)
Definition hexChar (d : N) : N := if (d <? 10)%N then (48 + d)%N else (55 + d)%N.
Fixpoint hexLoop (fuel : nat) (n : N) (acc : str) : str :=
  match fuel with
  | O => acc
  | S f => let acc := hexChar (n mod 16) :: acc in if (n <? 16)%N then acc else hexLoop f (n / 16) acc
  end.
Definition hexStr (n : N) : str := hexLoop (S (N.size_nat n)) n [].
(** "%04X" % z *)
Definition hex04 (z : Z) : str :=
  if (z <? 0)%Z then 45%N :: zfill 3 (hexStr (Z.to_N (- z))) else zfill 4 (hexStr (Z.to_N z)).

Section Glif.
Variable T : pytext.
Variable R : spec_float -> str.
Variable reprOther : pyval -> str.

(** int(s, 16): like int(s), with an optional prefix 0x behind the sign, which
    may be followed by an underscore *)
Definition hexDigit (c : N) : option N :=
  match digitVal T c with
  | Some d => Some d
  | None => (if (65 <=? c) && (c <=? 70) then Some (c - 55)
             else if (97 <=? c) && (c <=? 102) then Some (c - 87) else None)%N
  end.
Fixpoint hexDigits (s : str) (acc : Z) (afterDigit : bool) : option Z :=
  match s with
  | [] => if afterDigit then Some acc else None
  | c :: r =>
    if N.eqb c 95 then if afterDigit then hexDigits r acc false else None
    else match hexDigit c with
         | Some d => hexDigits r (acc * 16 + Z.of_N d)%Z true
         | None => None
         end
  end.
Definition hexUnsigned (s : str) : option Z :=
  match s with
  | c :: d :: r =>
    if N.eqb c 48 && (N.eqb d 120 || N.eqb d 88) then
      hexDigits (match r with e :: r' => if N.eqb e 95 then r' else r | [] => r end) 0 false
    else hexDigits s 0 false
  | _ => hexDigits s 0 false
  end.
Definition parseHex (s : str) : option Z :=
  match strip (isSpace T) s with
  | [] => None
  | c :: r =>
    if N.eqb c 43 then hexUnsigned r
    else if N.eqb c 45 then option_map Z.opp (hexUnsigned r)
    else hexUnsigned (c :: r)
  end.

(** * Writing *)
Definition reprOf (v : pyval) : str :=
  match v with
  | PInt z => str_of_Z z
  | PFloat f => R f
  | PBool b => if b then u "True" else u "False"
  | PNone => u "None"
  | _ => reprOther v
  end.
Definition getattr (g : list (str * pyval)) (a : str) : pyval := match get a g with Some v => v | None => PNone end.
(** An attribute value of an element must be a string.  Other objects raise
    TypeError when the tree is serialized (etree 461), here at once; bytes,
    which are decoded there, are not modelled. *)
Definition attrStr (v : pyval) : res str := match v with PStr s => Ok s | _ => Err TypeError end.
Definition optAttr (k : str) (v : pyval) : res (list (str * str)) :=
  if is_none v then Ok [] else do s <- attrStr v; Ok [(k, s)].
Definition optRepr (k : str) (v : pyval) : list (str * str) := if is_none v then [] else [(k, reprOf v)].
(** etree.SubElement(parent, tag, attrs) *)
Definition sub (tag : str) (attrs : list (str * str)) : elem := Elem tag attrs None [] None.

(** glifLib 669-687 *)
Definition advanceNumber (validate : bool) (v : pyval) : res pyval :=
  if is_none v then Ok PNone else
  check (negb validate || is_number v) else GlifLibError;
  if py_eq v (PInt 0) then Ok PNone else Ok v.
Definition writeAdvance (g : list (str * pyval)) (validate : bool) : res (list elem) :=
  do width <- advanceNumber validate (getattr g (u "width"));
  do height <- advanceNumber validate (getattr g (u "height"));
  let attrs := optRepr (u "height") height ++ optRepr (u "width") width in
  match attrs with [] => Ok [] | _ => Ok [sub (u "advance") attrs] end.

(** iterating over a value *)
Definition iterate (v : pyval) : res (list pyval) :=
  match v with
  | PList l | PTuple l => Ok l
  | PDict d => Ok (map fst d)
  | PStr s => Ok (map (fun c => PStr [c]) s)
  | PBytes b => Ok (map (fun c => PInt (Z.of_N c)) b)
  | _ => Err TypeError
  end.
(** "%04X" % code: a tuple is the tuple of the arguments *)
Definition formatHex (code : pyval) : res str :=
  match code with
  | PInt z | PTuple [PInt z] => Ok (hex04 z)
  | PBool b | PTuple [PBool b] => Ok (hex04 (if b then 1 else 0))
  | _ => Err TypeError
  end.
(** glifLib 693-701 *)
Fixpoint unicodesLoop (validate : bool) (codes seen : list pyval) : res (list elem) :=
  match codes with
  | [] => Ok []
  | code :: r =>
    check (negb validate || is_int code) else GlifLibError;
    check hashable code else TypeError;
    if existsb (py_eq code) seen then unicodesLoop validate r seen
    else
      do hexCode <- formatHex code;
      do t <- unicodesLoop validate r (code :: seen);
      Ok (sub (u "unicode") [(u "hex", hexCode)] :: t)
  end.
(** glifLib 595-596, 689-701 *)
Definition writeUnicodes (g : list (str * pyval)) (validate : bool) : res (list elem) :=
  let unicodes := getattr g (u "unicodes") in
  if negb (truthy unicodes) then Ok [] else
  let unicodes := if validate && is_int unicodes then PList [unicodes] else unicodes in
  do codes <- iterate unicodes;
  unicodesLoop validate codes [].

(** glifLib 598-599, 703-710; bytes, with validate=False, are not modelled *)
Definition writeNote (g : list (str * pyval)) (validate : bool) : res (list elem) :=
  let note := getattr g (u "note") in
  if negb (truthy note) then Ok [] else
  check (negb validate || is_str note) else GlifLibError;
  match note with
  | PStr s => Ok [Elem (u "note") [] (Some (XS (10%N :: strip (isSpace T) s ++ [10%N]))) [] None]
  | _ => Err AttributeError
  end.

(** glifLib 601-602, 712-724 *)
Definition defaultGet (k : str) (default v : pyval) : pyval := if vhas k v then vget k v else default.
Definition transformAttr (v : pyval) (x : str * Z) : list (str * str) :=
  let '(attr, default) := x in
  let value := defaultGet attr (PInt default) v in
  if py_eq value (PInt default) then [] else [(attr, reprOf value)].
Definition writeImage (g : list (str * pyval)) (formatVersion : Z) (validate : bool) : res (list elem) :=
  let image := getattr g (u "image") in
  if negb ((2 <=? formatVersion)%Z && truthy image) then Ok [] else
  check (negb validate || imageValidator T image) else GlifLibError;
  check is_dict image else TypeError;
  check vhas (u "fileName") image else KeyError;
  do fileName <- attrStr (vget (u "fileName") image);
  do color <- optAttr (u "color") (vget (u "color") image);
  Ok [sub (u "image") ((u "fileName", fileName) :: flat_map (transformAttr image) transformationInfo ++ color)].

(** glifLib 747-752, 787-792 *)
Definition writeIdentifier (validate : bool) (v : pyval) (identifiers : list str) : res (list (str * str) * list str) :=
  if is_none v then Ok ([], identifiers) else
  do identifier <- attrStr v;
  check (negb (validate && mem identifier identifiers)) else GlifLibError;
  Ok ([(u "identifier", identifier)], identifier :: identifiers).
(** glifLib 730-753 *)
Definition writeGuideline (validate : bool) (guideline : pyval) (identifiers : list str) : res (elem * list str) :=
  check is_dict guideline else AttributeError;
  do name <- optAttr (u "name") (vget (u "name") guideline);
  do color <- optAttr (u "color") (vget (u "color") guideline);
  do (identifier, identifiers) <- writeIdentifier validate (vget (u "identifier") guideline) identifiers;
  Ok (sub (u "guideline") (optRepr (u "x") (vget (u "x") guideline) ++ optRepr (u "y") (vget (u "y") guideline) ++
                           optRepr (u "angle") (vget (u "angle") guideline) ++ name ++ color ++ identifier), identifiers).
(** glifLib 775-793 *)
Definition writeAnchor (validate : bool) (anchor : pyval) (identifiers : list str) : res (elem * list str) :=
  check is_dict anchor else TypeError;
  check vhas (u "x") anchor else KeyError;
  check vhas (u "y") anchor else KeyError;
  do name <- optAttr (u "name") (vget (u "name") anchor);
  do color <- optAttr (u "color") (vget (u "color") anchor);
  do (identifier, identifiers) <- writeIdentifier validate (vget (u "identifier") anchor) identifiers;
  Ok (sub (u "anchor") ((u "x", reprOf (vget (u "x") anchor)) :: (u "y", reprOf (vget (u "y") anchor)) :: name ++ color ++ identifier), identifiers).
Fixpoint writeLoop (item : pyval -> list str -> res (elem * list str)) (l : list pyval) (identifiers : list str) : res (list elem * list str) :=
  match l with
  | [] => Ok ([], identifiers)
  | x :: r =>
    do (e, identifiers) <- item x identifiers;
    do (t, identifiers) <- writeLoop item r identifiers;
    Ok (e :: t, identifiers)
  end.
(** glifLib 603-605, 726-729 *)
Definition writeGuidelines (g : list (str * pyval)) (formatVersion : Z) (validate : bool) (identifiers : list str) : res (list elem * list str) :=
  let guidelines := getattr g (u "guidelines") in
  if negb ((2 <=? formatVersion)%Z && truthy guidelines) then Ok ([], identifiers) else
  check (negb validate || fst (guidelinesValidator T guidelines [])) else GlifLibError;
  do l <- iterate guidelines;
  writeLoop (writeGuideline validate) l identifiers.
(** glifLib 606-609, 771-774 *)
Definition writeAnchors (g : list (str * pyval)) (formatVersion : Z) (validate : bool) (identifiers : list str) : res (list elem * list str) :=
  let anchors := getattr g (u "anchors") in
  if negb ((2 <=? formatVersion)%Z && truthy anchors) then Ok ([], identifiers) else
  check (negb validate || fst (anchorsValidator T anchors [])) else GlifLibError;
  do l <- iterate anchors;
  writeLoop (writeAnchor validate) l identifiers.

(** glifLib 620-622, 795-808.  A lib that is not a dict and not validated (dict(lib),
    line 805) is not modelled. *)
Definition writeLib (g : list (str * pyval)) (validate : bool) : res (list elem) :=
  let lib := getattr g (u "lib") in
  if negb (truthy lib) then Ok [] else
  do valid <- (if validate then glyphLibValidator T lib else Ok true);
  check valid else GlifLibError;
  check is_dict lib else TypeError;
  do e <- totree R true true 2 lib;
  Ok [Elem (u "lib") [] None [e] None].

(** ** GLIFPointPen: glifLib 1515-1621 *)
(** the children of the outline element so far, the index of the current contour
    among them, prevOffCurveCount, prevPointTypes, identifiers *)
Record gpen := mkGpen { gOutline : list elem; gContour : option nat; gOff : nat; gTypes : list str; gIds : list str }.
(** glifLib 1522-1531 *)
Definition newPen (identifiers : list str) : gpen := mkGpen [] None 0 [] identifiers.
Section Pen.
Variable penFormat : Z.
Variable validate : bool.
(** glifLib 1535-1542, 1596-1603, 1613-1620 *)
Definition penIdentifier (i : option str) (identifiers : list str) : res (list (str * str) * list str) :=
  match i with
  | None => Ok ([], identifiers)
  | Some identifier =>
    if negb (2 <=? penFormat)%Z then Ok ([], identifiers) else
    check (negb (validate && mem identifier identifiers)) else GlifLibError;
    check (negb validate || identifierOk identifier) else GlifLibError;
    Ok ([(u "identifier", identifier)], identifier :: identifiers)
  end.
(** the element with index [n] gets another child, and a text *)
Fixpoint appendAt (n : nat) (e : elem) (l : list elem) : list elem :=
  match l, n with
  | [], _ => []
  | Elem tag at' text ch tail :: r, O => Elem tag at' text (ch ++ [e]) tail :: r
  | x :: r, S m => x :: appendAt m e r
  end.
(** glifLib 1550-1552: the text of an empty contour *)
Definition contourText (x : elem) : elem :=
  let 'Elem tag at' text ch tail := x in
  match ch with [] => Elem tag at' (Some (XS (u (String (Ascii.ascii_of_nat 10) "  ")))) [] tail | _ => x end.
Fixpoint textAt (n : nat) (l : list elem) : list elem :=
  match l, n with
  | [], _ => []
  | x :: r, O => contourText x :: r
  | x :: r, S m => x :: textAt m r
  end.
(** glifLib 1533-1544 *)
Definition penBegin (s : gpen) (i : option str) : res gpen :=
  do (attrs, identifiers) <- penIdentifier i (gIds s);
  Ok (mkGpen (gOutline s ++ [sub (u "contour") attrs]) (Some (length (gOutline s))) 0 (gTypes s) identifiers).
(** glifLib 1546-1556 *)
Definition penEnd (s : gpen) : res gpen :=
  check (negb (validate && eqb (hd_error (gTypes s)) (Some sMove) && eqb (last (gTypes s) []) (u "offcurve"))) else GlifLibError;
  match gContour s with
  | None => Err TypeError
  | Some n => Ok (mkGpen (textAt n (gOutline s)) None 0 [] (gIds s))
  end.
(** glifLib 1558-1604 *)
Definition penPoint (s : gpen) (p : gpoint) : res gpen :=
  do xy <- match pc p with
           | None => Ok []
           | Some (x, y) =>
             check (negb validate || (is_number x && is_number y)) else GlifLibError;
             Ok [(u "x", reprOf x); (u "y", reprOf y)]
           end;
  let segmentType := if eqb (ptype p) (Some (u "offcurve")) then None else ptype p in
  let notFirst := match gTypes s with [] => false | _ => true end in
  check (negb (validate && eqb segmentType (Some sMove) && notFirst)) else GlifLibError;
  check (negb (validate && (eqb segmentType (Some sMove) || eqb segmentType (Some sLine)) && notFirst && eqb (last (gTypes s) []) (u "offcurve"))) else GlifLibError;
  check (negb (validate && eqb segmentType (Some sCurve) && Nat.ltb 2 (gOff s))) else GlifLibError;
  let '(ty, seg) := match segmentType with Some t => ([(u "type", t)], t) | None => ([], u "offcurve") end in
  let off := if eqb seg (u "offcurve") then S (gOff s) else 0 in
  check (negb (psmooth p && validate && eqb seg (u "offcurve"))) else GlifLibError;
  let sm := if psmooth p then [(u "smooth", u "yes")] else [] in
  let nm := match pname p with Some n => [(u "name", n)] | None => [] end in
  do (idt, identifiers) <- penIdentifier (theId (pkw p)) (gIds s);
  match gContour s with
  | None => Err TypeError
  | Some n => Ok (mkGpen (appendAt n (sub (u "point") (xy ++ ty ++ sm ++ nm ++ idt)) (gOutline s)) (Some n) off (gTypes s ++ [seg]) identifiers)
  end.
(** glifLib 1608-1612 *)
Fixpoint componentAttrs (info : list (str * Z)) (transformation : list pyval) : res (list (str * str)) :=
  match info, transformation with
  | (attr, default) :: info', value :: r =>
    check (negb validate || is_number value) else GlifLibError;
    do t <- componentAttrs info' r;
    Ok ((if py_eq value (PInt default) then [] else [(attr, reprOf value)]) ++ t)
  | _, _ => Ok []
  end.
(** glifLib 1606-1621 *)
Definition penComponent (s : gpen) (base : str) (transformation : list pyval) (i : option str) : res gpen :=
  do tr <- componentAttrs transformationInfo transformation;
  do (idt, identifiers) <- penIdentifier i (gIds s);
  Ok (mkGpen (gOutline s ++ [sub (u "component") ((u "base", base) :: tr ++ idt)]) (gContour s) (gOff s) (gTypes s) identifiers).
Definition penStep (s : gpen) (c : gcall) : res gpen :=
  match c with
  | PBegin i => penBegin s (theId i)
  | PAdd p => penPoint s p
  | PEnd => penEnd s
  | PComponent base tr i => penComponent s base tr (theId i)
  end.
End Pen.
(** glifLib 758-769: the calls made for the anchors; without validation x and y
    may be missing, which raises KeyError *)
Definition anchorCalls (anchor : pyval) : res (list gcall) :=
  check is_dict anchor else TypeError;
  check vhas (u "x") anchor else KeyError;
  check vhas (u "y") anchor else KeyError;
  do name <- match vget (u "name") anchor with PNone => Ok None | v => do s <- attrStr v; Ok (Some s) end;
  Ok [PBegin None; PAdd (mkPoint (Some (vget (u "x") anchor, vget (u "y") anchor)) (Some sMove) false name None); PEnd].
(** glifLib 755-757 *)
Definition anchorsFormat1 (anchors : pyval) (validate : bool) : res (list gcall) :=
  check (negb validate || fst (anchorsValidator T anchors [])) else GlifLibError;
  do l <- iterate anchors;
  do ll <- mapM anchorCalls l;
  Ok (concat ll).
(** glifLib 606-619; [draw] is what drawPointsFunc draws.  The pen always gets
    the default formatVersion=2 (line 613). *)
Definition writeOutline (g : list (str * pyval)) (draw : option (list gcall)) (formatVersion : Z) (validate : bool) (identifiers : list str) : res (list elem) :=
  match draw with
  | None => Ok []
  | Some calls =>
    do s <- foldM (penStep 2 validate) (newPen identifiers) calls;
    let anchors := getattr g (u "anchors") in
    do s <- (if (formatVersion =? 1)%Z && truthy anchors then
               do cs <- anchorsFormat1 anchors validate; foldM (penStep 2 validate) s cs
             else Ok s);
    Ok [Elem (u "outline") [] (match gOutline s with [] => Some (XS (u (String (Ascii.ascii_of_nat 10) "  "))) | _ => None end) (gOutline s) None]
  end.
(** glifLib 581-623 *)
Definition writeGlyphTree (name : pyval) (g : list (str * pyval)) (draw : option (list gcall)) (formatVersion : Z) (validate : bool) : res elem :=
  check (negb validate || is_str name) else GlifLibError;
  check (negb (validate && py_eq name (PStr []))) else GlifLibError;
  do name <- attrStr name;
  do advance <- writeAdvance g validate;
  do unicodes <- writeUnicodes g validate;
  do note <- writeNote g validate;
  do image <- writeImage g formatVersion validate;
  do (guidelines, identifiers) <- writeGuidelines g formatVersion validate [];
  do (anchors, identifiers) <- writeAnchors g formatVersion validate identifiers;
  do outline <- writeOutline g draw formatVersion validate identifiers;
  do lib <- writeLib g validate;
  Ok (Elem (u "glyph") [(u "name", name); (u "format", str_of_Z formatVersion)] None
        (advance ++ unicodes ++ note ++ image ++ guidelines ++ anchors ++ outline ++ lib) None).
(** glifLib 578, 623-627, 630-666 *)
Definition writeGlyphBytes (name : pyval) (g : list (str * pyval)) (draw : option (list gcall)) (formatVersion : Z) (validate : bool) : res bytes :=
  do root <- writeGlyphTree name g draw formatVersion validate;
  do b <- tostring T false true root;
  Ok (xmlDeclaration ++ [10%N] ++ b).

(** * Reading *)
(** glifLib 1363-1387; int(None) raises TypeError *)
Definition number (s : option str) : res pyval :=
  match s with
  | None => Err TypeError
  | Some s =>
    match parseInt T s with
    | Some z => Ok (PInt z)
    | None => match parseFloat T s with Some f => Ok (PFloat f) | None => Err GlifLibError end
    end
  end.
Definition eget (k : str) (e : elem) : option str := get k (eattrib e).
(** an attribute as a number, with a default *)
Definition numberOr (default : Z) (s : option str) : res pyval :=
  match s with None => Ok (PInt default) | Some _ => number s end.

(** what has been read: the attributes set on the glyph object and the calls made
    to the pen *)
Record greading := mkReading { rattrs : list (str * pyval); rcalls : list gcall }.
Definition setattr (k : str) (v : pyval) (r : greading) : greading := mkReading (set k v (rattrs r)) (rcalls r).
Definition draws (cs : list gcall) (r : greading) : greading := mkReading (rattrs r) (rcalls r ++ cs).

(** glifLib 1081-1087 *)
Definition componentAttributes1 : list str := [u "base"; u "xScale"; u "xyScale"; u "yxScale"; u "yScale"; u "xOffset"; u "yOffset"].
Definition componentAttributes2 : list str := u "identifier" :: componentAttributes1.
Definition pointAttributes1 : list str := [u "x"; u "y"; u "type"; u "smooth"; u "name"].
Definition pointAttributes2 : list str := u "identifier" :: pointAttributes1.
Definition pointTypeOptions : list str := [u "move"; u "line"; u "offcurve"; u "curve"; u "qcurve"].

(** the entries of a massaged point dictionary that are used afterwards *)
Record mpoint := mkM { mx : pyval; my : pyval; mtype : option str; msmooth : bool; mname : option str; mid : option str }.
(** glifLib 1266-1312: one point element *)
Definition massagePoint (validate : bool) (allowed : list str) (index : nat) (e : elem) : res mpoint :=
  check eqb (etag e) (u "point") else GlifLibError;
  check (negb validate || forallb (fun a => mem a allowed) (map fst (eattrib e))) else GlifLibError;
  check (negb validate || Nat.eqb (length (echildren e)) 0) else GlifLibError;
  check (negb validate || has (u "x") (eattrib e)) else GlifLibError;
  do x <- number (eget (u "x") e);
  check (negb validate || has (u "y") (eattrib e)) else GlifLibError;
  do y <- number (eget (u "y") e);
  let pointType := match eget (u "type") e with Some t => t | None => u "offcurve" end in
  check (negb validate || mem pointType pointTypeOptions) else GlifLibError;
  let segmentType := if eqb pointType (u "offcurve") then None else Some pointType in
  check (negb (validate && eqb segmentType (Some sMove) && negb (Nat.eqb index 0))) else GlifLibError;
  let smooth := match eget (u "smooth") e with Some s => s | None => u "no" end in
  check (negb validate || mem smooth [u "no"; u "yes"]) else GlifLibError;
  let smooth := eqb smooth (u "yes") in
  check (negb (validate && smooth && eqb segmentType None)) else GlifLibError;
  Ok (mkM x y segmentType smooth (eget (u "name") e) (eget (u "identifier") e)).
Fixpoint massageLoop (validate : bool) (allowed : list str) (index : nat) (l : list elem) : res (list mpoint) :=
  match l with
  | [] => Ok []
  | e :: r =>
    do p <- massagePoint validate allowed index e;
    do t <- massageLoop validate allowed (S index) r;
    Ok (p :: t)
  end.
(** glifLib 1313-1324: without the off-curve points at the end *)
Fixpoint dropOffs (l : list mpoint) : list mpoint :=
  match l with [] => [] | p :: r => match mtype p with None => dropOffs r | Some _ => l end end.
Definition leniency (l : list mpoint) : list mpoint :=
  match l with
  | p :: _ => if eqb (mtype p) (Some sMove) then rev (dropOffs (rev l)) else l
  | [] => l
  end.
(** glifLib 1326-1350 *)
Fixpoint checkOffs (l : list mpoint) (count : nat) : res unit :=
  match l with
  | [] => Ok tt
  | p :: r =>
    match mtype p with
    | None => checkOffs r (S count)
    | Some t =>
      check (Nat.eqb count 0 || negb (eqb t sMove)) else GlifLibError;
      check (Nat.eqb count 0 || negb (eqb t sLine)) else GlifLibError;
      check (negb (eqb t sCurve && Nat.ltb 2 count)) else GlifLibError;
      checkOffs r 0
    end
  end.
(** the index of the last on-curve point: glifLib 1293-1296 *)
Fixpoint lastOn (l : list mpoint) (index : nat) (found : option nat) : option nat :=
  match l with
  | [] => found
  | p :: r => lastOn r (S index) (match mtype p with None => found | Some _ => Some index end)
  end.
Definition hasOff (l : list mpoint) : bool := existsb (fun p => eqb (mtype p) None) l.
(** glifLib 1258-1351, for a contour with children *)
Definition massage (validate : bool) (allowed : list str) (lenient : bool) (contour : elem) : res (list mpoint) :=
  do all <- massageLoop validate allowed 0 (echildren contour);
  let massaged := if lenient then leniency all else all in
  match lastOn all 0 None with
  | Some i =>
    if validate && hasOff all then
      do x <- checkOffs massaged (length massaged - 1 - i); Ok massaged
    else Ok massaged
  | None => Ok massaged
  end.

(** ** Format 1: glifLib 1091-1167 *)
(** glifLib 1140-1147 *)
Definition pointCall1 (m : mpoint) : gcall := PAdd (mkPoint (Some (mx m, my m)) (mtype m) (msmooth m) (mname m) None).
(** glifLib 1131-1138 *)
Definition contour1 (validate : bool) (contour : elem) : res (list gcall) :=
  check (negb validate || Nat.eqb (length (eattrib contour)) 0) else GlifLibError;
  do pts <- match echildren contour with [] => Ok [] | _ => massage validate pointAttributes1 true contour end;
  Ok (PBegin None :: map pointCall1 pts ++ [PEnd]).
(** glifLib 1159-1166 and 1234-1241 *)
Definition readTransformation (component : elem) : res (list pyval) :=
  mapM (fun '(attr, default) => numberOr default (eget attr component)) transformationInfo.
(** glifLib 1149-1167.  With validate=False a component without base is drawn
    with the base glyph name None; this raises TypeError here. *)
Definition component1 (validate : bool) (component : elem) : res (list gcall) :=
  check (negb validate || Nat.eqb (length (echildren component)) 0) else GlifLibError;
  check (negb validate || forallb (fun a => mem a componentAttributes1) (map fst (eattrib component))) else GlifLibError;
  check (negb validate || has (u "base") (eattrib component)) else GlifLibError;
  do tr <- readTransformation component;
  match eget (u "base") component with
  | Some base => Ok [PComponent base tr None]
  | None => Err TypeError
  end.
(** glifLib 1114-1129 *)
Definition buildAnchor1 (validate : bool) (p : elem) : res (option pyval) :=
  if negb (eqb (eget (u "type") p) (Some sMove)) then Ok None else
  match eget (u "name") p with
  | None => Ok None
  | Some name =>
    check (negb validate || has (u "x") (eattrib p)) else GlifLibError;
    check (negb validate || has (u "y") (eattrib p)) else GlifLibError;
    do x <- number (eget (u "x") p);
    do y <- number (eget (u "y") p);
    Ok (Some (PDict [(PStr (u "x"), x); (PStr (u "y"), y); (PStr (u "name"), PStr name)]))
  end.
(** glifLib 1093-1108: the anchors and the calls made; [pen] says whether there is
    a pen *)
Fixpoint outlineLoop1 (pen validate : bool) (l : list elem) : res (list pyval * list gcall) :=
  match l with
  | [] => Ok ([], [])
  | e :: r =>
    if eqb (etag e) (u "contour") then
      do anchor <- match echildren e with
                   | [p] => if eqb (etag p) (u "point") then buildAnchor1 validate p else Ok None
                   | _ => Ok None
                   end;
      match anchor with
      | Some a => do (anchors, calls) <- outlineLoop1 pen validate r; Ok (a :: anchors, calls)
      | None =>
        do cs <- (if pen then contour1 validate e else Ok []);
        do (anchors, calls) <- outlineLoop1 pen validate r; Ok (anchors, cs ++ calls)
      end
    else if eqb (etag e) (u "component") then
      do cs <- (if pen then component1 validate e else Ok []);
      do (anchors, calls) <- outlineLoop1 pen validate r; Ok (anchors, cs ++ calls)
    else Err GlifLibError
  end.
(** glifLib 1091-1112 *)
Definition buildOutline1 (obj pen validate : bool) (outline : elem) (r : greading) : res greading :=
  do (anchors, calls) <- outlineLoop1 pen validate (echildren outline);
  let r := draws calls r in
  match anchors with
  | [] => Ok r
  | _ =>
    if obj then
      check (negb validate || fst (anchorsValidator T (PList anchors) [])) else GlifLibError;
      Ok (setattr (u "anchors") (PList anchors) r)
    else Ok r
  end.

(** ** Format 2: glifLib 1171-1254 *)
(** glifLib 1185-1192, 1210-1217, 1242-1249 *)
Definition readIdentifier (validate : bool) (i : option str) (identifiers : list str) : res (list str) :=
  match i with
  | None => Ok identifiers
  | Some identifier =>
    check (negb (validate && mem identifier identifiers)) else GlifLibError;
    check (negb validate || identifierOk identifier) else GlifLibError;
    Ok (identifier :: identifiers)
  end.
(** glifLib 1203-1222 *)
Fixpoint points2 (validate : bool) (l : list mpoint) (identifiers : list str) : res (list gcall * list str) :=
  match l with
  | [] => Ok ([], identifiers)
  | m :: r =>
    do identifiers <- readIdentifier validate (mid m) identifiers;
    do (t, identifiers) <- points2 validate r identifiers;
    Ok (PAdd (mkPoint (Some (mx m, my m)) (mtype m) (msmooth m) (mname m) (Some (mid m))) :: t, identifiers)
  end.
(** glifLib 1180-1201 *)
Definition contour2 (validate : bool) (contour : elem) (identifiers : list str) : res (list gcall * list str) :=
  check (negb validate || forallb (fun a => eqb a (u "identifier")) (map fst (eattrib contour))) else GlifLibError;
  let identifier := eget (u "identifier") contour in
  do identifiers <- readIdentifier validate identifier identifiers;
  do pts <- match echildren contour with [] => Ok [] | _ => massage validate pointAttributes2 false contour end;
  do (cs, identifiers) <- points2 validate pts identifiers;
  Ok (PBegin (Some identifier) :: cs ++ [PEnd], identifiers).
(** glifLib 1224-1254; for a component without base see [component1] *)
Definition component2 (validate : bool) (component : elem) (identifiers : list str) : res (list gcall * list str) :=
  check (negb validate || Nat.eqb (length (echildren component)) 0) else GlifLibError;
  check (negb validate || forallb (fun a => mem a componentAttributes2) (map fst (eattrib component))) else GlifLibError;
  check (negb validate || has (u "base") (eattrib component)) else GlifLibError;
  do tr <- readTransformation component;
  let identifier := eget (u "identifier") component in
  do identifiers <- readIdentifier validate identifier identifiers;
  match eget (u "base") component with
  | Some base => Ok ([PComponent base tr (Some identifier)], identifiers)
  | None => Err TypeError
  end.
(** glifLib 1171-1178 *)
Fixpoint outlineLoop2 (validate : bool) (l : list elem) (identifiers : list str) : res (list gcall * list str) :=
  match l with
  | [] => Ok ([], identifiers)
  | e :: r =>
    do (cs, identifiers) <-
      (if eqb (etag e) (u "contour") then contour2 validate e identifiers
       else if eqb (etag e) (u "component") then component2 validate e identifiers
       else Err GlifLibError);
    do (t, identifiers) <- outlineLoop2 validate r identifiers;
    Ok (cs ++ t, identifiers)
  end.

(** ** Other elements *)
(** glifLib 1047-1051 *)
Definition readAdvance (e : elem) (r : greading) : res greading :=
  do width <- numberOr 0 (eget (u "width") e);
  do height <- numberOr 0 (eget (u "height") e);
  Ok (setattr (u "height") height (setattr (u "width") width r)).
(** glifLib 1053-1056 *)
Definition noteLines (s : str) : str :=
  join [10%N] (map (strip (isSpace T)) (filter (fun l => negb (forallb (isSpace T) l)) (split1 10 s))).
Definition readNote (e : elem) (r : greading) : res greading :=
  match etextOf e with
  | Some (XS s) => Ok (setattr (u "note") (PStr (noteLines s)) r)
  | Some (XB _) => Err TypeError
  | None => Err AttributeError
  end.
(** glifLib 1058-1066 *)
Definition readLib (validate : bool) (e : elem) (r : greading) : res greading :=
  match echildren e with
  | [child] =>
    do plist <- fromtree T child;
    do valid <- (if validate then glyphLibValidator T plist else Ok true);
    check valid else GlifLibError;
    Ok (setattr (u "lib") plist r)
  | _ => Err AssertionError
  end.
(** dict(element.attrib), with some attributes turned into numbers *)
Definition attribDict (e : elem) : list (str * pyval) := map (fun '(k, v) => (k, PStr v)) (eattrib e).
Definition toPDict (d : list (str * pyval)) : pyval := PDict (map (fun '(k, v) => (PStr k, v)) d).
(** glifLib 1069-1072 *)
Fixpoint imageNumbers (info : list (str * Z)) (e : elem) (d : list (str * pyval)) : res (list (str * pyval)) :=
  match info with
  | [] => Ok d
  | (attr, default) :: r => do v <- numberOr default (eget attr e); imageNumbers r e (set attr v d)
  end.
(** glifLib 1068-1075 *)
Definition readImage (validate : bool) (e : elem) (r : greading) : res greading :=
  do d <- imageNumbers transformationInfo e (attribDict e);
  check (negb validate || imageValidator T (toPDict d)) else GlifLibError;
  Ok (setattr (u "image") (toPDict d) r).
(** glifLib 993-996, 1001-1004 *)
Fixpoint attribNumbers (names : list str) (e : elem) (d : list (str * pyval)) : res (list (str * pyval)) :=
  match names with
  | [] => Ok d
  | attr :: r =>
    match eget attr e with
    | None => attribNumbers r e d
    | Some s => do v <- number (Some s); attribNumbers r e (set attr v d)
    end
  end.
(** glifLib 931-937, 983-989: int(None, 16) raises TypeError *)
Definition readUnicode (e : elem) (unicodes : list Z) : res (list Z) :=
  match eget (u "hex") e with
  | None => Err TypeError
  | Some s =>
    match parseHex s with
    | None => Err GlifLibError
    | Some v => Ok (if mem v unicodes then unicodes else unicodes ++ [v])
    end
  end.

(** ** The elements of a glyph *)
Record gstate := mkG {
  sadvance : bool; simage : bool; soutline : bool; slib : bool; snote : bool;
  sunicodes : list Z; sguidelines : list pyval; sanchors : list pyval; sids : list str; sread : greading }.
Definition withRead (f : greading -> res greading) (s : gstate) : res gstate :=
  do r <- f (sread s);
  Ok (mkG (sadvance s) (simage s) (soutline s) (slib s) (snote s) (sunicodes s) (sguidelines s) (sanchors s) (sids s) r).
(** glifLib 914-921, 965-972 *)
Definition outlineOk (validate : bool) (e : elem) (s : gstate) : bool :=
  negb validate || (negb (soutline s) && Nat.eqb (length (eattrib e)) 0 && blankText T (etextOf e)).
(** the tests that are the same for both formats; each marks the element as seen *)
Definition seenOutline (s : gstate) : gstate := mkG (sadvance s) (simage s) true (slib s) (snote s) (sunicodes s) (sguidelines s) (sanchors s) (sids s) (sread s).
Definition seenAdvance (s : gstate) : gstate := mkG true (simage s) (soutline s) (slib s) (snote s) (sunicodes s) (sguidelines s) (sanchors s) (sids s) (sread s).
Definition seenImage (s : gstate) : gstate := mkG (sadvance s) true (soutline s) (slib s) (snote s) (sunicodes s) (sguidelines s) (sanchors s) (sids s) (sread s).
Definition seenLib (s : gstate) : gstate := mkG (sadvance s) (simage s) (soutline s) true (snote s) (sunicodes s) (sguidelines s) (sanchors s) (sids s) (sread s).
Definition seenNote (s : gstate) : gstate := mkG (sadvance s) (simage s) (soutline s) (slib s) true (sunicodes s) (sguidelines s) (sanchors s) (sids s) (sread s).
(** glifLib 925-947, 977-989, 1014-1023: the elements read in both formats;
    [None] when the element is another one *)
Definition commonElement (validate : bool) (e : elem) (s : gstate) : option (res gstate) :=
  if eqb (etag e) (u "advance") then
    Some (check (negb (validate && sadvance s)) else GlifLibError; withRead (readAdvance e) (seenAdvance s))
  else if eqb (etag e) (u "unicode") then
    Some (do us <- readUnicode e (sunicodes s);
          Ok (mkG (sadvance s) (simage s) (soutline s) (slib s) (snote s) us (sguidelines s) (sanchors s) (sids s) (sread s)))
  else if eqb (etag e) (u "note") then
    Some (check (negb (validate && snote s)) else GlifLibError; withRead (readNote e) (seenNote s))
  else if eqb (etag e) (u "lib") then
    Some (check (negb (validate && slib s)) else GlifLibError; withRead (readLib validate e) (seenLib s))
  else None.
(** glifLib 912-949 *)
Definition element1 (obj pen validate : bool) (s : gstate) (e : elem) : res gstate :=
  if eqb (etag e) (u "outline") then
    check outlineOk validate e s else GlifLibError;
    withRead (buildOutline1 obj pen validate e) (seenOutline s)
  else if negb obj then Ok s
  else match commonElement validate e s with Some r => r | None => Err GlifLibError end.
(** glifLib 963-1025 *)
Definition element2 (obj pen validate : bool) (s : gstate) (e : elem) : res gstate :=
  if eqb (etag e) (u "outline") then
    check outlineOk validate e s else GlifLibError;
    let s := seenOutline s in
    if pen then
      do (cs, ids) <- outlineLoop2 validate (echildren e) (sids s);
      Ok (mkG (sadvance s) (simage s) (soutline s) (slib s) (snote s) (sunicodes s) (sguidelines s) (sanchors s) ids (draws cs (sread s)))
    else Ok s
  else if negb obj then Ok s
  else match commonElement validate e s with
  | Some r => r
  | None =>
    if eqb (etag e) (u "guideline") then
      check (negb validate || Nat.eqb (length (echildren e)) 0) else GlifLibError;
      do d <- attribNumbers [u "x"; u "y"; u "angle"] e (attribDict e);
      Ok (mkG (sadvance s) (simage s) (soutline s) (slib s) (snote s) (sunicodes s) (sguidelines s ++ [toPDict d]) (sanchors s) (sids s) (sread s))
    else if eqb (etag e) (u "anchor") then
      check (negb validate || Nat.eqb (length (echildren e)) 0) else GlifLibError;
      do d <- attribNumbers [u "x"; u "y"] e (attribDict e);
      Ok (mkG (sadvance s) (simage s) (soutline s) (slib s) (snote s) (sunicodes s) (sguidelines s) (sanchors s ++ [toPDict d]) (sids s) (sread s))
    else if eqb (etag e) (u "image") then
      check (negb (validate && simage s)) else GlifLibError;
      check (negb validate || Nat.eqb (length (echildren e)) 0) else GlifLibError;
      withRead (readImage validate e) (seenImage s)
    else Err GlifLibError
  end.
(** glifLib 1040-1045 *)
Definition readName (obj validate : bool) (tree : elem) (r : greading) : res greading :=
  match eget (u "name") tree with
  | Some (c :: name) => Ok (if obj then setattr (u "name") (PStr (c :: name)) r else r)
  | _ => check negb validate else GlifLibError; Ok r
  end.
Definition startState (r : greading) : gstate := mkG false false false false false [] [] [] [] r.
Definition setUnicodes (s : gstate) (r : greading) : greading :=
  match sunicodes s with [] => r | l => setattr (u "unicodes") (PList (map PInt l)) r end.
(** glifLib 906-952 *)
Definition readFormat1 (obj pen validate : bool) (tree : elem) : res greading :=
  do r <- readName obj validate tree (mkReading [] []);
  do s <- foldM (element1 obj pen validate) (startState r) (echildren tree);
  Ok (setUnicodes s (sread s)).
(** glifLib 954-1038 *)
Definition readFormat2 (obj pen validate : bool) (tree : elem) : res greading :=
  do r <- readName obj validate tree (mkReading [] []);
  do s <- foldM (element2 obj pen validate) (startState r) (echildren tree);
  let r := setUnicodes s (sread s) in
  do (r, ids) <- match sguidelines s with
                 | [] => Ok (r, sids s)
                 | l =>
                   let '(ok, ids) := guidelinesValidator T (PList l) (sids s) in
                   check (negb validate || ok) else GlifLibError;
                   Ok (setattr (u "guidelines") (PList l) r, if validate then ids else sids s)
                 end;
  match sanchors s with
  | [] => Ok r
  | l =>
    check (negb validate || fst (anchorsValidator T (PList l) ids)) else GlifLibError;
    Ok (setattr (u "anchors") (PList l) r)
  end.
(** glifLib 886-903 *)
Definition readGlyphTree (obj pen : bool) (formatVersions : list Z) (validate : bool) (tree : elem) : res greading :=
  match eget (u "format") tree with
  | None => if validate then Err GlifLibError else Err TypeError
  | Some s =>
    let v := parseInt T s in
    check (negb validate || match v with Some z => mem z formatVersions | None => false end) else GlifLibError;
    match v with
    | Some 1%Z => readFormat1 obj pen validate tree
    | Some 2%Z => readFormat2 obj pen validate tree
    | _ => Err GlifLibError
    end
  end.
(** glifLib 868-884 *)
Definition glifTree (b : bytes) : res elem :=
  do root <- parseBytes b;
  check eqb (etag root) (u "glyph") else GlifLibError;
  check blankText T (etextOf root) else GlifLibError;
  Ok root.
(** glifLib 540-575 *)
Definition readGlyphBytes (obj pen : bool) (formatVersions : list Z) (validate : bool) (b : bytes) : res greading :=
  do tree <- glifTree b; readGlyphTree obj pen formatVersions validate tree.

(** ** GlyphSet.readGlyph and writeGlyph: the format versions (glifLib 351-357,
    390-401).  supportedGLIFFormatVersions (line 54) is [1, 2]. *)
Definition readVersions (ufoFormatVersion : Z) : list Z := if (ufoFormatVersion <? 3)%Z then [1%Z] else [1%Z; 2%Z].
Definition writeVersion (ufoFormatVersion : Z) (formatVersion : option Z) : res Z :=
  let formatVersion := match formatVersion with
                       | Some v => v
                       | None => if (3 <=? ufoFormatVersion)%Z then 2%Z else 1%Z
                       end in
  check mem formatVersion [1%Z; 2%Z] else GlifLibError;
  check (negb ((formatVersion =? 2)%Z && (ufoFormatVersion <? 3)%Z)) else GlifLibError;
  Ok formatVersion.
Definition gsReadBytes (ufoFormatVersion : Z) (obj pen validate : bool) (text : bytes) : res greading :=
  readGlyphBytes obj pen (readVersions ufoFormatVersion) validate text.
Definition gsWriteBytes (ufoFormatVersion : Z) (name : pyval) (g : list (str * pyval)) (draw : option (list gcall)) (formatVersion : option Z) (validate : bool) : res bytes :=
  do v <- writeVersion ufoFormatVersion formatVersion; writeGlyphBytes name g draw v validate.
End Glif.

(** * Rapid value fetching: glifLib 1393-1499 *)
(** The handlers called by expat for a well-formed document.  For other documents
    expat reports an error after the handlers of the part before it; here no
    handler is called. *)
Inductive xev : Type := XStart (name : str) (attrs : list (str * str)) | XEnd (name : str).
Fixpoint xevents (e : elem) : list xev :=
  let 'Elem tag at' _ ch _ := e in
  XStart tag at' :: (fix go l := match l with [] => [] | k :: r => xevents k ++ go r end) ch ++ [XEnd tag].
Section Fetch.
Variable A : Type.
(** [start stack name attrs a]: the new value and whether _DoneParsing is raised *)
Variable start : list str -> str -> list (str * str) -> A -> A * bool.
Variable stop : str -> bool.
(** glifLib 1409-1414: the stack, innermost first; the assertion holds for a
    well-formed document *)
Fixpoint fetch (l : list xev) (stack : list str) (a : A) : A :=
  match l with
  | [] => a
  | XStart name attrs :: r =>
    let '(a, done) := start stack name attrs a in
    if done then a else fetch r (name :: stack) a
  | XEnd name :: r => if stop name then a else fetch r (tl stack) a
  end.
End Fetch.
Definition under (parent : str) (stack : list str) : bool := match stack with p :: _ => eqb p parent | [] => false end.
(** glifLib 1433-1443 *)
Definition unicodesStart (T : pytext) (stack : list str) (name : str) (attrs : list (str * str)) (a : list Z) : list Z * bool :=
  if eqb name (u "unicode") && under (u "glyph") stack then
    match get (u "hex") attrs with
    | Some s => match parseHex T s with Some v => (if mem v a then a else a ++ [v], false) | None => (a, false) end
    | None => (a, false)
    end
  else (a, false).
(** glifLib 1464-1468 *)
Definition imageStart (stack : list str) (name : str) (attrs : list (str * str)) (a : option str) : option str * bool :=
  if eqb name (u "image") && under (u "glyph") stack then (get (u "fileName") attrs, true) else (a, false).
(** glifLib 1489-1494 *)
Definition componentStart (stack : list str) (name : str) (attrs : list (str * str)) (a : list str) : list str * bool :=
  if eqb name (u "component") && under (u "outline") stack then
    (match get (u "base") attrs with Some b => a ++ [b] | None => a end, false)
  else (a, false).
(** glifLib 1419-1425 *)
Definition fetchUnicodes (T : pytext) (root : elem) : list Z := fetch (list Z) (unicodesStart T) (fun _ => false) (xevents root) [] [].
(** glifLib 1447-1456 *)
Definition fetchImage (root : elem) : option str := fetch (option str) imageStart (fun _ => false) (xevents root) [] None.
(** glifLib 1472-1481, 1496-1499 *)
Definition fetchComponents (root : elem) : list str := fetch (list str) componentStart (fun n => eqb n (u "outline")) (xevents root) [] [].
