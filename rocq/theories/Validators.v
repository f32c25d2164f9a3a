(** Model of validators.py (complete).
    - Values are [pyval]; Python 3 semantics ([basestring] is [str],
      [integerTypes] is [int], and [bool] is a subclass of [int]).
    - A mapping is a [PDict]; other dict-like objects are not modelled, so
      [isDictEnough] is [is_dict].
    - The error messages of the validators that return a pair are not modelled:
      only the first component is.
    - A result is [res bool] where the code can raise, [bool] where it can not. *)
From Coq Require Import String NArith ZArith Bool Lia List.
From Verif Require Import Base PyVal PyText.
Import ListNotations.
Local Open Scope string_scope.
Local Open Scope list_scope.

(** types used with isinstance *)
Inductive pytype := TStr | TInt | TNumber | TBool | TList.
Definition isinstance (v : pyval) (t : pytype) : bool :=
  match t with
  | TStr => is_str v | TInt => is_int v | TNumber => is_number v
  | TBool => is_bool v | TList => is_list v
  end.
(** [for x in l: if not f(x): return False] *)
Fixpoint allM {A} (f : A -> res bool) (l : list A) : res bool :=
  match l with
  | [] => Ok true
  | x :: r => do b <- f x; if b then allM f r else Ok false
  end.
(** iterating over a value; not iterable: TypeError.  (Only lists, tuples and
    None reach the loops that use it.) *)
Definition iter (v : pyval) : res (list pyval) :=
  match v with PList l | PTuple l => Ok l | _ => Err TypeError end.
(** [value in (list of constants)] *)
Definition isin (v : pyval) (l : list pyval) : bool := existsb (py_eq v) l.
Definition strs (l : list string) : list pyval := map (fun s => PStr (u s)) l.

(** validators.py 34-38 *)
Definition genericTypeValidator (v : pyval) (t : pytype) : bool := isinstance v t.
(** validators.py 40-53; [set(values)] raises TypeError for unhashable elements *)
Definition genericIntListValidator (values : pyval) (valid : list Z) : res bool :=
  if negb (is_seq values) then Ok false
  else if negb (forallb hashable (elems values)) then Err TypeError
  else if negb (forallb (fun v => isin v (map PInt valid)) (elems values)) then Ok false
  else Ok (forallb is_int (elems values)).
(** validators.py 55-63 *)
Definition genericNonNegativeIntValidator (v : pyval) : bool :=
  if negb (is_int v) then false else if num_lt v (PInt 0) then false else true.
(** validators.py 65-73 *)
Definition genericNonNegativeNumberValidator (v : pyval) : bool :=
  if negb (is_number v) then false else if num_lt v (PInt 0) then false else true.
(** a prototype: key, type, required *)
Definition proto := list (str * (pytype * bool)).
(** validators.py 75-99 *)
Definition genericDictValidator (value : pyval) (prototype : proto) : bool :=
  if negb (is_dict value) then false
  else if negb (forallb (fun p : str * (pytype * bool) => if snd (snd p) then vhas (fst p) value else true) prototype) then false
  else if negb (forallb (fun kv => match fst kv with PStr k => has k prototype | _ => false end) (items value)) then false
  else forallb (fun kv =>
    match fst kv with
    | PStr k => match get k prototype with
                | Some (t, required) => if is_none (snd kv) && negb required then true else isinstance (snd kv) t
                | None => false
                end
    | _ => false
    end) (items value).
Definition req (k : string) (t : pytype) : str * (pytype * bool) := (u k, (t, true)).
Definition opt (k : string) (t : pytype) : str * (pytype * bool) := (u k, (t, false)).

(** * fontinfo.plist *)
(** validators.py 107-112 *)
Definition fontInfoStyleMapStyleNameValidator (v : pyval) : bool :=
  isin v (strs ["regular"; "italic"; "bold"; "bold italic"]).

(** [sorted(l)] on integers *)
Fixpoint zinsert (x : Z) (l : list Z) : list Z :=
  match l with [] => [x] | y :: r => if (x <=? y)%Z then x :: l else y :: zinsert x r end.
Definition zsort (l : list Z) : list Z := fold_right zinsert [] l.
(** the integer denoted by an int or bool *)
Definition zval (v : pyval) : Z := match v with PInt z => z | PBool true => 1%Z | _ => 0%Z end.
(** validators.py 114-139 *)
Definition gaspProto : proto := [req "rangeMaxPPEM" TInt; req "rangeGaspBehavior" TList].
Definition gaspRecord (r : pyval) : res bool :=
  if negb (genericDictValidator r gaspProto) then Ok false
  else if negb (genericNonNegativeIntValidator (vget (u "rangeMaxPPEM") r)) then Ok false
  else genericIntListValidator (vget (u "rangeGaspBehavior") r) [0; 1; 2; 3]%Z.
Definition fontInfoOpenTypeGaspRangeRecordsValidator (value : pyval) : res bool :=
  if negb (is_list value) then Ok false
  else match elems value with
  | [] => Ok true
  | l => do ok <- allM gaspRecord l;
         if negb ok then Ok false
         else let ppem := map (fun r => zval (vget (u "rangeMaxPPEM") r)) l in
              Ok (eqb ppem (zsort ppem))
  end.

(** calendar.isleap and calendar.monthrange(year, month)[1] (Python 3.8 or
    later, where any year is accepted) *)
Definition isleap (y : Z) : bool := (y mod 4 =? 0)%Z && (negb (y mod 100 =? 0)%Z || (y mod 400 =? 0)%Z).
Definition monthDays (y m : Z) : Z :=
  if (m =? 2)%Z then if isleap y then 29%Z else 28%Z
  else if mem m [4; 6; 9; 11]%Z then 30%Z else 31%Z.
Section WithText.
Variable T : pytext.
(** validators.py 141-198 *)
Definition headCreated (s : str) : bool :=
  if negb (Nat.eqb (length s) 19) then false else
  match split1 32 s with
  | [date; time] =>
    match split1 47 date, split1 58 time with
    | [year; month; day], [hour; minute; second] =>
      if negb (Nat.eqb (length year) 4) then false else
      if negb (Nat.eqb (length month) 2) then false else
      if negb (Nat.eqb (length day) 2) then false else
      match parseInt T year, parseInt T month, parseInt T day with
      | Some y, Some m, Some d =>
        if (m <? 1)%Z || (12 <? m)%Z then false else
        if (d <? 1)%Z || (monthDays y m <? d)%Z then false else
        if negb (Nat.eqb (length hour) 2) then false else
        if negb (Nat.eqb (length minute) 2) then false else
        if negb (Nat.eqb (length second) 2) then false else
        match parseInt T hour, parseInt T minute, parseInt T second with
        | Some h, Some mi, Some se =>
          if (h <? 0)%Z || (23 <? h)%Z then false else
          if (mi <? 0)%Z || (59 <? mi)%Z then false else
          if (se <? 0)%Z || (59 <? se)%Z then false else true
        | _, _, _ => false
        end
      | _, _, _ => false
      end
    | _, _ => false
    end
  | _ => false
  end.
Definition fontInfoOpenTypeHeadCreatedValidator (v : pyval) : bool :=
  match v with PStr s => headCreated s | _ => false end.
(** validators.py 200-210 *)
Definition nameProto : proto :=
  [req "nameID" TInt; req "platformID" TInt; req "encodingID" TInt; req "languageID" TInt; req "string" TStr].
Definition fontInfoOpenTypeNameRecordsValidator (value : pyval) : bool :=
  if negb (is_list value) then false else forallb (fun r => genericDictValidator r nameProto) (elems value).
(** validators.py 212-220 *)
Definition fontInfoOpenTypeOS2WeightClassValidator (v : pyval) : bool :=
  if negb (is_int v) then false else if num_lt v (PInt 0) then false else true.
(** validators.py 222-232 *)
Definition fontInfoOpenTypeOS2WidthClassValidator (v : pyval) : bool :=
  if negb (is_int v) then false else if num_lt v (PInt 1) then false else if num_gt v (PInt 9) then false else true.
(** validators.py 234-246 *)
Definition fontInfoVersion2OpenTypeOS2PanoseValidator (v : pyval) : bool :=
  if negb (is_seq v) then false else if negb (Nat.eqb (length (elems v)) 10) then false
  else forallb is_int (elems v).
(** validators.py 248-262 *)
Definition fontInfoVersion3OpenTypeOS2PanoseValidator (v : pyval) : bool :=
  if negb (is_seq v) then false else if negb (Nat.eqb (length (elems v)) 10) then false
  else forallb (fun x => if negb (is_int x) then false else if num_lt x (PInt 0) then false else true) (elems v).
(** validators.py 264-280 *)
Definition fontInfoOpenTypeOS2FamilyClassValidator (v : pyval) : bool :=
  if negb (is_seq v) then false else
  match elems v with
  | [c; s] =>
    if negb (forallb is_int [c; s]) then false
    else if num_lt c (PInt 0) || num_gt c (PInt 14) then false
    else if num_lt s (PInt 0) || num_gt s (PInt 15) then false else true
  | _ => false
  end.
(** validators.py 282-295, 297-310 and 312-323: at most [n] numbers, an even
    number of them if [even] *)
Definition numberList (n : nat) (even : bool) (v : pyval) : bool :=
  if negb (is_seq v) then false
  else if Nat.ltb n (length (elems v)) then false
  else if even && Nat.odd (length (elems v)) then false
  else forallb is_number (elems v).
Definition fontInfoPostscriptBluesValidator := numberList 14 true.
Definition fontInfoPostscriptOtherBluesValidator := numberList 10 true.
Definition fontInfoPostscriptStemsValidator := numberList 12 false.
(** validators.py 325-332 *)
Definition fontInfoPostscriptWindowsCharacterSetValidator (v : pyval) : bool :=
  isin v (map (fun n => PInt (Z.of_nat n)) (seq 1 20)).

(** ** WOFF metadata *)
(** ["dir" in value and value.get("dir") not in ("ltr", "rtl")] *)
Definition badDir (value : pyval) : bool :=
  vhas (u "dir") value && negb (isin (vget (u "dir") value) (strs ["ltr"; "rtl"])).
(** validators.py 334-341 *)
Definition fontInfoWOFFMetadataUniqueIDValidator (v : pyval) : bool := genericDictValidator v [req "id" TStr].
(** validators.py 343-352 *)
Definition fontInfoWOFFMetadataVendorValidator (v : pyval) : bool :=
  if negb (genericDictValidator v [req "name" TStr; opt "url" TStr; opt "dir" TStr; opt "class" TStr]) then false
  else if badDir v then false else true.
(** validators.py 354-369 *)
Definition creditProto : proto := [req "name" TStr; opt "url" TStr; opt "role" TStr; opt "dir" TStr; opt "class" TStr].
Definition fontInfoWOFFMetadataCreditsValidator (v : pyval) : bool :=
  if negb (genericDictValidator v [req "credits" TList]) then false else
  match elems (vget (u "credits") v) with
  | [] => false
  | l => forallb (fun c => if negb (genericDictValidator c creditProto) then false else if badDir c then false else true) l
  end.
(** validators.py 431-440; also 486-495 and 497-506, which are the same text *)
Definition textProto : proto := [req "text" TStr; opt "language" TStr; opt "dir" TStr; opt "class" TStr].
Definition fontInfoWOFFMetadataTextValue (v : pyval) : bool :=
  if negb (genericDictValidator v textProto) then false else if badDir v then false else true.
Definition fontInfoWOFFMetadataExtensionNameValidator := fontInfoWOFFMetadataTextValue.
Definition fontInfoWOFFMetadataExtensionValueValidator := fontInfoWOFFMetadataTextValue.
(** validators.py 371-381 *)
Definition fontInfoWOFFMetadataDescriptionValidator (v : pyval) : bool :=
  if negb (genericDictValidator v [opt "url" TStr; req "text" TList]) then false
  else forallb fontInfoWOFFMetadataTextValue (elems (vget (u "text") v)).
(** validators.py 383-394; [for text in None] raises TypeError *)
Definition fontInfoWOFFMetadataLicenseValidator (v : pyval) : res bool :=
  if negb (genericDictValidator v [opt "url" TStr; opt "text" TList; opt "id" TStr]) then Ok false
  else if vhas (u "text") v then do l <- iter (vget (u "text") v); Ok (forallb fontInfoWOFFMetadataTextValue l)
  else Ok true.
(** validators.py 396-406 and 408-418 *)
Definition fontInfoWOFFMetadataTrademarkValidator (v : pyval) : bool :=
  if negb (genericDictValidator v [req "text" TList]) then false
  else forallb fontInfoWOFFMetadataTextValue (elems (vget (u "text") v)).
Definition fontInfoWOFFMetadataCopyrightValidator := fontInfoWOFFMetadataTrademarkValidator.
(** validators.py 420-429 *)
Definition fontInfoWOFFMetadataLicenseeValidator (v : pyval) : bool :=
  if negb (genericDictValidator v [req "name" TStr; opt "dir" TStr; opt "class" TStr]) then false
  else if badDir v then false else true.
(** validators.py 471-484 *)
Definition fontInfoWOFFMetadataExtensionItemValidator (v : pyval) : bool :=
  if negb (genericDictValidator v [opt "id" TStr; req "names" TList; req "values" TList]) then false
  else if negb (forallb fontInfoWOFFMetadataExtensionNameValidator (elems (vget (u "names") v))) then false
  else forallb fontInfoWOFFMetadataExtensionValueValidator (elems (vget (u "values") v)).
(** validators.py 455-469 *)
Definition fontInfoWOFFMetadataExtensionValidator (v : pyval) : res bool :=
  if negb (genericDictValidator v [opt "names" TList; req "items" TList; opt "id" TStr]) then Ok false
  else
    do namesOk <- (if vhas (u "names") v
                   then do l <- iter (vget (u "names") v); Ok (forallb fontInfoWOFFMetadataExtensionNameValidator l)
                   else Ok true);
    if negb namesOk then Ok false
    else Ok (forallb fontInfoWOFFMetadataExtensionItemValidator (elems (vget (u "items") v))).
(** validators.py 442-453 *)
Definition fontInfoWOFFMetadataExtensionsValidator (v : pyval) : res bool :=
  if negb (is_list v) then Ok false else
  match elems v with
  | [] => Ok false
  | l => allM fontInfoWOFFMetadataExtensionValidator l
  end.

(** * Identifier, colour: validators.py 623-646 *)
Definition identifierOk (s : str) : bool :=
  match s with
  | [] => false
  | _ => if Nat.ltb 100 (length s) then false
         else forallb (fun c => negb ((c <? 32)%N || (126 <? c)%N)) s
  end.
Definition identifierValidator (v : pyval) : bool :=
  match v with PStr s => identifierOk s | _ => false end.
(** validators.py 652-720 *)
Definition colorPart (part : str) : bool :=
  let part := strip (isSpace T) part in
  let value := match parseInt T part with
               | Some z => Some (PInt z)
               | None => match parseFloat T part with Some f => Some (PFloat f) | None => None end
               end in
  match value with
  | None => false
  | Some v => if num_lt v (PInt 0) then false else if num_gt v (PInt 1) then false else true
  end.
Definition colorOk (s : str) : bool :=
  let parts := split1 44 s in
  if negb (Nat.eqb (length parts) 4) then false else forallb colorPart parts.
Definition colorValidator (v : pyval) : bool :=
  match v with PStr s => colorOk s | _ => false end.

(** * Guidelines and anchors *)
Definition optionalIdentifierOk (v : pyval) : bool :=
  let identifier := vget (u "identifier") v in is_none identifier || identifierValidator identifier.
Definition optionalColorOk (v : pyval) : bool :=
  let color := vget (u "color") v in is_none color || colorValidator color.
(** validators.py 530-568 *)
Definition guidelineProto : proto :=
  [opt "x" TNumber; opt "y" TNumber; opt "angle" TNumber; opt "name" TStr; opt "color" TStr; opt "identifier" TStr].
Definition guidelineValidator (v : pyval) : bool :=
  if negb (genericDictValidator v guidelineProto) then false else
  let x := vget (u "x") v in let y := vget (u "y") v in let angle := vget (u "angle") v in
  if is_none x && is_none y then false
  else if (is_none x || is_none y) && negb (is_none angle) then false
  else if negb (is_none x) && negb (is_none y) && is_none angle then false
  else if negb (is_none angle) && (num_lt angle (PInt 0) || num_gt angle (PInt 360)) then false
  else if negb (optionalIdentifierOk v) then false
  else optionalColorOk v.
(** validators.py 592-617 *)
Definition anchorProto : proto :=
  [opt "x" TNumber; opt "y" TNumber; opt "name" TStr; opt "color" TStr; opt "identifier" TStr].
Definition anchorValidator (v : pyval) : bool :=
  if negb (genericDictValidator v anchorProto) then false
  else if is_none (vget (u "x") v) || is_none (vget (u "y") v) then false
  else if negb (optionalIdentifierOk v) then false
  else optionalColorOk v.
(** validators.py 512-528 and 574-590: the loop; the set of identifiers is
    changed in place, so it is part of the result *)
Fixpoint uniqueLoop (itemValidator : pyval -> bool) (l : list pyval) (identifiers : list str) : bool * list str :=
  match l with
  | [] => (true, identifiers)
  | guide :: r =>
    if negb (itemValidator guide) then (false, identifiers)
    else match vget (u "identifier") guide with
         | PStr identifier =>
           if mem identifier identifiers then (false, identifiers)
           else uniqueLoop itemValidator r (identifier :: identifiers)
         | _ => uniqueLoop itemValidator r identifiers
         end
  end.
Definition guidelinesValidator (v : pyval) (identifiers : list str) : bool * list str :=
  match v with PList l => uniqueLoop guidelineValidator l identifiers | _ => (false, identifiers) end.
Definition anchorsValidator (v : pyval) (identifiers : list str) : bool * list str :=
  match v with PList l => uniqueLoop anchorValidator l identifiers | _ => (false, identifiers) end.

(** * Image: validators.py 728-749 *)
Definition imageProto : proto :=
  [req "fileName" TStr; opt "xScale" TNumber; opt "xyScale" TNumber; opt "yxScale" TNumber; opt "yScale" TNumber;
   opt "xOffset" TNumber; opt "yOffset" TNumber; opt "color" TStr].
Definition imageValidator (v : pyval) : bool :=
  if negb (genericDictValidator v imageProto) then false
  else match vget (u "fileName") v with PStr [] => false | _ => optionalColorOk v end.
End WithText.

(** validators.py 726 and 751-769: the data variant; the path and fileObj variants look at
    the first 8 bytes of a file in the same way *)
Definition pngSignature : list N := [137; 80; 78; 71; 13; 10; 26; 10]%N.
Definition pngValidator (data : list N) : bool := eqb (firstn 8 data) pngSignature.

(** * layercontents.plist: validators.py 775-828; [exists_] is fileSystem.exists
    (which raises for illegal paths) *)
Section Layers.
Variable exists_ : str -> res bool.
Fixpoint layerLoop (l : list pyval) (usedNames usedDirs : list str) (foundDefault : bool) : res bool :=
  match l with
  | [] => Ok foundDefault
  | PList [PStr layerName; PStr directoryName] :: r =>
    if negb (eqb directoryName (u "glyphs")) && negb (startswith (u "glyphs.") directoryName) then Ok false else
    match layerName with
    | [] => Ok false
    | _ =>
      do ex <- exists_ directoryName;
      if negb ex then Ok false
      else if eqb layerName (u "public.default") && negb (eqb directoryName (u "glyphs")) then Ok false
      else if mem layerName usedNames then Ok false
      else if mem directoryName usedDirs then Ok false
      else layerLoop r (layerName :: usedNames) (directoryName :: usedDirs) (foundDefault || eqb directoryName (u "glyphs"))
    end
  | _ => Ok false
  end.
Definition layerContentsValidator (v : pyval) : res bool :=
  match v with PList l => layerLoop l [] [] false | _ => Ok false end.
End Layers.

(** * groups.plist: validators.py 834-895.  The two dictionaries are kept as
    the lists of their keys. *)
Definition public_ : str := u "public.".
Definition pkern1 : str := u "public.kern1.".
Definition pkern2 : str := u "public.kern2.".
Fixpoint memberLoop (l : list pyval) (d : list str) : option (list str) :=
  match l with
  | [] => Some d
  | PStr glyphName :: r => if mem glyphName d then None else memberLoop r (glyphName :: d)
  | _ => None
  end.
Fixpoint groupsLoop (l : list (pyval * pyval)) (first second : list str) : bool :=
  match l with
  | [] => true
  | (PStr groupName, glyphList) :: r =>
    if negb (is_seq glyphList) then false else
    match groupName with
    | [] => false
    | _ =>
      if startswith public_ groupName then
        if negb (startswith pkern1 groupName) && negb (startswith pkern2 groupName) then groupsLoop r first second
        else if Nat.eqb (length groupName) 13 then false
        else if startswith pkern1 groupName
        then match memberLoop (elems glyphList) first with None => false | Some first' => groupsLoop r first' second end
        else match memberLoop (elems glyphList) second with None => false | Some second' => groupsLoop r first second' end
      else groupsLoop r first second
    end
  | _ => false
  end.
Definition groupsValidator (v : pyval) : bool :=
  match v with PDict d => groupsLoop d [] [] | _ => false end.

(** * kerning.plist: validators.py 901-931 *)
Definition kerningValidator (v : pyval) : bool :=
  is_dict v && forallb (fun '(first, secondDict) =>
    is_str first && is_dict secondDict &&
    forallb (fun '(second, value) => is_str second && is_number value) (items secondDict)) (items v).

(** * lib.plist: validators.py 939-999 *)
Definition fontLibValidator (v : pyval) : bool :=
  is_dict v && forallb (fun '(key, value) =>
    match key with
    | PStr k => if eqb k (u "public.glyphOrder") then is_seq value && forallb is_str (elems value) else true
    | _ => false
    end) (items v).
(** validators.py 1005-1037.  The message ["... %s ..." % key] raises
    TypeError when the key is a tuple of a length other than one. *)
Section WithText2.
Variable T : pytext.
Definition glyphLibValidator (v : pyval) : res bool :=
  if negb (is_dict v) then Ok false
  else allM (fun '(key, value) =>
    match key with
    | PStr k => if eqb k (u "public.markColor") then Ok (colorValidator T value) else Ok true
    | PTuple [_] => Ok false
    | PTuple _ => Err TypeError
    | _ => Ok false
    end) (items v).
End WithText2.
