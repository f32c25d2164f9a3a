(** Model of the fontinfo.plist support of __init__.py: validation
    (1637-1723), conversion between versions (1936-2204), and the data part of
    readInfo (454-506) and writeInfo (1175-1213).
    - A fontinfo dictionary maps attribute names to values.
    - The info object is the list of its attributes; setattr and getattr are
      assumed not to fail. *)
From Coq Require Import String NArith ZArith Bool Lia List.
From Coq.Floats Require Import SpecFloat.
From Verif Require Import Base PyVal PyText Validators FontInfoTables.
Import ListNotations.
Local Open Scope string_scope.
Local Open Scope list_scope.

Definition infoT := list (str * pyval).

(** ** Python number built-ins *)
(** int(f): truncation; NaN: ValueError, infinity: OverflowError *)
Definition int_of_float (f : spec_float) : res Z :=
  match f with
  | S754_nan => Err ValueError
  | S754_infinity _ => Err OverflowError
  | S754_zero _ => Ok 0%Z
  | S754_finite s m e =>
    let a := if (e <? 0)%Z then (Zpos m / 2 ^ (- e))%Z else (Zpos m * 2 ^ e)%Z in
    Ok (if s then - a else a)%Z
  end.
(** round(f): to nearest, ties to even; same exceptions *)
Definition round_float (f : spec_float) : res Z :=
  match f with
  | S754_nan => Err ValueError
  | S754_infinity _ => Err OverflowError
  | S754_zero _ => Ok 0%Z
  | S754_finite s m e =>
    let a :=
      if (e <? 0)%Z then
        let p := (2 ^ (- e))%Z in
        let q := (Zpos m / p)%Z in
        let r := (Zpos m mod p)%Z in
        match Z.compare (2 * r) p with
        | Lt => q
        | Gt => (q + 1)%Z
        | Eq => if Z.even q then q else (q + 1)%Z
        end
      else (Zpos m * 2 ^ e)%Z in
    Ok (if s then - a else a)%Z
  end.
(** int(round(v)) and int(abs(v)); other types: TypeError *)
Definition int_round (v : pyval) : res Z :=
  match v with
  | PInt z => Ok z
  | PBool b => Ok (if b then 1 else 0)%Z
  | PFloat f => round_float f
  | _ => Err TypeError
  end.
Definition int_abs (v : pyval) : res Z :=
  match v with
  | PInt z => Ok (Z.abs z)
  | PBool b => Ok (if b then 1 else 0)%Z
  | PFloat f => int_of_float (SFabs f)
  | _ => Err TypeError
  end.
(** float(abs(v)): integers are rounded to binary64 *)
Definition float_abs (v : pyval) : res spec_float :=
  match v with
  | PInt z => match binary_normalize 53 1024 (Z.abs z) 0 false with
              | S754_infinity _ => Err OverflowError
              | f => Ok f
              end
  | PBool b => Ok (if b then S754_finite false 4503599627370496 (-52) else S754_zero false)
  | PFloat f => Ok (SFabs f)
  | _ => Err TypeError
  end.
(** [try: ... except (ValueError, TypeError): raise UFOLibError] *)
Definition orUFOLibError {A} (r : res A) : res A :=
  match r with Err ValueError | Err TypeError => Err UFOLibError | _ => r end.

(** ** Validation: __init__.py 1637-1660 and 1681-1704; a KeyError for an
    unknown attribute *)
Section WithText.
Variable T : pytext.
Definition validateForAttribute (table : list (str * (pyval -> res bool))) (attr : str) (value : pyval) : res bool :=
  match get attr table with
  | None => Err KeyError
  | Some validator => validator value
  end.
Definition validateFontInfoVersion2ValueForAttribute := validateForAttribute (fontInfoAttributesVersion2ValueData T).
Definition validateFontInfoVersion3ValueForAttribute := validateForAttribute (fontInfoAttributesVersion3ValueData T).
(** __init__.py 1662-1679 and 1706-1723 *)
Fixpoint validateData (table : list (str * (pyval -> res bool))) (data : infoT) (acc : infoT) : res infoT :=
  match data with
  | [] => Ok acc
  | (attr, value) :: r =>
    do ok <- validateForAttribute table attr value;
    if negb ok then Err UFOLibError else validateData table r (set attr value acc)
  end.
Definition validateInfoVersion2Data (data : infoT) : res infoT := validateData (fontInfoAttributesVersion2ValueData T) data [].
Definition validateInfoVersion3Data (data : infoT) : res infoT := validateData (fontInfoAttributesVersion3ValueData T) data [].
Definition fontInfoAttributesVersion2 : list str := keys (fontInfoAttributesVersion2ValueData T).
Definition fontInfoAttributesVersion3 : list str := keys (fontInfoAttributesVersion3ValueData T).

(** ** 1 <-> 2 *)
(** [d.get(value)]: TypeError for an unhashable value *)
Fixpoint lookup (value : pyval) (d : list (pyval * pyval)) : option pyval :=
  match d with
  | [] => None
  | (k, v) :: r => if py_eq value k then Some v else lookup value r
  end.
Definition dictGet (d : list (pyval * pyval)) (value : pyval) : res (option pyval) :=
  if hashable value then Ok (lookup value d) else Err TypeError.
(** __init__.py 1939-1943 and 1973 *)
Definition flipPairs (d : list (pyval * pyval)) : list (pyval * pyval) := map (fun kv => (snd kv, fst kv)) d.
Definition fontInfoAttributesVersion2To1 : list (str * str) := map (fun kv => (snd kv, fst kv)) fontInfoAttributesVersion1To2.
(** __init__.py 1977-1985 *)
Definition fontStyle2To1 := flipPairs fontStyle1To2base.
Definition fontStyle1To2 := fontStyle1To2base ++ [(PInt 0, PStr (u "regular"))].
(** __init__.py 1987-2008 *)
Definition widthName2To1 := flipPairs widthName1To2base.
Definition widthName1To2 := widthName1To2base ++ map (fun n => (PStr (u n), PInt 5)) ["Normal"; "All"; "medium"; "Medium"].
(** __init__.py 2032 *)
Definition msCharSet2To1 := flipPairs msCharSet1To2.

Definition lookupAttr (attr : str) (m : list (str * str)) : str := match get attr m with Some a => a | None => attr end.
(** __init__.py 2036-2063 *)
Definition convertVia (d : list (pyval * pyval)) (value : pyval) : res pyval :=
  do v <- dictGet d value;
  match v with None => Err UFOLibError | Some w => Ok w end.
Definition floatToInt (value : pyval) : res pyval :=
  match value with
  | PFloat f => do z <- int_of_float f; Ok (if num_eq (PInt z) value then PInt z else value)
  | _ => Ok value
  end.
Definition convertValue1To2 (attr : str) (value : pyval) : res (str * pyval) :=
  do value <- floatToInt value;
  do value <- (if is_none value then Ok value
               else if eqb attr (u "fontStyle") then convertVia fontStyle1To2 value
               else if eqb attr (u "widthName") then convertVia widthName1To2 value
               else if eqb attr (u "msCharSet") then convertVia msCharSet1To2 value
               else Ok value);
  Ok (lookupAttr attr fontInfoAttributesVersion1To2, value).
(** __init__.py 2065-2079 *)
Definition optNone (v : option pyval) : pyval := match v with Some w => w | None => PNone end.
Definition convertValue2To1 (attr : str) (value : pyval) : res (str * pyval) :=
  do value <- (if is_none value then Ok value
               else if eqb attr (u "styleMapStyleName") then do v <- dictGet fontStyle2To1 value; Ok (optNone v)
               else if eqb attr (u "openTypeOS2WidthClass") then do v <- dictGet widthName2To1 value; Ok (optNone v)
               else if eqb attr (u "postscriptWindowsCharacterSet") then do v <- dictGet msCharSet2To1 value; Ok (optNone v)
               else Ok value);
  Ok (lookupAttr attr fontInfoAttributesVersion2To1, value).
(** __init__.py 2081-2098 *)
Fixpoint convertData1To2 (data : infoT) (acc : infoT) : res infoT :=
  match data with
  | [] => Ok acc
  | (attr, value) :: r =>
    if eqb attr (u "weightValue") && py_eq value (PInt (-1)) then convertData1To2 r acc
    else
      do nv <- convertValue1To2 attr value;
      if negb (mem (fst nv) fontInfoAttributesVersion2) then convertData1To2 r acc
      else if is_none value then Err UFOLibError
      else convertData1To2 r (set (fst nv) (snd nv) acc)
  end.
(** __init__.py 2100-2113 *)
Fixpoint convertData2To1 (data : infoT) (acc : infoT) : res infoT :=
  match data with
  | [] => Ok acc
  | (attr, value) :: r =>
    do nv <- convertValue2To1 attr value;
    if negb (mem (fst nv) fontInfoAttributesVersion1) then convertData2To1 r acc
    else if is_none value then Err UFOLibError
    else convertData2To1 r (set (fst nv) (snd nv) acc)
  end.

(** ** 2 <-> 3 *)
(** __init__.py 2122-2124: [set(("unitsPerEm"))] is the set of the letters *)
Definition ufo2To3NonNegativeIntOrFloat : list str := map (fun c => [c]) (u "unitsPerEm").
(** __init__.py 2152-2181 *)
Definition convertValue2To3 (attr : str) (value : pyval) : res (str * pyval) :=
  do value <- (if mem attr ufo2To3FloatToInt
               then do v <- orUFOLibError (int_round value);
                    Ok (if py_eq (PInt v) value then value else PInt v)
               else Ok value);
  do value <- (if mem attr ufo2To3NonNegativeInt
               then do v <- orUFOLibError (int_abs value);
                    Ok (if py_eq (PInt v) value then value else PInt v)
               else if mem attr ufo2To3NonNegativeIntOrFloat
               then do f <- orUFOLibError (float_abs value);
                    do z <- int_of_float f;
                    let v := if num_eq (PFloat f) (PInt z) then PInt z else PFloat f in
                    Ok (if py_eq v value then value else v)
               else Ok value);
  Ok (attr, value).
(** __init__.py 2183-2189 *)
Definition convertValue3To2 (attr : str) (value : pyval) : str * pyval := (attr, value).
(** __init__.py 2191-2198 *)
Definition convertData3To2 (data : infoT) : infoT :=
  fold_left (fun acc kv =>
    let nv := convertValue3To2 (fst kv) (snd kv) in
    if negb (mem (fst nv) fontInfoAttributesVersion2) then acc else set (fst nv) (snd nv) acc) data [].
(** __init__.py 2200-2205 *)
Fixpoint convertData2To3 (data : infoT) (acc : infoT) : res infoT :=
  match data with
  | [] => Ok acc
  | (attr, value) :: r =>
    do nv <- convertValue2To3 attr value;
    convertData2To3 r (set (fst nv) (snd nv) acc)
  end.

(** ** readInfo: __init__.py 454-506 without the file access.  [data] is the parsed
    fontinfo.plist; the result is the list of attributes set. *)
Fixpoint collect (attrs : list str) (infoDict : pyval) (acc : infoT) : infoT :=
  match attrs with
  | [] => acc
  | attr :: r => let value := vget attr infoDict in
                 collect r infoDict (if is_none value then acc else set attr value acc)
  end.
(** [perm] is the iteration order of the set fontInfoAttributesVersion1 *)
Definition readInfo (perm : list str -> list str) (formatVersion : Z) (validate : bool) (data : pyval) : res infoT :=
  if validate && negb (is_dict data) then Err UFOLibError
  else if negb (is_dict data) then Err AttributeError   (* infoDict.get *)
  else
    do info <-
      (if (formatVersion =? 1)%Z then
         do d <- convertData1To2 (collect (perm fontInfoAttributesVersion1) data []) [];
         convertData2To3 d []
       else if (formatVersion =? 2)%Z then
         convertData2To3 (collect fontInfoAttributesVersion2 data []) []
       else if (formatVersion =? 3)%Z then
         Ok (collect fontInfoAttributesVersion3 data [])
       else Err NotImplementedError);
    if validate then validateInfoVersion3Data info else Ok info.

(** ** writeInfo: __init__.py 1186-1212; the result is the dictionary written *)
Definition gather (info : infoT) : infoT :=
  fold_left (fun acc attr => match get attr info with
                             | None => acc
                             | Some v => if is_none v then acc else set attr v acc
                             end) fontInfoAttributesVersion3 [].
Definition writeInfo (formatVersion : Z) (validate : bool) (info : infoT) : res infoT :=
  let data := gather info in
  if (formatVersion =? 3)%Z then if validate then validateInfoVersion3Data data else Ok data
  else if (formatVersion =? 2)%Z then
    let data := convertData3To2 data in
    if validate then validateInfoVersion2Data data else Ok data
  else if (formatVersion =? 1)%Z then
    let data := convertData3To2 data in
    do data <- (if validate then validateInfoVersion2Data data else Ok data);
    convertData2To1 data []
  else Ok data.
(** the dictionary as a plist value *)
Definition asDict (d : infoT) : pyval := PDict (map (fun kv => (PStr (fst kv), snd kv)) d).
End WithText.
