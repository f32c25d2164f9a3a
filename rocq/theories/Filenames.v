(** Model of filenames.py (complete).
    Simplifications: user names, prefix and suffix are text strings, so the
    [isinstance] test of lines 72-73 is always passed.  [str.lower] is the
    parameter [lower]; its laws are in [LowerLaws.v].  [existing] is any
    container supporting [in]: a list of strings. *)
From Coq Require Import String NArith ZArith Bool Lia List.
From Verif Require Import Base.
Import ListNotations.
Local Open Scope string_scope.
Local Open Scope list_scope.

(** filenames.py 9-11 *)
Definition illegalCharacters : list N :=
  u """*+/:<>?[\]|" ++ [0%N] ++ map N.of_nat (seq 1 31) ++ [127%N].
(** filenames.py 12-13 *)
Definition reservedFileNames : list str :=
  map u ["con"; "prn"; "aux"; "clock$"; "nul"; "a:-z:"; "com1";
         "lpt1"; "lpt2"; "lpt3"; "com2"; "com3"; "com4"].
(** filenames.py 14 *)
Definition maxFileNameLength : Z := 255.

Definition underscore : N := 95.
Definition period : N := 46.

Section WithLower.
Variable lower : str -> str.

(** filenames.py 83-90: one round of the filter loop *)
Definition filterCharacter (c : N) : str :=
  if mem c illegalCharacters then [underscore]
  else if negb (eqb [c] (lower [c])) then [c; underscore]
  else [c].
(** filenames.py 77-80; [userName[0]] raises IndexError for an empty name *)
Definition replaceInitialPeriod (prefix userName : str) : res str :=
  match prefix with
  | _ :: _ => Ok userName
  | [] => match userName with
          | [] => Err IndexError
          | c :: r => if N.eqb c period then Ok (underscore :: r) else Ok userName
          end
  end.
(** filenames.py 97-100: one round of the loop over the parts *)
Definition escapePart (part : str) : str :=
  if mem (lower part) reservedFileNames then underscore :: part else part.

(** filenames.py 195-205: the search loop of handleClash2 *)
Fixpoint clash2Loop (fuel : nat) (counter maxValue : N) (existing : list str) (prefix suffix : str)
  : res (option str) :=
  match fuel with
  | O => Err OutOfFuel
  | S fuel' =>
    let fullName := prefix ++ str_of_N counter ++ suffix in
    if negb (mem (lower fullName) existing) then Ok (Some fullName)
    else
      let counter := (counter + 1)%N in
      if (maxValue <=? counter)%N then Ok None
      else clash2Loop fuel' counter maxValue existing prefix suffix
  end.
(** filenames.py 165-210; [int("9" * maxLength)] raises ValueError on [int("")] *)
Definition handleClash2 (existing : list str) (prefix suffix : str) : res str :=
  let maxLength := (maxFileNameLength - Z.of_nat (length prefix) - Z.of_nat (length suffix))%Z in
  if (maxLength <=? 0)%Z then Err ValueError
  else
    let maxValue := (10 ^ Z.to_N maxLength - 1)%N in
    do found <- clash2Loop (S (length existing)) 1 maxValue existing prefix suffix;
    match found with
    | None => Err NameTranslationError
    | Some n => Ok n
    end.

(** filenames.py 147-158: the search loop of handleClash1 *)
Fixpoint clash1Loop (fuel : nat) (counter : N) (userName : str) (existing : list str) (prefix suffix : str)
  : res (option str) :=
  match fuel with
  | O => Err OutOfFuel
  | S fuel' =>
    let name := userName ++ zfill 15 (str_of_N counter) in
    let fullName := prefix ++ name ++ suffix in
    if negb (mem (lower fullName) existing) then Ok (Some fullName)
    else
      let counter := (counter + 1)%N in
      if (999999999999999 <=? counter)%N then Ok None
      else clash1Loop fuel' counter userName existing prefix suffix
  end.
(** filenames.py 109-163 *)
Definition handleClash1 (userName : str) (existing : list str) (prefix suffix : str) : res str :=
  let l := (Z.of_nat (length prefix) + Z.of_nat (length userName) + Z.of_nat (length suffix) + 15)%Z in
  let userName :=
    if (maxFileNameLength <? l)%Z then slice_to (maxFileNameLength - l) userName else userName in
  do found <- clash1Loop (S (length existing)) 1 userName existing prefix suffix;
  match found with
  | None => handleClash2 existing prefix suffix
  | Some n => Ok n
  end.

(** filenames.py 82-101: filter, clip, escape reserved parts *)
Definition cleanName (prefix suffix userName : str) : str :=
  let filtered := List.concat (map filterCharacter userName) in
  let sliceLength := (maxFileNameLength - Z.of_nat (length prefix) - Z.of_nat (length suffix))%Z in
  let clipped := slice_to sliceLength filtered in
  join [period] (map escapePart (split1 period clipped)).

(** filenames.py 21-107 *)
Definition userNameToFileName (userName : str) (existing : list str) (prefix suffix : str) : res str :=
  do userName <- replaceInitialPeriod prefix userName;
  let userName := cleanName prefix suffix userName in
  let fullName := prefix ++ userName ++ suffix in
  if mem (lower fullName) existing then handleClash1 userName existing prefix suffix
  else Ok fullName.
End WithLower.

(** glifLib.py 522-534 (glyph names are text strings) *)
Definition glyphNameToFileName (lower : str -> str) (glyphName : str) (existing : list str) : res str :=
  userNameToFileName lower glyphName existing [] (u ".glif").
