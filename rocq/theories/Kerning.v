(** Models of kerning.py, converters.py and of the kerning/groups parts of
    UFOReader and UFOWriter that do not touch files.
    Data is typed: kerning is a nested or flat dictionary with values of any
    type [V], groups map names to lists of glyph names. *)
From Coq Require Import String NArith ZArith Bool Lia List Permutation.
From Verif Require Import Base PyVal.
Import ListNotations.
Local Open Scope string_scope.
Local Open Scope list_scope.

Definition groupsT := list (str * list str).
Definition kern1 : str := u "public.kern1.".
Definition kern2 : str := u "public.kern2.".

(** kerning.py 52-60: one group of the loop *)
Definition addGroup (maps : list (str * str) * list (str * str)) (g : str * list str)
  : list (str * str) * list (str * str) :=
  let '(m1, m2) := maps in
  let '(group, members) := g in
  if startswith kern1 group then (fold_left (fun m glyph => set glyph group m) members m1, m2)
  else if startswith kern2 group then (m1, fold_left (fun m glyph => set glyph group m) members m2)
  else (m1, m2).
Definition glyphToGroupMaps (groups : groupsT) : list (str * str) * list (str * str) :=
  fold_left addGroup groups ([], []).

Section Lookup.
Context {V : Type}.
(** kerning.py 82-84: [pair in kerning] for a pair that may contain None *)
Definition lookupPair (kerning : list (str * str * V)) (a b : option str) : option V :=
  match a, b with Some x, Some y => get (x, y) kerning | _, _ => None end.
Fixpoint firstMatch (kerning : list (str * str * V)) (pairs : list (option str * option str)) : option V :=
  match pairs with
  | [] => None
  | (a, b) :: r => match lookupPair kerning a b with Some v => Some v | None => firstMatch kerning r end
  end.
(** kerning.py 4-86 *)
Definition lookupKerningValue (pair : str * str) (kerning : list (str * str * V)) (groups : groupsT) (fallback : V)
    (glyphToFirstGroup glyphToSecondGroup : option (list (str * str))) : res V :=
  match get pair kerning with
  | Some v => Ok v
  | None =>
    do maps <- match glyphToFirstGroup, glyphToSecondGroup with
               | Some m1, Some m2 => Ok (m1, m2)
               | None, None => Ok (glyphToGroupMaps groups)
               | _, _ => Err AssertionError
               end;
    let '(m1, m2) := maps in
    let '(first, second) := pair in
    let '(first, firstGroup) := if startswith kern1 first then (None, Some first) else (Some first, get first m1) in
    let '(second, secondGroup) := if startswith kern2 second then (None, Some second) else (Some second, get second m2) in
    match firstMatch kerning [(first, second); (first, secondGroup); (firstGroup, second); (firstGroup, secondGroup)] with
    | Some v => Ok v
    | None => Ok fallback
    end
  end.
End Lookup.

(** * converters.py *)
(** [s.replace(p, "")] for non-empty [p] *)
Fixpoint removeAllAux (p : str) (skip : nat) (s : str) : str :=
  match s with
  | [] => []
  | c :: r =>
    match skip with
    | S k => removeAllAux p k r
    | O => if startswith p s then removeAllAux p (pred (length p)) r else c :: removeAllAux p O r
    end
  end.
Definition removeAll (p s : str) : str := removeAllAux p O s.

(** converters.py 117-126; the recursion is bounded by the number of names *)
Fixpoint makeUniqueGroupNameAux (fuel : nat) (name : str) (groupNames : list str) (counter : N) : res str :=
  match fuel with
  | O => Err OutOfFuel
  | S fuel' =>
    let newName := if (0 <? counter)%N then name ++ str_of_N counter else name in
    if mem newName groupNames then makeUniqueGroupNameAux fuel' name groupNames (counter + 1)
    else Ok newName
  end.
Definition makeUniqueGroupName (name : str) (groupNames : list str) : res str :=
  makeUniqueGroupNameAux (S (length groupNames)) name groupNames 0.

(** [s.add(x)]; a set is a list without duplicates *)
Definition sadd (x : str) (s : list str) : list str := if mem x s then s else s ++ [x].

(** converters.py 66-114 *)
Definition findKnownKerningGroups (groups : groupsT) : list str * list str :=
  fold_left (fun '(f, s) name =>
    (if startswith (u "@MMK_L_") name then sadd name f else f,
     if startswith (u "@MMK_R_") name then sadd name s else s)) (keys groups) ([], []).

Section Convert.
Context {V : Type}.
Definition nestedT := list (str * list (str * V)).

(** converters.py 14-21 *)
Definition referencedGroups (kerning : nestedT) (groups : groupsT) (acc : list str * list str) : list str * list str :=
  fold_left (fun '(f, s) '(first, seconds) =>
    (if has first groups then if negb (startswith kern1 first) then sadd first f else f else f,
     fold_left (fun s second =>
       if has second groups then if negb (startswith kern2 second) then sadd second s else s else s)
       (keys seconds) s)) kerning acc.

(** converters.py 23-34 and 35-46: the renaming loop of one side;
    [order] is the iteration order of the set *)
Fixpoint renameLoop (newPrefix oldPrefix : str) (groups : groupsT) (order : list str) (renamed : list (str * str))
  : res (list (str * str)) :=
  match order with
  | [] => Ok renamed
  | first :: r =>
    let existing := keys groups ++ keys renamed in
    do newName <- makeUniqueGroupName (newPrefix ++ removeAll oldPrefix first) existing;
    renameLoop newPrefix oldPrefix groups r (set first newName renamed)
  end.

Definition getd (k : str) (m : list (str * str)) : str := match get k m with Some x => x | None => k end.

(** converters.py 48-55 *)
Definition renameKerning (r1 r2 : list (str * str)) (kerning : nestedT) : nestedT :=
  fold_left (fun nk '(first, seconds) =>
    set (getd first r1)
        (fold_left (fun ns '(second, value) => set (getd second r2) value ns) seconds []) nk) kerning [].

(** converters.py 58-62; [groups[oldName]] raises KeyError if missing *)
Fixpoint copyGroups (renamed : list (str * str)) (groups : groupsT) : res groupsT :=
  match renamed with
  | [] => Ok groups
  | (old, new) :: r =>
    match get old groups with
    | None => Err KeyError
    | Some members => copyGroups r (set new members groups)
    end
  end.

(** converters.py 10-64; [perm] gives the iteration order of a python set *)
Definition convertKerning (perm : list str -> list str) (kerning : nestedT) (groups : groupsT)
  : res (nestedT * groupsT * (list (str * str) * list (str * str))) :=
  let '(f, s) := referencedGroups kerning groups (findKnownKerningGroups groups) in
  do r1 <- renameLoop kern1 (u "@MMK_L_") groups (perm f) [];
  do r2 <- renameLoop kern2 (u "@MMK_R_") groups (perm s) [];
  let newKerning := renameKerning r1 r2 kerning in
  do groups' <- copyGroups (r1 ++ r2) groups;
  Ok (newKerning, groups', (r1, r2)).

(** * UFOReader.readKerning 537-541 and UFOWriter.writeKerning 1249-1263 *)
(** __init__.py 537-542 *)
Definition flatten (kerning : nestedT) : list (str * str * V) :=
  fold_left (fun acc '(lft, rights) =>
    fold_left (fun acc '(rgt, value) => set (lft, rgt) value acc) rights acc) kerning [].
(** __init__.py 1258-1263 *)
Definition nest (kerning : list (str * str * V)) : nestedT :=
  fold_left (fun d '((lft, rgt), value) =>
    let inner := match get lft d with Some i => i | None => [] end in
    set lft (set rgt value inner) d) kerning [].
(** __init__.py 1116-1120 *)
Definition flipMaps (maps : list (str * str) * list (str * str)) : list (str * str) :=
  fold_left (fun m '(writeName, dataName) => set dataName writeName m) (fst maps ++ snd maps) [].
(** __init__.py 1250-1256 *)
Definition remapKerning (remap : list (str * str)) (kerning : list (str * str * V)) : list (str * str * V) :=
  fold_left (fun k '((s1, s2), value) => set (getd s1 remap, getd s2 remap) value k) kerning [].
End Convert.
(** __init__.py 1140-1163 *)
Definition remapGroups {A : Type} (remap : list (str * str)) (groups : list (str * A)) : list (str * A) :=
  let kept := fold_left (fun g '(name, contents) => if has name remap then g else set name contents g) groups [] in
  fold_left (fun g '(name, contents) =>
    match get name remap with None => g | Some old => set old contents g end) groups kept.
