(** plistlib.py: the options of its functions that Plist.v leaves out.
    skipkeys, use_builtin_types, plistlib.Data objects and bytearrays.  dict_type is
    dict.  readPlist, writePlist, readPlistFromString and writePlistToString (546-584)
    are load, dump, loads and dumps with use_builtin_types=False; opening and closing
    a file by its path, and the warnings, are not modelled. *)
From Coq Require Import String NArith ZArith Bool Lia List.
From Coq.Floats Require Import SpecFloat.
From Verif Require Import Base PyVal PyText Xml FS Plist Etree.
Import ListNotations.
Local Open Scope string_scope.
Local Open Scope list_scope.

(** objects: a value of Plist.v that is no container ([OAtom]; of a list, tuple or
    dictionary it stands for no object), Data, bytearray and the containers.  Keys
    are hashable, which Data objects and bytearrays are not. *)
Inductive pobj : Type :=
| OAtom (v : pyval)
| OData (b : bytes)
| OByteArray (b : bytes)
| OList (l : list pobj)
| OTuple (l : list pobj)
| ODict (d : list (pyval * pobj)).

(** plistlib 91-103 for any maxlinelength; None and 0 are false *)
Definition asBase64 (maxlinelength : option Z) (level : nat) (b : bytes) : str :=
  let data := b64encode b in
  let indent := 10%N :: concat (repeat (u "  ") level) in
  match data, maxlinelength with
  | [], _ | _, None | _, Some 0%Z => data
  | _, Some n => chunks (length data) (Z.to_nat (Z.max 16 (n - Z.of_nat (length indent)))) indent data ++ indent
  end.
(** plistlib 116-118 *)
Definition fromBase64 (s : str) : res pobj := do b <- b64decode s; Ok (OData b).

Section Options.
Variable T : pytext.
Variable R : spec_float -> str.
(** whether sorted() can compare keys none of which is a string *)
Variable comparable : list pyval -> bool.

(** plistlib 323-330 *)
Fixpoint dictChildrenO (skip : bool) (l : list (pyval * res elem)) : res (list elem) :=
  match l with
  | [] => Ok []
  | (PStr s, x) :: r => do e <- x; do t <- dictChildrenO skip r; Ok (keyElem s :: e :: t)
  | _ :: r => if skip then dictChildrenO skip r else Err TypeError
  end.
(** sorted(items): a string can not be compared with anything else, and sorting
    compares some string with some other key if there are both.  The order of
    other keys is left as it is: they are skipped or the first of them raises. *)
Definition sortedO {A} (l : list (pyval * A)) : res (list (pyval * A)) :=
  match strItems l with
  | Some m => Ok (map (fun '(k, x) => (PStr k, x)) (sortItems m))
  | None => if existsb is_str (map fst l) || negb (comparable (map fst l)) then Err TypeError else Ok l
  end.
(** plistlib 317-332 *)
Definition dictElementO (skip sortKeys : bool) (l : list (pyval * res elem)) : res elem :=
  do l' <- (if sortKeys then sortedO l else Ok l);
  do ch <- dictChildrenO skip l';
  Ok (node0 (u "dict") ch).
(** plistlib 289-373 and 380-396 *)
Fixpoint makeElementO (builtin skip sortKeys pretty : bool) (level : nat) (v : pobj) : res elem :=
  match v with
  | OAtom (PBytes b) =>
    if builtin then makeElement R sortKeys pretty level (PBytes b)
    else if forallb (fun c => (c <? 128)%N) b then Ok (leaf (u "string") (Some (XS b)))
    else Err ValueError
  | OAtom (PList _) | OAtom (PTuple _) | OAtom (PDict _) => Err TypeError
  | OAtom a => makeElement R sortKeys pretty level a
  | OData b | OByteArray b => makeElement R sortKeys pretty level (PBytes b)
  | ODict d =>
    dictElementO skip sortKeys ((fix go d := match d with
                                             | [] => []
                                             | (k, x) :: r => (k, makeElementO builtin skip sortKeys pretty (S level) x) :: go r
                                             end) d)
  | OList l | OTuple l =>
    do ch <- (fix go l := match l with
                          | [] => Ok []
                          | x :: r => do e <- makeElementO builtin skip sortKeys pretty (S level) x; do t <- go r; Ok (e :: t)
                          end) l;
    Ok (node0 (u "array") ch)
  end.
(** plistlib 428-447 *)
Definition totreeO : bool -> bool -> bool -> bool -> nat -> pobj -> res elem := makeElementO.
(** plistlib 492-543 *)
Definition plistDumpsO (builtin skip sortKeys pretty : bool) (v : pobj) : res bytes :=
  do el <- totreeO builtin skip sortKeys pretty 1 v;
  do b <- tostring T false pretty (Elem (u "plist") [(u "version", u "1.0")] None [el] None);
  Ok ((if pretty then xmlDeclaration ++ [10%N] ++ plistDoctype ++ [10%N] else xmlDeclaration ++ plistDoctype) ++ b).

(** * PlistTarget, plistlib 137-283, as in Plist.v *)
Inductive frameO : Type := FDictO (sl : slot) (d : list (pyval * pobj)) | FListO (sl : slot) (l : list pobj).
Record targetO := mkTargetO { ostack : list frameO; okey : option str; oroot : pobj; odata : list etext }.
(** d[k] = v *)
Fixpoint dsetO (k : str) (v : pobj) (d : list (pyval * pobj)) : list (pyval * pobj) :=
  match d with
  | [] => [(PStr k, v)]
  | (k', v') :: r =>
    match k' with
    | PStr s => if eqb k s then (k', v) :: r else (k', v') :: dsetO k v r
    | _ => (k', v') :: dsetO k v r
    end
  end.
(** plistlib 188-200 *)
Definition slotForO (t : targetO) : res slot :=
  match okey t with
  | Some k =>
    match ostack t with
    | [] => Err IndexError
    | FDictO _ _ :: _ => Ok (SKey k)
    | FListO _ _ :: _ => Err ValueError
    end
  | None =>
    match ostack t with
    | [] => Ok SRoot
    | FListO _ _ :: _ => Ok SItem
    | FDictO _ _ :: _ => Err ValueError
    end
  end.
Definition placeO (sl : slot) (v : pobj) (t : targetO) : targetO :=
  match sl, ostack t with
  | SRoot, _ => mkTargetO (ostack t) None v (odata t)
  | SKey k, FDictO s d :: r => mkTargetO (FDictO s (dsetO k v d) :: r) None (oroot t) (odata t)
  | SItem, FListO s l :: r => mkTargetO (FListO s (l ++ [v]) :: r) None (oroot t) (odata t)
  | _, _ => t
  end.
Definition addObjectO (v : pobj) (t : targetO) : res targetO := do sl <- slotForO t; Ok (placeO sl v t).
(** plistlib 202-205 *)
Definition getDataO (t : targetO) : res (str * targetO) :=
  do s <- joinTexts (odata t); Ok (s, mkTargetO (ostack t) (okey t) (oroot t) []).
(** plistlib 220, 236 *)
Definition popFrameO (t : targetO) : res targetO :=
  match ostack t with
  | [] => Err IndexError
  | FDictO sl d :: r =>
    let k := okey t in let t' := placeO sl (ODict d) (mkTargetO r k (oroot t) (odata t)) in
    Ok (mkTargetO (ostack t') k (oroot t') (odata t'))
  | FListO sl l :: r =>
    let k := okey t in let t' := placeO sl (OList l) (mkTargetO r k (oroot t) (odata t)) in
    Ok (mkTargetO (ostack t') k (oroot t') (odata t'))
  end.
Definition withDataO (t : targetO) (k : str -> res pobj) : res targetO :=
  do (s, t') <- getDataO t; do v <- k s; addObjectO v t'.
(** plistlib 169-173, 211-214, 229-232 *)
Definition startTagO (tag : str) (t : targetO) : res targetO :=
  let t := mkTargetO (ostack t) (okey t) (oroot t) [] in
  if eqb tag (u "dict") then
    do sl <- slotForO t; Ok (mkTargetO (FDictO sl [] :: ostack t) None (oroot t) (odata t))
  else if eqb tag (u "array") then
    do sl <- slotForO t; Ok (mkTargetO (FListO sl [] :: ostack t) None (oroot t) (odata t))
  else Ok t.
(** plistlib 175-178, 217-267; line 260-264 looks at use_builtin_types *)
Definition endTagO (builtin : bool) (tag : str) (t : targetO) : res targetO :=
  if eqb tag (u "dict") then
    if truthyKey (okey t) then Err ValueError else popFrameO t
  else if eqb tag (u "array") then popFrameO t
  else if eqb tag (u "key") then
    if truthyKey (okey t) then Err ValueError else
    match ostack t with
    | [] => Err IndexError
    | FListO _ _ :: _ => Err ValueError
    | FDictO _ _ :: _ => do (s, t') <- getDataO t; Ok (mkTargetO (ostack t') (Some s) (oroot t') (odata t'))
    end
  else if eqb tag (u "true") then addObjectO (OAtom (PBool true)) t
  else if eqb tag (u "false") then addObjectO (OAtom (PBool false)) t
  else if eqb tag (u "integer") then
    withDataO t (fun s => match parseInt T s with Some z => Ok (OAtom (PInt z)) | None => Err ValueError end)
  else if eqb tag (u "real") then
    withDataO t (fun s => match parseFloat T s with Some f => Ok (OAtom (PFloat f)) | None => Err ValueError end)
  else if eqb tag (u "string") then withDataO t (fun s => Ok (OAtom (PStr s)))
  else if eqb tag (u "data") then
    withDataO t (fun s => if builtin then do b <- b64decode s; Ok (OAtom (PBytes b)) else fromBase64 s)
  else if eqb tag (u "date") then withDataO t (fun s => do d <- dateFromString s; Ok (OAtom d))
  else Ok t.
Definition stepO (builtin : bool) (t : targetO) (e : event) : res targetO :=
  match e with
  | EvStart tag => startTagO tag t
  | EvData x => Ok (mkTargetO (ostack t) (okey t) (oroot t) (odata t ++ [x]))
  | EvEnd tag => endTagO builtin tag t
  end.
Definition newTargetO : targetO := mkTargetO [] None (OAtom PNone) [].
Definition runTargetO (builtin : bool) (l : list event) : res pobj := do t <- foldM (stepO builtin) newTargetO l; Ok (oroot t).
(** plistlib 450-463 *)
Definition fromtreeO (builtin : bool) (e : elem) : res pobj := runTargetO builtin (walk e).
(** plistlib 469-489 *)
Definition plistLoadsO (builtin : bool) (b : bytes) : res pobj := do e <- parseBytes b; runTargetO builtin (saxEvents e).
(** plistlib 551-584 *)
Definition readPlistFromString : bytes -> res pobj := plistLoadsO false.
Definition writePlistToString : pobj -> res bytes := plistDumpsO false false true true.
End Options.
