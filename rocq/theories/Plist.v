(** plistlib.py: property lists as element trees.
    Python 3, where bytes become <data> elements (USE_BUILTIN_TYPES, line 40);
    skipkeys=False, dict_type=dict.  Not modelled: bytearray and plistlib.Data
    objects, use_builtin_types=False for reading, the deprecated functions
    (lines 546-584).  repr(float) is a parameter. *)
From Coq Require Import String NArith ZArith Bool Lia List.
From Coq.Floats Require Import SpecFloat.
From Verif Require Import Base PyVal PyText Xml.
Import ListNotations.
Local Open Scope string_scope.
Local Open Scope list_scope.

(** * Dates *)
(** "%0wd" % n *)
Definition pad (w : nat) (n : N) : str := zfill w (str_of_N n).
(** plistlib 80-88 *)
Definition dateToString (y mo d h mi s : N) : str :=
  pad 4 y ++ u "-" ++ pad 2 mo ++ u "-" ++ pad 2 d ++ u "T" ++ pad 2 h ++ u ":" ++ pad 2 mi ++ u ":" ++ pad 2 s ++ u "Z".
(** plistlib 56-65: [n] ASCII digits *)
Fixpoint takeDigits (n : nat) (s : str) (acc : N) : option (N * str) :=
  match n with
  | O => Some (acc, s)
  | S m => match s with c :: r => if is_digit c then takeDigits m r (dec_step acc c) else None | [] => None end
  end.
(** plistlib 58-63: the nested optional groups; each one starts with its
    separator, so that a group that fails is never followed by the final Z *)
Fixpoint dateFields (seps : list N) (s : str) : option (list N) :=
  match s with
  | [] => None
  | c :: r =>
    if N.eqb c 90 then Some []
    else match seps with
         | [] => None
         | sep :: seps' =>
           if N.eqb c sep then
             match takeDigits 2 r 0 with
             | Some (n, r') => option_map (cons n) (dateFields seps' r')
             | None => None
             end
           else None
         end
  end.
(** the datetime constructor *)
Definition leapYear (y : N) : bool := N.eqb (y mod 4) 0 && (negb (N.eqb (y mod 100) 0) || N.eqb (y mod 400) 0).
Definition daysInMonth (y m : N) : N :=
  if N.eqb m 2 then if leapYear y then 29%N else 28%N else if mem m [4; 6; 9; 11]%N then 30%N else 31%N.
Definition datetimeOk (y mo d h mi s us : N) : bool :=
  (1 <=? y)%N && (y <=? 9999)%N && (1 <=? mo)%N && (mo <=? 12)%N && (1 <=? d)%N && (d <=? daysInMonth y mo)%N &&
  (h <=? 23)%N && (mi <=? 59)%N && (s <=? 59)%N && (us <=? 999999)%N.
Definition datetime (l : list N) : res pyval :=
  match l with
  | y :: mo :: d :: r =>
    let h := nth 0 r 0%N in let mi := nth 1 r 0%N in let s := nth 2 r 0%N in
    if datetimeOk y mo d h mi s 0 then Ok (PDate y mo d h mi s 0) else Err ValueError
  | _ => Err TypeError
  end.
(** plistlib 68-77 *)
Definition dateFromString (s : str) : res pyval :=
  match takeDigits 4 s 0 with
  | None => Err AttributeError
  | Some (y, r) =>
    match dateFields [45; 45; 84; 58; 58]%N r with
    | None => Err AttributeError
    | Some l => datetime (y :: l)
    end
  end.

(** * Base64 *)
(** the standard library's b64encode *)
Definition b64char (v : N) : N :=
  (if v <? 26 then 65 + v else if v <? 52 then 97 + (v - 26) else if v <? 62 then 48 + (v - 52) else if v =? 62 then 43 else 47)%N.
Fixpoint b64encode (b : list N) : str :=
  match b with
  | x :: y :: z :: r =>
    (b64char (x / 4) :: b64char ((x mod 4) * 16 + y / 16) :: b64char ((y mod 16) * 4 + z / 64) :: b64char (z mod 64) :: b64encode r)%N
  | [x; y] => [b64char (x / 4); b64char ((x mod 4) * 16 + y / 16); b64char ((y mod 16) * 4); 61]%N
  | [x] => [b64char (x / 4); b64char ((x mod 4) * 16); 61; 61]%N
  | [] => []
  end.
(** the standard library's b64decode: binascii.a2b_base64 without strict mode;
    characters outside of the alphabet are skipped.  [pos] counts the characters
    of the quad read so far, [left] holds the bits not yet used. *)
Definition b64val (c : N) : option N :=
  (if (65 <=? c) && (c <=? 90) then Some (c - 65)
   else if (97 <=? c) && (c <=? 122) then Some (c - 97 + 26)
   else if (48 <=? c) && (c <=? 57) then Some (c - 48 + 52)
   else if c =? 43 then Some 62 else if c =? 47 then Some 63 else None)%N.
Fixpoint a2b (s : str) (pos : nat) (left : N) (pads : nat) : res (list N) :=
  match s with
  | [] => if Nat.eqb pos 0 then Ok [] else Err ValueError
  | c :: r =>
    if N.eqb c 61 then
      if Nat.leb 2 pos then if Nat.leb 4 (pos + S pads) then Ok [] else a2b r pos left (S pads)
      else a2b r pos left pads
    else
      match b64val c with
      | None => a2b r pos left pads
      | Some v =>
        match pos with
        | 0 => a2b r 1 v 0
        | 1 => do t <- a2b r 2 (v mod 16)%N 0; Ok ((left * 4 + v / 16)%N :: t)
        | 2 => do t <- a2b r 3 (v mod 4)%N 0; Ok ((left * 16 + v / 4)%N :: t)
        | _ => do t <- a2b r 0 0%N 0; Ok ((left * 64 + v)%N :: t)
        end
      end
  end.
Definition b64decode (s : str) : res (list N) :=
  if forallb (fun c => (c <? 128)%N) s then a2b s 0 0%N 0 else Err ValueError.
(** plistlib 91-103; the for loop of lines 98-100, [fuel] bounds the number of
    chunks and is the length of the text *)
Fixpoint chunks (fuel n : nat) (indent s : str) : str :=
  match fuel, s with
  | S f, _ :: _ => indent ++ firstn n s ++ chunks f n indent (skipn n s)
  | _, _ => []
  end.
Definition encodeBase64 (b : list N) (pretty : bool) (level : nat) : str :=
  let data := b64encode b in
  match data with
  | [] => data
  | _ =>
    if pretty then
      let indent := 10%N :: concat (repeat (u "  ") level) in
      let maxLength := Nat.max 16 (76 - length indent) in
      chunks (length data) maxLength indent data ++ indent
    else data
  end.

(** * totree *)
(** the order of strings: by code points *)
Fixpoint strLe (s t : str) : bool :=
  match s, t with
  | [], _ => true
  | _ :: _, [] => false
  | a :: s', b :: t' => (a <? b)%N || (N.eqb a b && strLe s' t')
  end.
Fixpoint insertItem {A} (k : str) (x : A) (l : list (str * A)) : list (str * A) :=
  match l with
  | [] => [(k, x)]
  | (k', x') :: r => if strLe k k' then (k, x) :: l else (k', x') :: insertItem k x r
  end.
Fixpoint sortItems {A} (l : list (str * A)) : list (str * A) :=
  match l with [] => [] | (k, x) :: r => insertItem k x (sortItems r) end.
(** the items of a dictionary with string keys only *)
Fixpoint strItems {A} (l : list (pyval * A)) : option (list (str * A)) :=
  match l with
  | [] => Some []
  | (PStr k, x) :: r => match strItems r with Some m => Some ((k, x) :: m) | None => None end
  | _ => None
  end.

Section Plist.
Variable T : pytext.
Variable reprFloat : spec_float -> str.

Definition keyElem (k : str) : elem := leaf (u "key") (Some (XS k)).
(** plistlib 323-330, for the elements of the values computed beforehand *)
Fixpoint dictChildren (l : list (pyval * res elem)) : res (list elem) :=
  match l with
  | [] => Ok []
  | (k, x) :: r =>
    match k with
    | PStr s => do e <- x; do t <- dictChildren r; Ok (keyElem s :: e :: t)
    | _ => Err TypeError
    end
  end.
(** plistlib 317-332.  Sorting items with a key that is no string either raises
    TypeError or puts such a key first, which raises TypeError in line 327. *)
Definition dictElement (sortKeys : bool) (l : list (pyval * res elem)) : res elem :=
  do ch <- (if sortKeys then
              match strItems l with
              | Some m => dictChildren (map (fun '(k, x) => (PStr k, x)) (sortItems m))
              | None => Err TypeError
              end
            else dictChildren l);
  Ok (node0 (u "dict") ch).

(** plistlib 289-373 and 380-396: [level] is ctx.indent_level *)
Fixpoint makeElement (sortKeys pretty : bool) (level : nat) (v : pyval) : res elem :=
  match v with
  | PStr s => Ok (leaf (u "string") (Some (XS s)))
  | PBool b => Ok (leaf (if b then u "true" else u "false") None)
  | PInt z =>
    if (- 2 ^ 63 <=? z)%Z && (z <? 2 ^ 64)%Z then Ok (leaf (u "integer") (Some (XS (str_of_Z z))))
    else Err OverflowError
  | PFloat f => Ok (leaf (u "real") (Some (XS (reprFloat f))))
  | PDict d =>
    dictElement sortKeys ((fix go d := match d with
                                       | [] => []
                                       | (k, x) :: r => (k, makeElement sortKeys pretty (S level) x) :: go r
                                       end) d)
  | PList l | PTuple l =>
    do ch <- (fix go l := match l with
                          | [] => Ok []
                          | x :: r => do e <- makeElement sortKeys pretty (S level) x; do t <- go r; Ok (e :: t)
                          end) l;
    Ok (node0 (u "array") ch)
  | PDate y mo d h mi s _ => Ok (leaf (u "date") (Some (XS (dateToString y mo d h mi s))))
  | PBytes b => Ok (leaf (u "data") (Some (XB (encodeBase64 b pretty level))))
  | PNone | POther _ => Err TypeError
  end.
(** plistlib 428-447 *)
Definition totree (sortKeys pretty : bool) (level : nat) (v : pyval) : res elem := makeElement sortKeys pretty level v.

(** * PlistTarget: plistlib 137-283 *)
(** where a value goes: it is the root, the value of a key or an item of an array *)
Inductive slot : Type := SRoot | SKey (k : str) | SItem.
(** An open dictionary or array.  Python adds the empty container to its parent
    at once and fills it later; the parent can not change in the meantime since
    it is not on top of the stack, so here it is added when it is complete. *)
Inductive frame : Type := FDict (sl : slot) (d : list (pyval * pyval)) | FList (sl : slot) (l : list pyval).
Record target := mkTarget { tstack : list frame; tkey : option str; troot : pyval; tdata : list etext }.
(** d[k] = v *)
Fixpoint dset (k : str) (v : pyval) (d : list (pyval * pyval)) : list (pyval * pyval) :=
  match d with
  | [] => [(PStr k, v)]
  | (k', v') :: r =>
    match k' with
    | PStr s => if eqb k s then (k', v) :: r else (k', v') :: dset k v r
    | _ => (k', v') :: dset k v r
    end
  end.
(** plistlib 188-200, the tests; current_key is None afterwards *)
Definition slotFor (t : target) : res slot :=
  match tkey t with
  | Some k =>
    match tstack t with
    | [] => Err IndexError
    | FDict _ _ :: _ => Ok (SKey k)
    | FList _ _ :: _ => Err ValueError
    end
  | None =>
    match tstack t with
    | [] => Ok SRoot
    | FList _ _ :: _ => Ok SItem
    | FDict _ _ :: _ => Err ValueError
    end
  end.
(** plistlib 188-200, the assignments *)
Definition place (sl : slot) (v : pyval) (t : target) : target :=
  match sl, tstack t with
  | SRoot, _ => mkTarget (tstack t) None v (tdata t)
  | SKey k, FDict s d :: r => mkTarget (FDict s (dset k v d) :: r) None (troot t) (tdata t)
  | SItem, FList s l :: r => mkTarget (FList s (l ++ [v]) :: r) None (troot t) (tdata t)
  | _, _ => t
  end.
Definition addObject (v : pyval) (t : target) : res target := do sl <- slotFor t; Ok (place sl v t).
(** plistlib 202-205: "".join refuses bytes *)
Fixpoint joinTexts (l : list etext) : res str :=
  match l with
  | [] => Ok []
  | XS s :: r => do t <- joinTexts r; Ok (s ++ t)
  | XB _ :: _ => Err TypeError
  end.
Definition getData (t : target) : res (str * target) :=
  do s <- joinTexts (tdata t); Ok (s, mkTarget (tstack t) (tkey t) (troot t) []).
Definition truthyKey (k : option str) : bool := match k with Some (_ :: _) => true | _ => false end.
(** plistlib 220, 236: the finished container is taken from the stack *)
Definition popFrame (t : target) : res target :=
  match tstack t with
  | [] => Err IndexError
  | FDict sl d :: r =>
    let k := tkey t in let t' := place sl (PDict d) (mkTarget r k (troot t) (tdata t)) in
    Ok (mkTarget (tstack t') k (troot t') (tdata t'))
  | FList sl l :: r =>
    let k := tkey t in let t' := place sl (PList l) (mkTarget r k (troot t) (tdata t)) in
    Ok (mkTarget (tstack t') k (troot t') (tdata t'))
  end.
Definition withData (t : target) (k : str -> res pyval) : res target :=
  do (s, t') <- getData t; do v <- k s; addObject v t'.

Inductive event : Type := EvStart (tag : str) | EvData (x : etext) | EvEnd (tag : str).
(** plistlib 169-173, 211-214, 229-232 *)
Definition startTag (tag : str) (t : target) : res target :=
  let t := mkTarget (tstack t) (tkey t) (troot t) [] in
  if eqb tag (u "dict") then
    do sl <- slotFor t; Ok (mkTarget (FDict sl [] :: tstack t) None (troot t) (tdata t))
  else if eqb tag (u "array") then
    do sl <- slotFor t; Ok (mkTarget (FList sl [] :: tstack t) None (troot t) (tdata t))
  else Ok t.
(** plistlib 175-178, 217-267 *)
Definition endTag (tag : str) (t : target) : res target :=
  if eqb tag (u "dict") then
    if truthyKey (tkey t) then Err ValueError else popFrame t
  else if eqb tag (u "array") then popFrame t
  else if eqb tag (u "key") then
    if truthyKey (tkey t) then Err ValueError else
    match tstack t with
    | [] => Err IndexError
    | FList _ _ :: _ => Err ValueError
    | FDict _ _ :: _ => do (s, t') <- getData t; Ok (mkTarget (tstack t') (Some s) (troot t') (tdata t'))
    end
  else if eqb tag (u "true") then addObject (PBool true) t
  else if eqb tag (u "false") then addObject (PBool false) t
  else if eqb tag (u "integer") then
    withData t (fun s => match parseInt T s with Some z => Ok (PInt z) | None => Err ValueError end)
  else if eqb tag (u "real") then
    withData t (fun s => match parseFloat T s with Some f => Ok (PFloat f) | None => Err ValueError end)
  else if eqb tag (u "string") then withData t (fun s => Ok (PStr s))
  else if eqb tag (u "data") then withData t (fun s => do b <- b64decode s; Ok (PBytes b))
  else if eqb tag (u "date") then withData t dateFromString
  else Ok t.
Definition step (t : target) (e : event) : res target :=
  match e with
  | EvStart tag => startTag tag t
  | EvData x => Ok (mkTarget (tstack t) (tkey t) (troot t) (tdata t ++ [x]))
  | EvEnd tag => endTag tag t
  end.
Definition newTarget : target := mkTarget [] None PNone [].
Definition runTarget (l : list event) : res pyval := do t <- foldM step newTarget l; Ok (troot t).

(** etree 104-112 and plistlib 454-462: the calls made for a tree *)
Fixpoint walk (e : elem) : list event :=
  let 'Elem tag _ text ch _ := e in
  EvStart tag :: (fix go l := match l with [] => [] | x :: r => walk x ++ go r end) ch ++
  (match ch with [] => [EvData (if textTruthy text then match text with Some x => x | None => XS [] end else XS [])] | _ => [] end) ++
  [EvEnd tag].
(** plistlib 450-463 *)
Definition fromtree (e : elem) : res pyval := runTarget (walk e).

(** The calls an XML parser makes for a document with the given root element
    (plistlib 469-484): the character data is reported as it occurs. *)
Definition dataEvents (x : option etext) : list event := match x with Some x => [EvData x] | None => [] end.
Fixpoint saxEvents (e : elem) : list event :=
  let 'Elem tag _ text ch _ := e in
  EvStart tag :: dataEvents text ++
  (fix go l := match l with [] => [] | x :: r => saxEvents x ++ dataEvents (option_map XS (etail x)) ++ go r end) ch ++ [EvEnd tag].
(** plistlib 469-484, for a parsed document *)
Definition loadTree (e : elem) : res pyval := runTarget (saxEvents e).
(** plistlib 504-513 *)
Definition dumpTree (sortKeys pretty : bool) (v : pyval) : res elem :=
  do el <- totree sortKeys pretty 1 v; Ok (Elem (u "plist") [(u "version", u "1.0")] None [el] None).
End Plist.
