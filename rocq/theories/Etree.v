(** etree.py without lxml: the serializer (lines 128-485), and a description of
    the XML parser of the standard library.
    Not modelled of etree.py: tags in "{namespace}" notation, other output
    methods, encodings other than UTF-8, the doctype argument, output to named
    files, comments and processing instructions. *)
From Coq Require Import String NArith ZArith Bool Lia List.
From Coq.Floats Require Import SpecFloat.
From Verif Require Import Base PyVal PyText Xml FS Ufo Plist.
Import ListNotations.
Local Open Scope string_scope.
Local Open Scope list_scope.

(** * Serializer *)
(** etree 238-240: _invalid_xml_string *)
Definition invalidXml (c : N) : bool :=
  ((c <=? 8) || ((11 <=? c) && (c <=? 12)) || ((14 <=? c) && (c <=? 31)) || ((0xD800 <=? c) && (c <=? 0xDFFF)) || ((0xFFFE <=? c) && (c <=? 0xFFFF)))%N.
(** etree 242-261 *)
Definition toUnicode (x : etext) : res str :=
  do s <- match x with
          | XS s => Ok s
          | XB b => if forallb (fun c => (c <? 128)%N) b then Ok b else Err ValueError
          end;
  if existsb invalidXml s then Err ValueError else Ok s.
(** s.replace(c, r) for a single character *)
Definition replaceChar (c : N) (r s : str) : str := flat_map (fun x => if N.eqb x c then r else [x]) s.
(** etree 438-451 *)
Definition escapeCdata (x : etext) : res str :=
  do s <- toUnicode x;
  let s := replaceChar 38 (u "&amp;") s in
  let s := replaceChar 60 (u "&lt;") s in
  Ok (replaceChar 62 (u "&gt;") s).
(** etree 453-469 *)
Definition escapeAttrib (x : etext) : res str :=
  do s <- toUnicode x;
  let s := replaceChar 38 (u "&amp;") s in
  let s := replaceChar 60 (u "&lt;") s in
  let s := replaceChar 62 (u "&gt;") s in
  let s := replaceChar 34 (u "&quot;") s in
  Ok (replaceChar 10 (u "&#10;") s).
(** etree 403-420; the attributes are an ordered dictionary (_Attrib) *)
Fixpoint serializeAttribs (l : list (str * str)) : res str :=
  match l with
  | [] => Ok []
  | (k, v) :: r =>
    do k' <- toUnicode (XS k); do v' <- escapeAttrib (XS v); do t <- serializeAttribs r;
    Ok (u " " ++ k' ++ u "=""" ++ v' ++ u """" ++ t)
  end.
(** etree 423-424 and 430-431: written only when not empty *)
Definition serializeText (x : option etext) : res str :=
  if textTruthy x then match x with Some x => escapeCdata x | None => Ok [] end else Ok [].
(** etree 380-431.  All errors are ValueErrors (line 257), so that the order of
    the checks does not matter; what has been written before an exception is not
    recorded. *)
Fixpoint serialize (e : elem) : res str :=
  let 'Elem tag at' text ch tail := e in
  do t <- toUnicode (XS tag);
  do a <- serializeAttribs at';
  do body <- (if match text with Some _ => true | None => false end || negb (Nat.eqb (length ch) 0) then
                do x <- serializeText text;
                do c <- (fix go l := match l with [] => Ok [] | k :: r => do s <- serialize k; do t <- go r; Ok (s ++ t) end) ch;
                Ok (u ">" ++ x ++ c ++ u "</" ++ t ++ u ">")
              else Ok (u "/>"));
  do tl <- serializeText (option_map XS tail);
  Ok (u "<" ++ t ++ a ++ body ++ tl).

(** * Pretty printing *)
Section Indent.
Variable T : pytext.
(** etree 475, 477, 481, 484: not s or not s.strip() *)
Definition blankStr (s : option str) : bool := match s with None => true | Some s => forallb (isSpace T) s end.
Definition bytesSpace (c : N) : bool := mem c [9; 10; 11; 12; 13; 32]%N.
Definition blankText (x : option etext) : bool :=
  match x with None => true | Some (XS s) => forallb (isSpace T) s | Some (XB b) => forallb bytesSpace b end.
Definition indentStr (level : nat) : str := 10%N :: concat (repeat (u "  ") level).
Definition setTail (t : option str) (e : elem) : elem := let 'Elem a b c d _ := e in Elem a b c d t.
(** etree 481-482: here [elem] is the last child *)
Fixpoint fixLast (i : str) (l : list elem) : list elem :=
  match l with
  | [] => []
  | [e] => [if blankStr (etail e) then setTail (Some i) e else e]
  | e :: r => e :: fixLast i r
  end.
(** etree 471-485 *)
Fixpoint indent (level : nat) (e : elem) : elem :=
  let 'Elem tag at' text ch tail := e in
  let i := indentStr level in
  match ch with
  | [] => Elem tag at' text [] (if negb (Nat.eqb level 0) && blankStr tail then Some i else tail)
  | _ =>
    Elem tag at'
      (if blankText text then Some (XS (i ++ u "  ")) else text)
      (fixLast i (map (indent (S level)) ch))
      (if blankStr tail then Some i else tail)
  end.
End Indent.

(** * A description of XML parsing
    This is not code of ufoLib but of the standard library (expat), like FS.v for
    the fs library: what XML 1.0 says about documents in UTF-8 without entity
    declarations and references to external or declared entities.  Documents with
    one of these, with names that are not ASCII or contain a colon, with xmlns
    attributes or with a byte order mark are refused here.  Comments and processing
    instructions leave no trace, as with the parsers ufoLib makes.  A reference to
    white space outside of the root element is accepted here. *)
Definition xmlChar (c : N) : bool := negb (invalidXml c) && (c <=? 0x10FFFF)%N.
Definition xmlSpace (c : N) : bool := mem c [9; 10; 13; 32]%N.
Definition nameStart (c : N) : bool :=
  (((65 <=? c) && (c <=? 90)) || ((97 <=? c) && (c <=? 122)) || (c =? 95))%N.
Definition nameChar (c : N) : bool := nameStart c || ((48 <=? c) && (c <=? 57))%N || (c =? 45)%N || (c =? 46)%N.
Definition isName (s : str) : bool := match s with [] => false | c :: r => nameStart c && forallb nameChar r end.

(** references: the five predefined entities and characters by number *)
Definition hexVal (c : N) : option N :=
  (if (48 <=? c) && (c <=? 57) then Some (c - 48)
   else if (65 <=? c) && (c <=? 70) then Some (c - 55)
   else if (97 <=? c) && (c <=? 102) then Some (c - 87) else None)%N.
Fixpoint readBase (val : N -> option N) (base : N) (s : str) (acc : N) : option N :=
  match s with
  | [] => Some acc
  | c :: r => match val c with Some d => readBase val base r (acc * base + d)%N | None => None end
  end.
Definition charRef (s : str) : option N :=
  let n := match s with
           | [] => None
           | 120%N :: [] => None
           | 120%N :: r => readBase hexVal 16 r 0
           | _ => readBase asciiDigit 10 s 0
           end in
  match n with Some c => if xmlChar c then Some c else None | None => None end.
Definition entity (s : str) : option N :=
  if eqb s (u "amp") then Some 38%N else if eqb s (u "lt") then Some 60%N else if eqb s (u "gt") then Some 62%N
  else if eqb s (u "quot") then Some 34%N else if eqb s (u "apos") then Some 39%N
  else match s with 35%N :: r => charRef r | _ => None end.
(** [norm] is applied to characters that are not written as references;
    [pend] is the reference read so far, reversed *)
Fixpoint unescape (norm : N -> N) (s : str) (pend : option str) : option str :=
  match s with
  | [] => match pend with None => Some [] | Some _ => None end
  | c :: r =>
    match pend with
    | None => if N.eqb c 38 then unescape norm r (Some []) else option_map (cons (norm c)) (unescape norm r None)
    | Some e =>
      if N.eqb c 59 then
        match entity (rev e) with Some x => option_map (cons x) (unescape norm r None) | None => None end
      else unescape norm r (Some (c :: e))
    end
  end.
(** white space in attribute values becomes spaces *)
Definition normAttr (c : N) : N := if xmlSpace c then 32%N else c.
(** line ends become line feeds *)
Fixpoint normEol (s : str) : str :=
  match s with
  | [] => []
  | 13%N :: r => match r with 10%N :: _ => normEol r | _ => 10%N :: normEol r end
  | c :: r => c :: normEol r
  end.
(** "]]>" must not occur in character data *)
Fixpoint hasCdEnd (s : str) : bool :=
  match s with
  | [] => false
  | c :: r => startswith (u "]]>") s || hasCdEnd r
  end.

Inductive tok : Type := TOpen (tag : str) (attrib : list (str * str)) | TClose (tag : str) | TText (s : str) | TCdata (s : str).
Inductive mode : Type :=
| MText (acc : str) | MLt | MName (acc : str) | MEnd (tag : str) (at' : list (str * str)) | MTag (tag : str) (at' : list (str * str))
| MAttr (tag : str) (at' : list (str * str)) (acc : str) | MEq (tag : str) (at' : list (str * str)) (name : str)
| MQuote (tag : str) (at' : list (str * str)) (name : str) | MVal (tag : str) (at' : list (str * str)) (name : str) (q : N) (acc : str)
| MSlash (tag : str) (at' : list (str * str)) | MClose (acc : str) | MCloseEnd (tag : str)
| MBang (acc : str) | MComment (dashes : nat) | MCdata (acc : str) | MPi (acc : str) | MPiBody | MPiEnd (only : bool).
(** the target of a processing instruction is a name, but not "xml" *)
Definition isTarget (s : str) : bool := isName s && negb (eqb (ascii_lower s) (u "xml")).
Definition flush (acc : str) : option (list tok) :=
  match acc with
  | [] => Some []
  | _ => if hasCdEnd (rev acc) then None else option_map (fun s => [TText s]) (unescape (fun c => c) (rev acc) None)
  end.
Definition emit (t : list tok) (r : option (list tok)) : option (list tok) := option_map (app t) r.
Fixpoint lex (m : mode) (s : str) : option (list tok) :=
  match s with
  | [] => match m with MText acc => flush acc | _ => None end
  | c :: r =>
    match m with
    | MText acc =>
      if N.eqb c 60 then match flush acc with Some t => emit t (lex MLt r) | None => None end
      else lex (MText (c :: acc)) r
    | MLt => if N.eqb c 47 then lex (MClose []) r else if nameStart c then lex (MName [c]) r
             else if N.eqb c 33 then lex (MBang []) r else if N.eqb c 63 then lex (MPi []) r else None
    | MName acc =>
      if nameChar c then lex (MName (c :: acc)) r
      else if xmlSpace c then lex (MTag (rev acc) []) r
      else if N.eqb c 62 then emit [TOpen (rev acc) []] (lex (MText []) r)
      else if N.eqb c 47 then lex (MSlash (rev acc) []) r
      else None
    | MEnd tag at' =>
      if xmlSpace c then lex (MTag tag at') r
      else if N.eqb c 62 then emit [TOpen tag at'] (lex (MText []) r)
      else if N.eqb c 47 then lex (MSlash tag at') r
      else None
    | MTag tag at' =>
      if xmlSpace c then lex (MTag tag at') r
      else if N.eqb c 62 then emit [TOpen tag at'] (lex (MText []) r)
      else if N.eqb c 47 then lex (MSlash tag at') r
      else if nameStart c then lex (MAttr tag at' [c]) r
      else None
    | MAttr tag at' acc =>
      if nameChar c then lex (MAttr tag at' (c :: acc)) r
      else if N.eqb c 61 then lex (MQuote tag at' (rev acc)) r
      else if xmlSpace c then lex (MEq tag at' (rev acc)) r
      else None
    | MEq tag at' name =>
      if xmlSpace c then lex (MEq tag at' name) r else if N.eqb c 61 then lex (MQuote tag at' name) r else None
    | MQuote tag at' name =>
      if xmlSpace c then lex (MQuote tag at' name) r
      else if N.eqb c 34 || N.eqb c 39 then lex (MVal tag at' name c []) r
      else None
    | MVal tag at' name q acc =>
      if N.eqb c q then
        match unescape normAttr (rev acc) None with
        | Some v => if mem name (map fst at') || eqb name (u "xmlns") then None else lex (MEnd tag (at' ++ [(name, v)])) r
        | None => None
        end
      else if N.eqb c 60 then None
      else lex (MVal tag at' name q (c :: acc)) r
    | MSlash tag at' => if N.eqb c 62 then emit [TOpen tag at'; TClose tag] (lex (MText []) r) else None
    | MClose acc =>
      if match acc with [] => nameStart c | _ => nameChar c end then lex (MClose (c :: acc)) r
      else match acc with
           | [] => None
           | _ => if N.eqb c 62 then emit [TClose (rev acc)] (lex (MText []) r)
                  else if xmlSpace c then lex (MCloseEnd (rev acc)) r else None
           end
    | MCloseEnd tag =>
      if xmlSpace c then lex (MCloseEnd tag) r else if N.eqb c 62 then emit [TClose tag] (lex (MText []) r) else None
    | MBang acc =>
      let acc := c :: acc in
      if eqb (rev acc) (u "--") then lex (MComment 0) r
      else if eqb (rev acc) (u "[CDATA[") then lex (MCdata []) r
      else if startswith (rev acc) (u "--") || startswith (rev acc) (u "[CDATA[") then lex (MBang acc) r
      else None
    | MComment 0 => lex (MComment (if N.eqb c 45 then 1 else 0)) r
    | MComment 1 => lex (MComment (if N.eqb c 45 then 2 else 0)) r
    | MComment _ => if N.eqb c 62 then lex (MText []) r else None
    | MCdata acc =>
      match acc with
      | 93%N :: 93%N :: acc' => if N.eqb c 62 then emit [TCdata (rev acc')] (lex (MText []) r) else lex (MCdata (c :: acc)) r
      | _ => lex (MCdata (c :: acc)) r
      end
    | MPi acc =>
      if nameChar c then lex (MPi (c :: acc)) r
      else if negb (isTarget (rev acc)) then None
      else if xmlSpace c then lex MPiBody r
      else if N.eqb c 63 then lex (MPiEnd true) r else None
    | MPiBody => lex (if N.eqb c 63 then MPiEnd false else MPiBody) r
    | MPiEnd only => if N.eqb c 62 then lex (MText []) r else if only then None else lex (if N.eqb c 63 then MPiEnd false else MPiBody) r
    end
  end.
(** building the tree: open elements, innermost first, with their children reversed *)
Record open := mkOpen { otag : str; oattrib : list (str * str); otext : option str; orev : list elem }.
(** character data is put together when comments, processing instructions or the
    limits of CDATA sections are between its parts *)
Definition moreText (old : option str) (s : str) : option str := match old with None => Some s | Some t => Some (t ++ s) end.
Definition addText (s : str) (o : open) : open :=
  match orev o with
  | [] => mkOpen (otag o) (oattrib o) (moreText (otext o) s) []
  | e :: r => mkOpen (otag o) (oattrib o) (otext o) (setTail (moreText (etail e) s) e :: r)
  end.
Fixpoint build (l : list tok) (stack : list open) (done : option elem) : option elem :=
  match l with
  | [] => match stack with [] => done | _ => None end
  | TOpen tag at' :: r =>
    match stack, done with
    | [], Some _ => None
    | _, _ => build r (mkOpen tag at' None [] :: stack) done
    end
  | TClose tag :: r =>
    match stack with
    | [] => None
    | o :: st =>
      if eqb tag (otag o) then
        let e := Elem (otag o) (oattrib o) (option_map XS (otext o)) (rev (orev o)) None in
        match st with
        | [] => build r [] (Some e)
        | p :: st' => build r (mkOpen (otag p) (oattrib p) (otext p) (e :: orev p) :: st') done
        end
      else None
    end
  | TText s :: r =>
    match stack with
    | [] => if forallb xmlSpace s then build r [] done else None
    | o :: st => build r (addText s o :: st) done
    end
  | TCdata s :: r =>
    match stack with
    | [] => None
    | o :: st => build r ((match s with [] => o | _ => addText s o end) :: st) done
    end
  end.
(** the part of [s] behind the first occurrence of [p] *)
Fixpoint after (p s : str) : option str :=
  if startswith p s then Some (skipn (length p) s)
  else match s with [] => None | _ :: r => after p r end.
Fixpoint skipSpace (s : str) : str := match s with c :: r => if xmlSpace c then skipSpace r else s | [] => [] end.
(** until ">"; "[" would start an internal subset *)
Fixpoint skipDoctype (s : str) : option str :=
  match s with [] => None | c :: r => if N.eqb c 62 then Some r else if N.eqb c 91 then None else skipDoctype r end.
(** comments and processing instructions before the document type declaration;
    [fuel] bounds their number *)
Fixpoint nameOf (s : str) : str := match s with c :: r => if nameChar c then c :: nameOf r else [] | [] => [] end.
Fixpoint skipMisc (fuel : nat) (s : str) : option str :=
  let s := skipSpace s in
  match fuel with
  | 0 => Some s
  | S f =>
    if startswith (u "<!--") s then
      match after (u "--") (skipn 4 s) with Some (62%N :: r) => skipMisc f r | _ => None end
    else if startswith (u "<?") s then
      let t := nameOf (skipn 2 s) in let b := skipn (2 + length t) s in
      if isTarget t && (startswith (u "?>") b || match b with c :: _ => xmlSpace c | [] => false end)
      then match after (u "?>") b with Some r => skipMisc f r | None => None end
      else None
    else Some s
  end.
(** an XML declaration and a document type declaration without internal subset *)
Definition skipProlog (s : str) : option str :=
  match (if startswith (u "<?xml ") s then after (u "?>") s else Some s) with
  | None => None
  | Some s =>
    match skipMisc (length s) s with
    | None => None
    | Some s =>
      if startswith (u "<!DOCTYPE ") s then
        match skipDoctype s with Some r => Some (skipSpace r) | None => None end
      else Some s
    end
  end.
Definition parseXml (s : str) : option elem :=
  if forallb xmlChar s then
    match skipProlog (normEol s) with
    | Some r => match lex (MText []) r with Some t => build t [] None | None => None end
    | None => None
    end
  else None.
Definition parseBytes (b : bytes) : res elem :=
  match utf8Decode b with
  | Ok s => match parseXml s with Some e => Ok e | None => Err XMLError end
  | Err _ => Err XMLError
  end.

(** * Writing *)
(** etree 20 *)
Definition xmlDeclaration : str := u "<?xml version=""1.0"" encoding=""UTF-8""?>".
Section Files.
Variable T : pytext.
Variable R : spec_float -> str.
(** etree 138-219 for encoding="utf-8" and no doctype: [decl] is xml_declaration.
    The tree keeps the white space inserted by [indent] (line 180-182); the
    callers modelled do not use it afterwards.  Strings that are XML compatible
    can be encoded, so that errors="xmlcharrefreplace" does not matter. *)
Definition tostring (decl pretty : bool) (e : elem) : res bytes :=
  do s <- serialize (if pretty then indent T 0 e else e);
  utf8Encode ((if decl then xmlDeclaration ++ (if pretty then [10%N] else []) else []) ++ s).
(** plistlib 49-52 *)
Definition plistDoctype : str := u "<!DOCTYPE plist PUBLIC ""-//Apple//DTD PLIST 1.0//EN"" ""http://www.apple.com/DTDs/PropertyList-1.0.dtd"">".
(** plistlib 492-543 with the defaults sort_keys=True, skipkeys=False *)
Definition plistDumps (pretty : bool) (v : pyval) : res bytes :=
  do root <- dumpTree R true pretty v;
  do b <- tostring false pretty root;
  Ok ((if pretty then xmlDeclaration ++ [10%N] ++ plistDoctype ++ [10%N] else xmlDeclaration ++ plistDoctype) ++ b).
(** plistlib 469-489 *)
Definition plistLoads (b : bytes) : res pyval := do e <- parseBytes b; loadTree T e.
End Files.
