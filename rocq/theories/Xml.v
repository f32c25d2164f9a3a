(** Element trees of the ElementTree API, as the modules etree, plistlib and
    glifLib build and read them.  An element has a tag, attributes in order, the
    text before its first child, its children, and the text behind its end tag.
    A text is a string or, as plistlib 352-359 makes them, bytes.
    Not modelled: comments, processing instructions, QName objects, elements
    shared by two parents. *)
From Coq Require Import String NArith ZArith Bool Lia List.
From Verif Require Import Base.
Import ListNotations.

Inductive etext : Type := XS (s : str) | XB (b : list N).
Inductive elem : Type :=
  Elem (tag : str) (attrib : list (str * str)) (text : option etext) (children : list elem) (tail : option str).

Section Ind.
  Variable P : elem -> Prop.
  Hypothesis H : forall tag at' text ch tail, Forall P ch -> P (Elem tag at' text ch tail).
  Fixpoint elem_ind' (e : elem) : P e :=
    match e with
    | Elem tag at' text ch tail =>
      H tag at' text ch tail ((fix go l : Forall P l :=
        match l with [] => Forall_nil _ | x :: r => Forall_cons x (elem_ind' x) (go r) end) ch)
    end.
End Ind.

Definition etag (e : elem) : str := let 'Elem t _ _ _ _ := e in t.
Definition eattrib (e : elem) : list (str * str) := let 'Elem _ a _ _ _ := e in a.
Definition etextOf (e : elem) : option etext := let 'Elem _ _ x _ _ := e in x.
Definition echildren (e : elem) : list elem := let 'Elem _ _ _ c _ := e in c.
Definition etail (e : elem) : option str := let 'Elem _ _ _ _ t := e in t.

(** truth value of a text: None and the empty string or bytes are false *)
Definition textTruthy (t : option etext) : bool :=
  match t with None | Some (XS []) | Some (XB []) => false | _ => true end.
(** etree 88-94, 96-102: a new element *)
Definition leaf (tag : str) (t : option etext) : elem := Elem tag [] t [] None.
Definition node0 (tag : str) (ch : list elem) : elem := Elem tag [] None ch None.
