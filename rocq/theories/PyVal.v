(** Python values as they occur in property lists and validator arguments.
    Simplifications: user defined dict-like classes are not modelled (a mapping
    is a [PDict]); [POther] stands for any other object. *)
From Coq Require Import String NArith ZArith Bool Lia List.
From Coq.Floats Require Import SpecFloat.
From Verif Require Import Base.
Import ListNotations.

Inductive pyval : Type :=
| PNone
| PBool (b : bool)
| PInt (z : Z)
| PFloat (f : spec_float)
| PStr (s : str)
| PBytes (b : list N)
| PDate (y mo d h mi s us : N)
| PList (l : list pyval)
| PTuple (l : list pyval)
| PDict (d : list (pyval * pyval))
| POther (n : N).

Section Ind.
  Variable P : pyval -> Prop.
  Hypothesis Hnone : P PNone.
  Hypothesis Hbool : forall b, P (PBool b).
  Hypothesis Hint : forall z, P (PInt z).
  Hypothesis Hfloat : forall f, P (PFloat f).
  Hypothesis Hstr : forall s, P (PStr s).
  Hypothesis Hbytes : forall b, P (PBytes b).
  Hypothesis Hdate : forall y mo d h mi s us, P (PDate y mo d h mi s us).
  Hypothesis Hlist : forall l, Forall P l -> P (PList l).
  Hypothesis Htuple : forall l, Forall P l -> P (PTuple l).
  Hypothesis Hdict : forall d, Forall (fun kv => P (fst kv) /\ P (snd kv)) d -> P (PDict d).
  Hypothesis Hother : forall n, P (POther n).
  Fixpoint pyval_ind' (v : pyval) : P v :=
    match v with
    | PNone => Hnone | PBool b => Hbool b | PInt z => Hint z | PFloat f => Hfloat f
    | PStr s => Hstr s | PBytes b => Hbytes b | PDate y mo d h mi s us => Hdate y mo d h mi s us
    | PList l => Hlist l ((fix go l : Forall P l :=
        match l with [] => Forall_nil _ | x :: r => Forall_cons x (pyval_ind' x) (go r) end) l)
    | PTuple l => Htuple l ((fix go l : Forall P l :=
        match l with [] => Forall_nil _ | x :: r => Forall_cons x (pyval_ind' x) (go r) end) l)
    | PDict d => Hdict d ((fix go d : Forall (fun kv => P (fst kv) /\ P (snd kv)) d :=
        match d with [] => Forall_nil _
        | (k, x) :: r => Forall_cons (k, x) (conj (pyval_ind' k) (pyval_ind' x)) (go r) end) d)
    | POther n => Hother n
    end.
End Ind.

(** ** Numbers: exact comparison of ints and floats *)
Inductive ext : Type := Fin (m e : Z) | PosInf | NegInf | NaN.
Definition ext_of_float (f : spec_float) : ext :=
  match f with
  | S754_zero _ => Fin 0 0
  | S754_infinity s => if s then NegInf else PosInf
  | S754_nan => NaN
  | S754_finite s m e => Fin (if s then Zneg m else Zpos m) e
  end.
Definition ext_compare (a b : ext) : option comparison :=
  match a, b with
  | NaN, _ | _, NaN => None
  | Fin m e, Fin m' e' =>
      let k := Z.min e e' in Some (Z.compare (m * 2 ^ (e - k)) (m' * 2 ^ (e' - k)))
  | PosInf, PosInf | NegInf, NegInf => Some Eq
  | PosInf, _ | _, NegInf => Some Gt
  | _, PosInf | NegInf, _ => Some Lt
  end.
(** the number denoted by a value; [bool] is a subclass of [int] *)
Definition num (v : pyval) : option ext :=
  match v with
  | PBool b => Some (Fin (if b then 1 else 0) 0)
  | PInt z => Some (Fin z 0)
  | PFloat f => Some (ext_of_float f)
  | _ => None
  end.
Definition num_cmp (v w : pyval) : option comparison :=
  match num v, num w with Some a, Some b => ext_compare a b | _, _ => None end.
(** [v < w] and [v > w] for numbers (false when a NaN is involved) *)
Definition num_lt (v w : pyval) : bool := match num_cmp v w with Some Lt => true | _ => false end.
Definition num_gt (v w : pyval) : bool := match num_cmp v w with Some Gt => true | _ => false end.
Definition num_eq (v w : pyval) : bool := match num_cmp v w with Some Eq => true | _ => false end.

(** ** isinstance *)
Definition is_str (v : pyval) : bool := match v with PStr _ => true | _ => false end.
Definition is_bool (v : pyval) : bool := match v with PBool _ => true | _ => false end.
Definition is_int (v : pyval) : bool := match v with PInt _ | PBool _ => true | _ => false end.
Definition is_float (v : pyval) : bool := match v with PFloat _ => true | _ => false end.
Definition is_number (v : pyval) : bool := is_int v || is_float v.
Definition is_list (v : pyval) : bool := match v with PList _ => true | _ => false end.
Definition is_seq (v : pyval) : bool := match v with PList _ | PTuple _ => true | _ => false end.
Definition is_dict (v : pyval) : bool := match v with PDict _ => true | _ => false end.
Definition is_none (v : pyval) : bool := match v with PNone => true | _ => false end.

(** elements of a list or tuple *)
Definition elems (v : pyval) : list pyval := match v with PList l | PTuple l => l | _ => [] end.
(** items of a dict *)
Definition items (v : pyval) : list (pyval * pyval) := match v with PDict d => d | _ => [] end.

(** ** Equality [==] *)
Fixpoint py_eq (v w : pyval) {struct v} : bool :=
  match v with
  | PNone => match w with PNone => true | _ => false end
  | PBool _ | PInt _ | PFloat _ => num_eq v w
  | PStr s => match w with PStr t => eqb s t | _ => false end
  | PBytes s => match w with PBytes t => eqb s t | _ => false end
  | PDate y mo d h mi s us =>
      match w with PDate y' mo' d' h' mi' s' us' => eqb [y; mo; d; h; mi; s; us] [y'; mo'; d'; h'; mi'; s'; us'] | _ => false end
  | PList l => match w with PList m =>
      (fix go l m := match l, m with [], [] => true | x :: l, y :: m => py_eq x y && go l m | _, _ => false end) l m | _ => false end
  | PTuple l => match w with PTuple m =>
      (fix go l m := match l, m with [], [] => true | x :: l, y :: m => py_eq x y && go l m | _, _ => false end) l m | _ => false end
  | PDict d => match w with PDict e =>
      Nat.eqb (length d) (length e) &&
      (fix go d := match d with [] => true
        | (k, x) :: r => existsb (fun kv => py_eq k (fst kv) && py_eq x (snd kv)) e && go r end) d | _ => false end
  | POther n => match w with POther m => N.eqb n m | _ => false end
  end.

(** ** hashing: [set(...)] of unhashable elements raises TypeError *)
Fixpoint hashable (v : pyval) : bool :=
  match v with
  | PList _ | PDict _ => false
  | PTuple l => (fix go l := match l with [] => true | x :: r => hashable x && go r end) l
  | _ => true
  end.

(** ** dict access with a string key *)
Fixpoint dget (k : str) (d : list (pyval * pyval)) : option pyval :=
  match d with
  | [] => None
  | (PStr k', v) :: r => if eqb k k' then Some v else dget k r
  | _ :: r => dget k r
  end.
(** [v.get(k)]: None for a missing key *)
Definition vget (k : str) (v : pyval) : pyval :=
  match dget k (items v) with Some x => x | None => PNone end.
Definition vhas (k : str) (v : pyval) : bool := match dget k (items v) with Some _ => true | None => false end.

(** [s.startswith(p)] *)
Fixpoint startswith (p s : str) : bool :=
  match p, s with
  | [], _ => true
  | a :: p', b :: s' => N.eqb a b && startswith p' s'
  | _ :: _, [] => false
  end.
Lemma startswith_spec p s : reflect (exists r, s = p ++ r) (startswith p s).
Proof.
  revert s; induction p as [|a p IH]; intros s; cbn.
  - constructor. exists s. reflexivity.
  - destruct s as [|b s]; [constructor; intros (r & E); discriminate|].
    destruct (N.eqb_spec a b) as [->|n]; cbn.
    + destruct (IH s) as [H|H]; constructor.
      * destruct H as (r & ->). exists r. reflexivity.
      * intros (r & E). inversion E. apply H. exists r. assumption.
    + constructor. intros (r & E). inversion E. congruence.
Qed.
Arguments startswith : simpl never.
