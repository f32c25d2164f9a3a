(** Model of Lib/ufoLib/pointPen.py.
    A pen is a state machine: a call changes its state and makes calls to the pen
    it draws on.  When a call raises, what was drawn before by the same call is
    not recorded. *)
From Coq Require Import String NArith ZArith Bool List.
From Verif Require Import Base.
Import ListNotations.
Local Open Scope string_scope.
Local Open Scope list_scope.

Section Pens.
(** coordinate pairs with python's [==], component transformations, other
    keyword arguments *)
Variable P : Type.
Variable peq : P -> P -> bool.
Variable Tr : Type.
Variable KW : Type.
Variable noKW : KW.

(** a point as stored by the pens (pointPen.py 138, 321, 403): (pt, segmentType,
    smooth, name, kwargs); an identifier is one of the keyword arguments.  [pc] is
    [None] for the extra point of line 123, whose other fields are never used. *)
Record point := mkPoint { pc : option P; ptype : option str; psmooth : bool; pname : option str; pkw : KW }.
(** point pen calls; for an identifier, [None] means not passed, [Some None]
    means passed as None *)
Inductive pcall :=
| PBegin (identifier : option (option str))
| PAdd (p : point)
| PEnd
| PComponent (base : str) (transformation : Tr) (identifier : option (option str)).
(** segment pen calls; curveTo and qCurveTo with at least one point, only the last
    point of qCurveTo may be None (others are not modelled) *)
Inductive scall :=
| SMove (p : P)
| SLine (p : P)
| SCurve (offs : list P) (last : P)
| SQCurve (offs : list P) (last : option P)
| SClose
| SEnd
| SComponent (base : str) (transformation : Tr).

Definition sMove : str := u "move".
Definition sLine : str := u "line".
Definition sCurve : str := u "curve".
Definition sQcurve : str := u "qcurve".

(** * Running a pen on a sequence of calls *)
Section Run.
Variable S I O : Type.
Variable step : S -> I -> res (S * list O).
Fixpoint run (s : S) (cs : list I) : res (S * list O) :=
  match cs with
  | [] => Ok (s, [])
  | c :: r =>
    do so <- step s c;
    do so' <- run (fst so) r;
    Ok (fst so', snd so ++ snd so')
  end.
End Run.

(** * BasePointToSegmentPen *)
(** pointPen.py 113-118: the index of the first on-curve point *)
Fixpoint firstOn (l : list point) : option nat :=
  match l with
  | [] => None
  | p :: r => match ptype p with Some _ => Some O | None => option_map S (firstOn r) end
  end.
(** pointPen.py 127-133; the rest without on-curve point is dropped *)
Fixpoint segmentLoop (current : list point) (l : list point) : list (str * list point) :=
  match l with
  | [] => []
  | p :: r =>
    match ptype p with
    | None => segmentLoop (current ++ [p]) r
    | Some t => (t, current ++ [p]) :: segmentLoop [] r
    end
  end.
(** pointPen.py 90-135: the segments handed to _flushContour; [None] when it is
    not called *)
Definition segmentsOf (points : list point) : option (list (str * list point)) :=
  match points with
  | [] => None
  | [p] => Some [(sMove, [p])]
  | p :: r =>
    if eqb (ptype p) (Some sMove) then Some ((sMove, [p]) :: segmentLoop [] r)
    else
      match firstOn points with
      | None => Some (segmentLoop [] (points ++ [mkPoint None (Some sQcurve) false None noKW]))
      | Some i => Some (segmentLoop [] (skipn (i + 1) points ++ firstn (i + 1) points))
      end
  end.

(** * PointToSegmentPen *)
(** the coordinates of curveTo and qCurveTo; the None point can
    only be the last one *)
Fixpoint coords (l : list point) : list P :=
  match l with
  | [] => []
  | p :: r => match pc p with Some x => x :: coords r | None => coords r end
  end.
(** pointPen.py 177-190: one segment; [lastSegment] says i + 1 == nSegments *)
Definition drawSegment (implied closed lastSegment : bool) (seg : str * list point) : res (list scall) :=
  let '(t, points) := seg in
  if eqb t sLine then
    match points with
    | [p] =>
      match pc p with
      | Some x => if negb lastSegment || implied || negb closed then Ok [SLine x] else Ok []
      | None => Err AssertionError
      end
    | _ => Err AssertionError
    end
  else
    match rev points with
    | [] => Err AssertionError
    | l :: offs =>
      if eqb t sCurve then
        match pc l with Some x => Ok [SCurve (coords (rev offs)) x] | None => Err AssertionError end
      else if eqb t sQcurve then Ok [SQCurve (coords (rev offs)) (pc l)]
      else Err AssertionError
    end.
Fixpoint drawSegments (implied closed : bool) (segs : list (str * list point)) : res (list scall) :=
  match segs with
  | [] => Ok []
  | s :: r =>
    do a <- drawSegment implied closed (match r with [] => true | _ => false end) s;
    do b <- drawSegments implied closed r;
    Ok (a ++ b)
  end.
(** pointPen.py 152-194 *)
Definition flushSegments (implied : bool) (segments : list (str * list point)) : res (list scall) :=
  match segments with
  | [] => Err AssertionError
  | (t, points) :: r =>
    if eqb t sMove then
      match points with
      | [p] =>
        do body <- drawSegments implied false r;
        Ok (match pc p with Some x => [SMove x] | None => [] end ++ body ++ [SEnd])
      | _ => Err AssertionError
      end
    else
      match rev (snd (last segments (t, points))) with
      | [] => Err IndexError
      | p :: _ =>
        do body <- drawSegments implied true segments;
        Ok (match pc p with Some x => [SMove x] | None => [] end ++ body ++ [SClose])
      end
  end.
(** pointPen.py 58-60, 90-94, 137-138, 196-197: the state is currentPath *)
Definition toSegmentStep (implied : bool) (s : option (list point)) (c : pcall) : res (option (list point) * list scall) :=
  match c with
  | PBegin _ => match s with None => Ok (Some [], []) | Some _ => Err AssertionError end
  | PAdd p => match s with Some l => Ok (Some (l ++ [p]), []) | None => Err AttributeError end
  | PEnd =>
    match s with
    | None => Err AssertionError
    | Some points =>
      match segmentsOf points with
      | None => Ok (None, [])
      | Some segs => do out <- flushSegments implied segs; Ok (None, out)
      end
    end
  | PComponent b t _ => Ok (s, [SComponent b t])
  end.
Definition pointToSegment (implied : bool) (cs : list pcall) : res (list scall) :=
  do r <- run _ _ _ (toSegmentStep implied) None cs; Ok (snd r).

(** * SegmentToPointPen *)
(** pointPen.py 213-218: the points are added without smooth flag and name *)
Definition fromPt (x : P * option str) : point := mkPoint (Some (fst x)) (snd x) false None noKW.
Definition flushPoints (contour : list (P * option str)) : list pcall :=
  PBegin None :: map (fun x => PAdd (fromPt x)) contour ++ [PEnd].
(** pointPen.py 240-249 *)
Definition closeContour (contour : list (P * option str)) : res (list (P * option str)) :=
  match contour with
  | [] => Err IndexError
  | (p, t) :: r =>
    match rev r with
    | (q, tq) :: r' =>
      if peq p q then Ok ((q, tq) :: rev r')
      else Ok ((p, if eqb t (Some sMove) then Some sLine else t) :: r)
    | [] => Ok [(p, if eqb t (Some sMove) then Some sLine else t)]
    end
  end.
(** pointPen.py 220-259; the state is the contour *)
Definition toPointStep (s : option (list (P * option str))) (c : scall) : res (option (list (P * option str)) * list pcall) :=
  match c with
  | SMove p => Ok (Some [(p, Some sMove)], [])
  | SLine p => match s with Some l => Ok (Some (l ++ [(p, Some sLine)]), []) | None => Err AttributeError end
  | SCurve offs p =>
    match s with
    | Some l => Ok (Some (l ++ map (fun x => (x, None)) offs ++ [(p, Some sCurve)]), [])
    | None => Err AttributeError
    end
  | SQCurve offs None => Ok (Some (map (fun x => (x, None)) offs), [])
  | SQCurve offs (Some p) =>
    match s with
    | Some l => Ok (Some (l ++ map (fun x => (x, None)) offs ++ [(p, Some sQcurve)]), [])
    | None => Err AttributeError
    end
  | SClose =>
    match s with
    | None => Err TypeError
    | Some l => do l' <- closeContour l; Ok (None, flushPoints l')
    end
  | SEnd => match s with None => Err TypeError | Some l => Ok (None, flushPoints l) end
  | SComponent b t => match s with None => Ok (None, [PComponent b t None]) | Some _ => Err AssertionError end
  end.

(** * GuessSmoothPointPen *)
(** pointPen.py 299-304: [tangent prev pt next] stands for the comparison of the
    points and of the directions *)
Variable tangent : option P -> option P -> option P -> bool.
(** points[i] for an index that may be negative *)
Definition pyIndex (n : nat) (i : Z) : option nat :=
  if (0 <=? i)%Z then if (i <? Z.of_nat n)%Z then Some (Z.to_nat i) else None
  else if (- Z.of_nat n <=? i)%Z then Some (Z.to_nat (Z.of_nat n + i)) else None.
Definition pyGet (l : list point) (i : Z) : res point :=
  match pyIndex (length l) i with
  | Some k => match nth_error l k with Some p => Ok p | None => Err IndexError end
  | None => Err IndexError
  end.
Fixpoint replaceAt (k : nat) (p : point) (l : list point) : list point :=
  match l, k with
  | [], _ => []
  | _ :: r, O => p :: r
  | x :: r, S k' => x :: replaceAt k' p r
  end.
(** pointPen.py 288-305: one round *)
Definition guessAt (l : list point) (i : Z) : res (list point) :=
  do p <- pyGet l i;
  match ptype p with
  | None => Ok l
  | Some _ =>
    do prev <- pyGet l (i - 1);
    do next <- pyGet l (i + 1);
    match ptype prev, ptype next with
    | Some _, Some _ => Ok l
    | _, _ =>
      if tangent (pc prev) (pc p) (pc next)
      then match pyIndex (length l) i with
           | Some k => Ok (replaceAt k (mkPoint (pc p) (ptype p) true (pname p) (pkw p)) l)
           | None => Err IndexError
           end
      else Ok l
    end
  end.
(** range(a, b) *)
Definition zrange (a b : Z) : list Z := map (fun k => (a + Z.of_nat k)%Z) (seq 0 (Z.to_nat (b - a))).
(** pointPen.py 272-286 *)
Definition guessIndices (points : list point) : list Z :=
  match points with
  | [] => []
  | p :: _ =>
    let n := Z.of_nat (length points) in
    if eqb (ptype p) (Some sMove) then zrange 1 (n - 1)
    else if (1 <? n)%Z then zrange (-1) (n - 1)
    else []
  end.
(** pointPen.py 287-305 *)
Definition guessPoints (points : list point) : res (list point) := foldM guessAt points (guessIndices points).
(** pointPen.py 307-325; the smooth flag passed in is dropped (321) *)
Definition guessStep (s : option (list point)) (c : pcall) : res (option (list point) * list pcall) :=
  match c with
  | PBegin (Some _) => Err TypeError
  | PBegin None => match s with None => Ok (Some [], [PBegin None]) | Some _ => Err AssertionError end
  | PAdd p =>
    match s with
    | Some l => Ok (Some (l ++ [mkPoint (pc p) (ptype p) false (pname p) (pkw p)]), [])
    | None => Err AttributeError
    end
  | PEnd =>
    match s with
    | None => Err TypeError
    | Some l => do l' <- guessPoints l; Ok (None, map PAdd l' ++ [PEnd])
    end
  | PComponent _ _ (Some _) => Err TypeError
  | PComponent b t None => match s with None => Ok (None, [PComponent b t None]) | Some _ => Err AssertionError end
  end.
Definition guessSmooth (cs : list pcall) : res (list pcall) :=
  do r <- run _ _ _ guessStep None cs; Ok (snd r).
(** pointPen.py 206-211: with guessSmooth the calls go through a
    GuessSmoothPointPen first *)
Definition segmentToPoint (guess : bool) (cs : list scall) : res (list pcall) :=
  do r <- run _ _ _ toPointStep None cs;
  if guess then guessSmooth (snd r) else Ok (snd r).

(** * ReverseContourPointPen *)
(** pointPen.py 382-388: the new segment types *)
Fixpoint retype (lastType : option str) (l : list point) : list point :=
  match l with
  | [] => []
  | p :: r =>
    match ptype p with
    | Some _ => mkPoint (pc p) lastType (psmooth p) (pname p) (pkw p) :: retype (ptype p) r
    | None => p :: retype lastType r
    end
  end.
(** pointPen.py 379-380 *)
Fixpoint dropOff (l : list point) : res (list point) :=
  match l with
  | [] => Err IndexError
  | p :: r => match ptype p with None => dropOff r | Some _ => Ok l end
  end.
(** pointPen.py 343-388 *)
Definition reversePoints (contour : list point) : res (list point) :=
  match contour with
  | [] => Ok []
  | p :: r =>
    if eqb (ptype p) (Some sMove) then
      do l <- dropOff (rev contour);
      Ok (retype (Some sMove) l)
    else
      let contour := r ++ [p] in
      let lastType := match firstOn contour with
                      | Some i => match nth_error contour i with Some q => ptype q | None => None end
                      | None => None
                      end in
      Ok (retype lastType (rev contour))
  end.
(** pointPen.py 391-407; the state is the contour and its identifier *)
Definition reverseStep (s : option (option str * list point)) (c : pcall) : res (option (option str * list point) * list pcall) :=
  match c with
  | PBegin i =>
    match s with
    | None => Ok (Some (match i with Some x => x | None => None end, []), [])
    | Some _ => Err AssertionError
    end
  | PAdd p => match s with Some (i, l) => Ok (Some (i, l ++ [p]), []) | None => Err AttributeError end
  | PEnd =>
    match s with
    | None => Err AssertionError
    | Some (i, l) => do l' <- reversePoints l; Ok (None, PBegin (Some i) :: map PAdd l' ++ [PEnd])
    end
  | PComponent b t i =>
    match s with
    | None => Ok (None, [PComponent b t (Some (match i with Some x => x | None => None end))])
    | Some _ => Err AssertionError
    end
  end.
Definition reverseContours (cs : list pcall) : res (list pcall) :=
  do r <- run _ _ _ reverseStep None cs; Ok (snd r).
End Pens.
Arguments mkPoint {P KW}. Arguments pc {P KW}. Arguments ptype {P KW}. Arguments psmooth {P KW}.
Arguments pname {P KW}. Arguments pkw {P KW}.
Arguments PBegin {P Tr KW}. Arguments PAdd {P Tr KW}. Arguments PEnd {P Tr KW}. Arguments PComponent {P Tr KW}.
Arguments SMove {P Tr}. Arguments SLine {P Tr}. Arguments SCurve {P Tr}. Arguments SQCurve {P Tr}.
Arguments SClose {P Tr}. Arguments SEnd {P Tr}. Arguments SComponent {P Tr}.
Arguments run {S I O}. Arguments firstOn {P KW}. Arguments segmentLoop {P KW}. Arguments segmentsOf {P KW}.
Arguments coords {P KW}. Arguments drawSegment {P Tr KW}. Arguments drawSegments {P Tr KW}. Arguments flushSegments {P Tr KW}.
Arguments toSegmentStep {P Tr KW}. Arguments pointToSegment {P Tr KW}.
Arguments fromPt {P KW}. Arguments flushPoints {P Tr KW}. Arguments closeContour {P}. Arguments toPointStep {P} peq {Tr KW}.
Arguments pyGet {P KW}. Arguments replaceAt {P KW}. Arguments guessAt {P KW}. Arguments guessIndices {P KW}. Arguments guessPoints {P KW}.
Arguments guessStep {P Tr KW}. Arguments guessSmooth {P Tr KW}. Arguments segmentToPoint {P} peq {Tr KW}.
Arguments retype {P KW}. Arguments dropOff {P KW}. Arguments reversePoints {P KW}. Arguments reverseStep {P Tr KW}. Arguments reverseContours {P Tr KW}.
