(** Model of path/draw.go (the Draw decorator), SplitPathOnMove (path/util.go) and the line
    helpers of path/path.go that drawing uses. A Draw is modelled by its path; every method
    returns the new path. *)
From Coq Require Import String List ZArith NArith Bool.
From Verif Require Import Num PathModel.
Import ListNotations.
Local Open Scope num_scope.

Section Draw.
Context {N : Num}.
Notation F := (T N).
Notation P := (Pt N).
Notation path := (path N).

(** path/draw.go:13-19 [NewDraw] *)
Definition NewDraw : path := [].

(** path/draw.go:26-32 [CurrentPosition] *)
Definition CurrentPosition (d : path) : P :=
  match d with
  | [] => NewPoint zero zero
  | g :: _ => send (last d g)
  end.

(** path/draw.go:43-64 [AddSegment] (SetSegmentStart cannot fail, see [setStart]) *)
Definition AddSegment (d : path) (g : seg N) : path :=
  let d1 := match d with
            | [] => if isMove g then [] else [Move (NewPoint zero zero) (sstart g)]
            | _ => d
            end in
  let cur := CurrentPosition d1 in
  let g1 := if ptEquals cur (sstart g) then g else setStart g cur in
  d1 ++ [g1].

(** path/draw.go:34-38 [AddSegments] *)
Definition AddSegments (d : path) (gs : list (seg N)) : path := fold_left AddSegment gs d.

(** path/draw.go:66-72 [MoveTo] *)
Definition MoveTo (d : path) (p : P) : path := d ++ [Move (CurrentPosition d) p].

(** path/draw.go:73-79 [ToAbsPosition] *)
Definition ToAbsPosition (d : path) (dxdy : P) : P :=
  let current := CurrentPosition d in
  NewPoint (px current + px dxdy) (py current + py dxdy).

(** path/draw.go:82-86 [RelMoveTo] *)
Definition RelMoveTo (d : path) (dxdy : P) : path := MoveTo d (ToAbsPosition d dxdy).

(** path/draw.go:158-166 [CurveTo] *)
Definition CurveTo (d : path) (cs ce p : P) : path := d ++ [Curve (CurrentPosition d) cs p ce].

(** path/draw.go:98-116 [SmoothCurveTo] *)
Definition SmoothCurveTo (d : path) (ce p : P) : path :=
  let current := CurrentPosition d in
  let c1 :=
    match Tail d with
    | Some (Curve _ _ _ lastce) =>
        NewPoint (px current + (px current - px lastce)) (py current + (py current - py lastce))
    | _ => NewPoint (px current) (py current)
    end in
  CurveTo d c1 ce p.

(** path/draw.go:90-94 [RelSmoothCurveTo] *)
Definition RelSmoothCurveTo (d : path) (ced dxdy : P) : path :=
  SmoothCurveTo d (ToAbsPosition d ced) (ToAbsPosition d dxdy).

(** path/draw.go:128-144 [QCurveTo]; line 137 subtracts [current.X] from [controlPoint.Y] *)
Definition two_thirds : F := ofZ 2 / ofZ 3.
Definition QCurveTo (d : path) (c p : P) : path :=
  let current := CurrentPosition d in
  let cpx1 := px current + two_thirds * (px c - px current) in
  let cpy1 := py current + two_thirds * (py c - px current) in
  let cpx2 := px p + two_thirds * (px c - px p) in
  let cpy2 := py p + two_thirds * (py c - py p) in
  CurveTo d (NewPoint cpx1 cpy1) (NewPoint cpx2 cpy2) p.

(** path/draw.go:120-124 [RelQCurveTo] *)
Definition RelQCurveTo (d : path) (cd dxdy : P) : path :=
  QCurveTo d (ToAbsPosition d cd) (ToAbsPosition d dxdy).

(** path/draw.go:148-154 [RelCurveTo] *)
Definition RelCurveTo (d : path) (cs ce dxdy : P) : path :=
  CurveTo d (ToAbsPosition d cs) (ToAbsPosition d ce) (ToAbsPosition d dxdy).

(** path/draw.go:175-181 [LineTo], 169-172 [RelLineTo] *)
Definition LineTo (d : path) (p : P) : path := d ++ [Line (CurrentPosition d) p].
Definition RelLineTo (d : path) (dxdy : P) : path := LineTo d (ToAbsPosition d dxdy).

(** path/draw.go:252-254, 257-259, 262-264, 267-269 *)
Definition RelHLineTo (d : path) (dx : F) : path := RelLineTo d (NewPoint dx zero).
Definition HLineTo (d : path) (x : F) : path := LineTo d (NewPoint x (py (CurrentPosition d))).
Definition RelVLineTo (d : path) (dy : F) : path := RelLineTo d (NewPoint zero dy).
Definition VLineTo (d : path) (y : F) : path := LineTo d (NewPoint (px (CurrentPosition d)) y).

(** path/draw.go:244-249 [Rect] *)
Definition Rect (d : path) (w h : F) : path :=
  let d := RelLineTo d (NewPoint w zero) in
  let d := RelLineTo d (NewPoint zero h) in
  let d := RelLineTo d (NewPoint (- w) zero) in
  RelLineTo d (NewPoint zero (- h)).

(** path/draw.go:199, 235: 4*(sqrt(2)-1)/3 *)
Definition ctrl_frac : F := ofZ 4 * (nsqrt (ofZ 2) - one) / ofZ 3.

(** path/draw.go:233-241 [Circle] *)
Definition Circle (d : path) (r : F) : path :=
  let ctrl := ctrl_frac * r in
  let d := RelMoveTo d (NewPoint r zero) in
  let d := RelCurveTo d (NewPoint ctrl zero) (NewPoint r (r - ctrl)) (NewPoint r r) in
  let d := RelCurveTo d (NewPoint zero ctrl) (NewPoint (- r + ctrl) r) (NewPoint (- r) r) in
  let d := RelCurveTo d (NewPoint (- ctrl) zero) (NewPoint (- r) (- r + ctrl)) (NewPoint (- r) (- r)) in
  RelCurveTo d (NewPoint zero (- ctrl)) (NewPoint (r - ctrl) (- r)) (NewPoint r (- r)).

(** path/path.go:192-196 [Slope] *)
Definition Slope (s e : P) : F := (py e - py s) / (px e - px s).

(** path/path.go:199-210 [IsVerticalPrecision], [IsHorizontalPrecision] *)
Definition IsVertical (s e : P) (prec : Z) : bool := PrecisionEquals (px s) (px e) prec.
Definition IsHorizontal (s e : P) (prec : Z) : bool := PrecisionEquals (py s) (py e) prec.

(** path/path.go:212-224 [YIntercept], [EvalX], [Length] *)
Definition YIntercept (s e : P) : F := py s - Slope s e * px s.
Definition EvalX (s e : P) (x : F) : F := Slope s e * x + YIntercept s e.
Definition LineLength (s e : P) : F := Distance s e.

(** path/path.go:228-254 [PointAtDistance]; DefaultPrecision is 3 (path/path.go:12) *)
Definition PointAtDistance (tr : Trig N) (s e : P) (distance : F) : P :=
  if IsVertical s e 3 then
    let neg := if gtb (py s) (py e) then - one else one in
    NewPoint (px s) (py s + neg * distance)
  else if IsHorizontal s e 3 then
    let neg := if gtb (px s) (px e) then - one else one in
    NewPoint (px s + neg * distance) (py s)
  else
    let m := Slope s e in
    NewPoint (distance * ncos tr (natan tr m) + px s) (distance * nsin tr (natan tr m) + py s).

(** path/draw.go:196-228 [RoundedCornerTo] *)
Definition RoundedCornerTo (tr : Trig N) (d : path) (to corner : P) (radius : F) : path :=
  let sPoint := CurrentPosition d in
  let l1e := PointAtDistance tr sPoint corner (LineLength sPoint corner - radius) in
  let e1s := PointAtDistance tr corner to radius in
  let cps := PointAtDistance tr l1e corner (LineLength l1e corner * ctrl_frac) in
  let cpe := PointAtDistance tr e1s corner (LineLength e1s corner * ctrl_frac) in
  let d := LineTo d l1e in
  let d := CurveTo d cps cpe e1s in
  LineTo d to.

(** path/draw.go:188-192 [RelRoundedCornerTo] *)
Definition RelRoundedCornerTo (tr : Trig N) (d : path) (dxdy dxdyCorner : P) (radius : F) : path :=
  RoundedCornerTo tr d (ToAbsPosition d dxdy) (ToAbsPosition d dxdyCorner) radius.

(** path/util.go:429-431 [DegreesToRadians] *)
Definition DegreesToRadians (tr : Trig N) (deg : F) : F := (npi tr / ofZ 180) * deg.

(** path/path.go:91-98 [NewLineSegmentAngle] *)
Definition NewLineSegmentAngle (tr : Trig N) (start : P) (length angle : F) : seg N :=
  let y := length * nsin tr (DegreesToRadians tr angle) + py start in
  let x := length * ncos tr (DegreesToRadians tr angle) + px start in
  Line start (NewPoint x y).

(** path/draw.go:184-186 [LineByAngle] *)
Definition LineByAngle (tr : Trig N) (d : path) (length angle : F) : path :=
  d ++ [NewLineSegmentAngle tr (CurrentPosition d) length angle].

(** The exported drawing calls of path/draw.go, as data.  SvgPath (271-281) is
    AddSegments of the parsed path, hence covered by [OAddSegments]. *)
Inductive drawop : Type :=
| OAddSegment (g : seg N)
| OAddSegments (gs : list (seg N))
| OMoveTo (p : P) | ORelMoveTo (p : P)
| OSmoothCurveTo (ce p : P) | ORelSmoothCurveTo (ce p : P)
| OQCurveTo (c p : P) | ORelQCurveTo (c p : P)
| OCurveTo (cs ce p : P) | ORelCurveTo (cs ce p : P)
| OLineTo (p : P) | ORelLineTo (p : P)
| OLineByAngle (len angle : F)
| ORoundedCornerTo (to corner : P) (r : F) | ORelRoundedCornerTo (to corner : P) (r : F)
| OCircle (r : F) | ORect (w h : F)
| OHLineTo (x : F) | ORelHLineTo (x : F) | OVLineTo (y : F) | ORelVLineTo (y : F).

(** dispatch of one call, path/draw.go:34-281 *)
Definition drawstep (tr : Trig N) (d : path) (o : drawop) : path :=
  match o with
  | OAddSegment g => AddSegment d g
  | OAddSegments gs => AddSegments d gs
  | OMoveTo p => MoveTo d p
  | ORelMoveTo p => RelMoveTo d p
  | OSmoothCurveTo ce p => SmoothCurveTo d ce p
  | ORelSmoothCurveTo ce p => RelSmoothCurveTo d ce p
  | OQCurveTo c p => QCurveTo d c p
  | ORelQCurveTo c p => RelQCurveTo d c p
  | OCurveTo cs ce p => CurveTo d cs ce p
  | ORelCurveTo cs ce p => RelCurveTo d cs ce p
  | OLineTo p => LineTo d p
  | ORelLineTo p => RelLineTo d p
  | OLineByAngle l a => LineByAngle tr d l a
  | ORoundedCornerTo to c r => RoundedCornerTo tr d to c r
  | ORelRoundedCornerTo to c r => RelRoundedCornerTo tr d to c r
  | OCircle r => Circle d r
  | ORect w h => Rect d w h
  | OHLineTo x => HLineTo d x
  | ORelHLineTo x => RelHLineTo d x
  | OVLineTo y => VLineTo d y
  | ORelVLineTo y => RelVLineTo d y
  end.

Definition rundraw (tr : Trig N) (os : list drawop) (d : path) : path := fold_left (drawstep tr) os d.

(** path/util.go:392-408 [SplitPathOnMove]: loop with accumulator [paths] and current Draw [p];
    [first] is the test [i > 0] negated. *)
Fixpoint split_loop (first : bool) (p : path) (segs : list (seg N)) (paths : list path) : list path :=
  match segs with
  | [] => if IsEmptyPath p then paths else paths ++ [p]
  | c :: r =>
      if negb first && isMove c then
        let paths' := if IsEmptyPath p then paths else paths ++ [p] in
        split_loop false (AddSegment NewDraw c) r paths'
      else split_loop false (AddSegment p c) r paths
  end.
Definition SplitPathOnMove (p : path) : list path := split_loop true NewDraw p [].

End Draw.
