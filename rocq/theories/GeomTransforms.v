(** Model of package transforms, the geometric part: shift.go, move.go, scale.go, rotate.go, mirror.go, matrix.go,
    trim_whitespace.go, rotate_scale.go; and of path/attributes.go.
    SegmentOperators.TransformPoints never fails for the three segment types, so its error branches are dead. *)
From Coq Require Import String List ZArith Bool Arith.
From Verif Require Import Num PathModel DrawModel SegOps Bezier.
Import ListNotations.
Local Open Scope num_scope.

Section Geom.
Context {N : Num}.
Notation F := (T N).
Notation P := (Pt N).
Notation seg := (seg N).
Variable co : CurveOps N.
Variable tr : Trig N.

(** the loop shared by the transforms (e.g. transforms/shift.go:16-24): every point of every segment, then NewPathFromSegments *)
Definition mapPoints (f : P -> P) (p : path N) : path N :=
  NewPathFromSegments (map (fun g => TransformPoints g f) p).

(** transforms/shift.go:12-25 [ShiftTransform.PathTransform] *)
Definition Shift (dx dy : F) (p : path N) : path N :=
  mapPoints (fun q => NewPoint (px q + dx) (py q + dy)) p.

(** path/attributes.go:13-42: the first dot-separated field of an attribute.  Attributes are strings in Go; here the
    recognised names are constructors, an "x,y" text (parsePoint, 96-111) is [APoint] and anything else is [AUnknown]
    ("$CURSOR" is among them, line 176). *)
Inductive attr : Type :=
| APoint (p : P)
| AOrigin | AWidth | AHeight
| AStartPosition | AEndPosition | AStartPoint | AEndPoint
| ATopLeft | ATopRight | ATopMiddle
| ABottomLeft | ABottomRight | ABottomMiddle
| AMiddleLeft | AMiddleRight | AMiddleMiddle
| AUnknown.
(** the second field: absent, "X", "Y", other (path/attributes.go:180-189) *)
Inductive sub : Type := NoSub | SubX | SubY | SubOther.
(** the value of an attribute: a point or a number *)
Inductive aval : Type := VPoint (p : P) | VNum (x : F).

Definition subfield (s : sub) (p : P) : res aval :=
  match s with
  | NoSub => Ok (VPoint p)
  | SubX => Ok (VNum (px p))
  | SubY => Ok (VNum (py p))
  | SubOther => Err
  end.

(** path/attributes.go:113-198 [PathAttribute]; the subfield is ignored for the names that return early *)
Definition PathAttribute (a : attr) (s : sub) (p : path N) : res aval :=
  match a with
  | APoint q => Ok (VPoint q)
  | _ =>
    bind (BoundingBoxTrimWhitespace co p) (fun '(tl, br) =>
    let middleX := px tl + (px br - px tl) / two in
    let middleY := py tl + (py br - py tl) / two in
    match a with
    | APoint q => Ok (VPoint q)
    | AOrigin => Ok (VPoint (NewPoint zero zero))
    | AWidth => Ok (VNum (px br - px tl))
    | AHeight => Ok (VNum (py br - py tl))
    | AStartPosition => match p with [] => Err | g :: _ => Ok (VPoint (sstart g)) end
    | AEndPosition => match p with [] => Err | g :: _ => Ok (VPoint (send (last p g))) end
    | AStartPoint => match TrimMove p with [] => Err | g :: _ => Ok (VPoint (sstart g)) end
    | AEndPoint => match TrimMove p with [] => Err | g :: _ => Ok (VPoint (send (last (TrimMove p) g))) end
    | ATopLeft => subfield s tl
    | ATopRight => subfield s (NewPoint (px br) (py tl))
    | ATopMiddle => subfield s (NewPoint middleX (py tl))
    | ABottomRight => subfield s br
    | ABottomLeft => subfield s (NewPoint (px tl) (py br))
    | ABottomMiddle => subfield s (NewPoint middleX (py br))
    | AMiddleMiddle => subfield s (NewPoint middleX middleY)
    | AMiddleLeft => subfield s (NewPoint (px tl) middleY)
    | AMiddleRight => subfield s (NewPoint (px br) middleY)
    | AUnknown => Err
    end)
  end.

(** path/attributes.go:82-94 [PointPathAttribute] *)
Definition PointPathAttribute (a : attr) (s : sub) (p : path N) : res P :=
  bind (PathAttribute a s p) (fun v => match v with VPoint q => Ok q | VNum _ => Err end).

(** transforms/move.go:16-33 [MoveTransform.PathTransform]; an empty handle (17-20) is [ATopLeft] *)
Definition MoveT (point : P) (h : attr) (p : path N) : res (path N) :=
  bind (PointPathAttribute h NoSub p) (fun handle =>
  Ok (Shift (px point - px handle) (py point - py handle) p)).

(** transforms/trim_whitespace.go:12-24 [TrimWhitespaceTransform.PathTransform] *)
Definition TrimWhitespace (p : path N) : res (path N) :=
  bind (BoundingBoxTrimWhitespace co p) (fun '(tl, _) => Ok (Shift (- px tl) (- py tl) p)).

(** transforms/scale.go:22-83 [ScaleTransform.PathTransform] *)
Record scaleSpec := mkScale { sc_x : F; sc_y : F; sc_start : P; sc_end : P; sc_w : F; sc_h : F }.
Definition scaleFactors (st : scaleSpec) (p : path N) : res (F * F) :=
  let xScale := sc_x st in let yScale := sc_y st in
  if gtb (sc_w st) zero || gtb (sc_h st) zero then
    bind (BoundingBoxTrimWhitespace co p) (fun '(tl, br) =>
    let curWidth := nabs (px br - px tl) in
    let curHeight := nabs (py br - py tl) in
    let xScale := if gtb (sc_w st) zero then sc_w st / curWidth else xScale in
    let yScale := if gtb (sc_h st) zero then sc_h st / curHeight else xScale in
    let xScale := if leb (sc_w st) zero then yScale else xScale in
    Ok (xScale, yScale))
  else if negb (ptEquals (sc_start st) (sc_end st)) then
    let newX := nabs (px (sc_end st) - px (sc_start st)) in
    let newY := nabs (py (sc_end st) - py (sc_start st)) in
    let '(s, e) := GetStartAndEnd p in
    let oldX := nabs (px e - px s) in
    let oldY := nabs (py e - py s) in
    let xScale := newX / oldX in
    let yScale := newY / oldY in
    let xScale := if eqb newX zero || eqb oldX zero then yScale else xScale in
    let yScale := if eqb newY zero || eqb oldY zero then xScale else yScale in
    Ok (xScale, yScale)
  else Ok (xScale, yScale).
Definition ScaleT (st : scaleSpec) (p : path N) : res (path N) :=
  bind (scaleFactors st p) (fun '(sx, sy) => Ok (mapPoints (fun q => NewPoint (px q * sx) (py q * sy)) p)).

(** path/util.go:358-364 [Rotate] *)
Definition Rotate (degree : F) (p : P) : P :=
  let rad := - (degree * (npi tr / ofZ 180)) in
  NewPoint (px p * ncos tr rad + py p * nsin tr rad) (- px p * nsin tr rad + py p * ncos tr rad).

(** transforms/rotate.go:13-59 [RotateTransform.PathTransform] *)
Definition RotateT (degrees : F) (axis : attr) (p : path N) : res (path N) :=
  bind (PointPathAttribute axis NoSub p) (fun axisPoint =>
  bind (MoveT (NewPoint zero zero) axis p) (fun p1 =>
  Ok (Shift (px axisPoint) (py axisPoint) (mapPoints (Rotate degrees) p1)))).

(** transforms/mirror.go:21-77 [MirrorTransform.PathTransform]; [horizontal] is mt.Axis == Horizontal *)
Definition mirrorPoint (horizontal : bool) (br q : P) : P :=
  let c := clonePt q in
  if horizontal then mkPt (px c) (py br - py q) else mkPt (px br - px q) (py c).
Definition MirrorT (horizontal : bool) (h : attr) (p : path N) : res (path N) :=
  bind (PointPathAttribute h NoSub p) (fun axisPoint =>
  bind (MoveT (NewPoint zero zero) h p) (fun p1 =>
  bind (BoundingBoxWithWhitespace co p1) (fun '(_, br) =>
  Ok (Shift (px axisPoint) (py axisPoint) (mapPoints (mirrorPoint horizontal br) p1))))).

(** transforms/matrix.go:12-30 [MatrixTransform] *)
Record matrix := mkMatrix { m_a : F; m_b : F; m_c : F; m_d : F; m_e : F; m_f : F }.
Definition matrixPoint (m : matrix) (q : P) : P :=
  NewPoint (px q * m_a m + py q * m_c m + m_e m) (px q * m_b m + py q * m_d m + m_f m).
Definition MatrixT (m : matrix) (p : path N) : path N := mapPoints (matrixPoint m) p.

(** path/path.go:257-261 [LineSegment.Angle] *)
Definition LineAngle (s e : P) : F := (ofZ 180 / npi tr) * natan2 tr (py e - py s) (px e - px s).

(** transforms/rotate_scale.go:15-88 [RotateScaleTransform.PathTransform] *)
Definition RotateScaleT (start en : P) (p : path N) : res (path N) :=
  bind (PointPathAttribute AStartPoint NoSub p) (fun s =>
  bind (PointPathAttribute AEndPoint NoSub p) (fun e =>
  bind (RotateT (LineAngle start en - LineAngle s e) ATopLeft p) (fun p1 =>
  let newX := nabs (px en - px start) in
  let newY := nabs (py en - py start) in
  bind (PointPathAttribute AStartPoint NoSub p1) (fun s =>
  bind (PointPathAttribute AEndPoint NoSub p1) (fun e =>
  let oldX := nabs (px e - px s) in
  let oldY := nabs (py e - py s) in
  let xScale := if negb (eqb oldX zero) then newX / oldX else zero in
  let yScale := if negb (eqb oldY zero) then newY / oldY else zero in
  let scale := nmax xScale yScale in
  bind (ScaleT (mkScale scale scale zeroPt zeroPt zero zero) p1) (fun p2 =>
  MoveT start AStartPoint p2)))))).

End Geom.
Arguments attr : clear implicits.
Arguments aval : clear implicits.
Arguments scaleSpec : clear implicits.
Arguments matrix : clear implicits.
