(** Model of path/segment_operators.go (DefaultSegmentOperators) and of the helpers of path/util.go it uses.
    The Go interface CurveOperators (path/segment_operators.go:35-42) is a record of functions,
    so everything here holds for any implementation of it; the default one is in [BezierOps.v]. *)
From Coq Require Import String List ZArith NArith Bool.
From Verif Require Import Num PathModel DrawModel.
Import ListNotations.
Local Open Scope num_scope.

Section SegOps.
Context {N : Num}.
Notation F := (T N).
Notation P := (Pt N).
Notation seg := (seg N).

(** a point returned by an intersection, with the parameter [t] it remembers
    (path/path.go:18-20; NewPoint sets t = -1, tP at path/segment_operators.go:509-513 sets it) *)
Definition ipt : Type := (P * F)%type.

(** the four points of a Curve (path/segment_operators.go:28-33): Start, ControlStart, End, ControlEnd *)
Record crv := mkCrv { c_s : P; c_cs : P; c_e : P; c_ce : P }.
Definition crvSeg (c : crv) : seg := Curve (c_s c) (c_cs c) (c_e c) (c_ce c).

(** path/segment_operators.go:35-42 [CurveOperators] *)
Record CurveOps := mkCurveOps {
  co_bbox : crv -> res (P * P);
  co_intersectLine : crv -> P -> P -> res (list ipt);
  co_intersectProjected : crv -> P -> P -> res (list ipt);
  co_intersectCurve : crv -> crv -> res (list ipt);
  co_split : crv -> ipt -> res (list crv);
  co_offset : crv -> F -> res (list crv)
}.

Variable co : CurveOps.
Variable dop : Z.   (* DefaultSegmentOperators.Precision; 3 in NewSegmentOperators (line 51-56) *)

(** path/segment_operators.go:70-93 [TransformPoints] *)
Definition TransformPoints (g : seg) (pt : P -> P) : seg :=
  match g with
  | Move s e => Move (pt s) (pt e)
  | Line s e => Line (pt s) (pt e)
  | Curve s cs e ce => Curve (pt s) (pt cs) (pt e) (pt ce)
  end.

(** path/segment_operators.go:306-331 [Reverse] *)
Definition Reverse (g : seg) : seg :=
  match g with
  | Move s e => Move e s
  | Line s e => Line e s
  | Curve s cs e ce => Curve e ce s cs
  end.

(** path/segment_operators.go:339-355: bounding box of a move or line *)
Definition lineBox (s e : P) : P * P :=
  let '(minX, maxX) := if ltb (px e) (px s) then (px e, px s) else (px s, px e) in
  let '(minY, maxY) := if ltb (py e) (py s) then (py e, py s) else (py s, py e) in
  (NewPoint minX minY, NewPoint maxX maxY).

(** path/segment_operators.go:333-358 [BoundingBox] *)
Definition segBox (g : seg) : res (P * P) :=
  match g with
  | Curve s cs e ce => co_bbox co (mkCrv s cs e ce)
  | Move s e | Line s e => Ok (lineBox s e)
  end.

(** path/util.go:271-301 [LineIntersection]; None = not successful *)
Definition LineIntersection (s1 e1 s2 e2 : P) (precision : Z) : option P :=
  let l1S := Slope s1 e1 in
  let l2S := Slope s2 e2 in
  if PrecisionEquals l1S l2S precision then None
  else if IsVertical s1 e1 precision then
    if IsVertical s2 e2 precision then None
    else let x := px s1 in Some (NewPoint x (EvalX s2 e2 x))
  else if IsVertical s2 e2 precision then
    let x := px s2 in Some (NewPoint x (EvalX s1 e1 x))
  else
    let x := (YIntercept s2 e2 - YIntercept s1 e1) / (l1S - l2S) in
    let y := EvalX s1 e1 x in
    if isnan x || isnan y then None else Some (NewPoint x y).

(** path/segment_operators.go:103-131 [JoinLines] *)
Definition JoinLines (s1 e1 s2 e2 : P) : list seg :=
  match LineIntersection s1 e1 s2 e2 dop with
  | None => if EqualsPrecision e1 s2 dop then [Line s1 e2] else [Line s1 e1; Line s2 e2]
  | Some p => [Line (clonePt s1) (clonePt p); Line (clonePt p) e2]
  end.

(** path/segment_operators.go:404-450 [Split] *)
Definition Split (g : seg) (p : ipt) : res (list seg) :=
  if EqualsPrecision (fst p) (sstart g) 7 || EqualsPrecision (fst p) (send g) 7 then Ok [g]
  else match g with
       | Curve s cs e ce => bind (co_split co (mkCrv s cs e ce) p) (fun l => Ok (map crvSeg l))
       | Move s e => Ok [Move s (fst p); Move (fst p) e]
       | Line s e => Ok [Line s (fst p); Line (fst p) e]
       end.

(** closest of the intersection points to [e], path/segment_operators.go:155-164 and 205-214 *)
Fixpoint closest_loop (e : P) (pts : list ipt) (best : ipt) (distance : F) : ipt :=
  match pts with
  | [] => best
  | p :: r => let d := Distance e (fst p) in
              if ltb d distance then closest_loop e r p d else closest_loop e r best distance
  end.

(** path/segment_operators.go:134-182 [JoinLineAndCurve]; segs[0] of an empty split panics *)
Definition JoinLineAndCurve (s1 e1 : P) (c2 : crv) : res (list seg) :=
  bind (co_intersectProjected co c2 s1 e1) (fun points =>
  match points with
  | [] => Ok [Line s1 e1; Line e1 (c_s c2); crvSeg c2]
  | p0 :: _ =>
      let bp := closest_loop e1 points p0 (Distance e1 (fst p0)) in
      bind (Split (crvSeg c2) bp) (fun segs =>
      match segs with
      | [] => Panic
      | [a; b] => Ok [Line s1 (fst bp); b]
      | a :: _ => Ok [Line s1 (fst bp); a]
      end)
  end).

(** path/segment_operators.go:184-228 [JoinCurveAndLine] *)
Definition JoinCurveAndLine (c1 : crv) (s2 e2 : P) : res (list seg) :=
  bind (co_intersectProjected co c1 s2 e2) (fun points =>
  match points with
  | [] => Ok [crvSeg c1; Line (c_e c1) s2; Line s2 e2]
  | p0 :: _ =>
      let bp := closest_loop (c_e c1) points p0 (Distance (c_e c1) (fst p0)) in
      bind (Split (crvSeg c1) bp) (fun segs =>
      match segs with
      | [] => Panic
      | a :: _ => Ok [a; Line (fst bp) e2]
      end)
  end).

(** path/segment_operators.go:230-268 [JoinCurves].  The branch at 232-246 needs an error together
    with points from Intersect, which no implementation modelled by [CurveOps] returns
    (BezierCurveOperators never returns an error), so it is dead and omitted. *)
Definition JoinCurves (c1 c2 : crv) : list seg :=
  let mid := NewPoint (px (c_e c1) + (px (c_s c2) - px (c_e c1)))
                      (py (c_e c1) + (py (c_s c2) - py (c_e c1))) in
  [Curve (c_s c1) (c_cs c1) mid (c_ce c1); Curve mid (c_cs c2) (c_e c2) (c_ce c2)].

(** path/segment_operators.go:270-304 [Join] *)
Definition Join (g1 g2 : seg) : res (list seg) :=
  if EqualsPrecision (send g1) (sstart g2) dop then Ok [g1; setStart g2 (send g1)]
  else match g1, g2 with
       | Line s1 e1, Line s2 e2 => Ok (JoinLines s1 e1 s2 e2)
       | Line s1 e1, Curve s cs e ce => JoinLineAndCurve s1 e1 (mkCrv s cs e ce)
       | Curve s cs e ce, Curve s' cs' e' ce' => Ok (JoinCurves (mkCrv s cs e ce) (mkCrv s' cs' e' ce'))
       | Curve s cs e ce, Line s2 e2 => JoinCurveAndLine (mkCrv s cs e ce) s2 e2
       | _, _ => Ok [g1; Line (clonePt (send g1)) (clonePt (send g2)); g2]
       end.

(** path/segment_operators.go:360-402 [Intersect] *)
Definition Intersect (g1 g2 : seg) : res (list ipt) :=
  match g1, g2 with
  | Curve s cs e ce, Line s2 e2 => co_intersectLine co (mkCrv s cs e ce) s2 e2
  | Curve s cs e ce, Curve s' cs' e' ce' => co_intersectCurve co (mkCrv s cs e ce) (mkCrv s' cs' e' ce')
  | Curve _ _ _ _, Move _ _ => Ok []
  | Line s1 e1, Line s2 e2 =>
      let '(tl1, br1) := lineBox s1 e1 in
      let '(tl2, br2) := lineBox s2 e2 in
      match LineIntersection s1 e1 s2 e2 dop with
      | None => Ok []
      | Some p => if negb (PrecisionPointInBoundingBox tl1 br1 p dop)
                     || negb (PrecisionPointInBoundingBox tl2 br2 p dop)
                  then Ok [] else Ok [(p, - one)]
      end
  | Line s1 e1, Curve s cs e ce => co_intersectLine co (mkCrv s cs e ce) s1 e1
  | Line _ _, Move _ _ => Ok []
  | Move _ _, _ => Ok []
  end.

(** path/util.go:235-253 [Parallel] *)
Definition Parallel (s e : P) (distance : F) : P * P :=
  let x1 := px s in let y1 := py s in let x2 := px e in let y2 := py e in
  let l := nsqrt ((x1 - x2) * (x1 - x2) + (y1 - y2) * (y1 - y2)) in
  (NewPoint (x1 + distance * (y2 - y1) / l) (y1 + distance * (x1 - x2) / l),
   NewPoint (x2 + distance * (y2 - y1) / l) (y2 + distance * (x1 - x2) / l)).

(** path/segment_operators.go:452-507 [Offset].  Lines 496-504 apply only to a result of two or
    more pieces beginning with a move, which cannot occur (a move yields one piece). *)
Definition Offset (g : seg) (distance : F) : res (list seg) :=
  if EqualsPrecision (sstart g) (send g) dop then Ok []
  else match g with
       | Curve s cs e ce => bind (co_offset co (mkCrv s cs e ce) distance) (fun l => Ok (map crvSeg l))
       | Move s e => let '(a, b) := Parallel s e (- distance) in Ok [Move a b]
       | Line s e => let '(a, b) := Parallel s e (- distance) in Ok [Line a b]
       end.

(** path/util.go:13-38 [KnifeCut]; Go's recursion has no bound, the model has fuel *)
Fixpoint KnifeCut (fuel : nat) (g knife : seg) : res (list seg) :=
  match fuel with
  | O => OutOfFuel
  | S fuel' =>
      bind (Intersect knife g) (fun pnts =>
      match pnts with
      | [] => Ok [g]
      | p0 :: _ =>
          bind (Split g p0) (fun segs =>
          match segs with
          | [_] => Ok [g]
          | _ => (fix loop (ss : list seg) : res (list seg) :=
                    match ss with
                    | [] => Ok []
                    | s :: r => bind (KnifeCut fuel' s knife) (fun sp =>
                                bind (loop r) (fun rest => Ok (sp ++ rest)%list))
                    end) segs
          end)
      end)
  end.

(** path/util.go:104-138 [boundingBox] *)
Definition boxMerge (a b : P * P) : P * P :=
  let '(tl, br) := a in let '(tl2, br2) := b in
  (mkPt (if ltb (px tl2) (px tl) then px tl2 else px tl)
        (if ltb (py tl2) (py tl) then py tl2 else py tl),
   mkPt (if gtb (px br2) (px br) then px br2 else px br)
        (if gtb (py br2) (py br) then py br2 else py br)).

Fixpoint boundingBox_loop (acc : P * P) (l : list seg) : res (P * P) :=
  match l with
  | [] => Ok acc
  | g :: r => if isMove g then boundingBox_loop acc r
              else bind (segBox g) (fun b => boundingBox_loop (boxMerge acc b) r)
  end.

Definition boundingBox (p : path N) : res (P * P) :=
  match p with
  | [] => Ok (zeroPt, zeroPt)
  | g :: r => bind (segBox g) (fun b => boundingBox_loop b r)
  end.

(** path/util.go:73-76 [BoundingBoxTrimWhitespace] *)
Definition BoundingBoxTrimWhitespace (p : path N) : res (P * P) :=
  boundingBox (NewPathFromSegmentsWithoutMove (TrimMove p)).

(** path/util.go:79-101 [BoundingBoxWithWhitespace]; p.Segments()[0] of an empty path panics *)
Definition BoundingBoxWithWhitespace (p : path N) : res (P * P) :=
  bind (boundingBox p) (fun b =>
  let '(_, br) := b in
  match p with
  | [] => Panic
  | start :: _ =>
      let en := send (last p start) in
      let tl := NewPoint zero zero in
      let tl := mkPt (if ltb (px (sstart start)) (px tl) then px (sstart start) else px tl)
                     (if ltb (py (sstart start)) (py tl) then py (sstart start) else py tl) in
      let br := mkPt (if gtb (px en) (px br) then px en else px br)
                     (if gtb (py en) (py br) then py en else py br) in
      Ok (tl, br)
  end).

End SegOps.

Arguments crv : clear implicits.
Arguments CurveOps : clear implicits.
