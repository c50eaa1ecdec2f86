(** Model of the rendering of components: package components (around.go, basic_edge.go, repeat_edge.go, gear.go, xintercept.go) and
    dom/repeat_component.go, dom/group_component.go, dom/draw_component.go (the svg commands), dom/part.go, dom/lathe_part_transformer.go,
    dom/models.go HandleTransforms; and of path/util.go HorizontalIntercepts and PolarToCartesian.
    A component is what rendering it returns, as a function of what its parent passes down: the cursor or the variables the parent sets.
    The lookup of attributes and expressions is not modelled here (see ParamModel.v); the values found are the arguments. *)
From Coq Require Import String List ZArith Bool Arith.
From Verif Require Import Num PathModel DrawModel SegOps TransformsModel Bezier GeomTransforms SvgParse.
Import ListNotations.
Local Open Scope num_scope.

(** int(math.Floor(x)) *)
Record FloorOps (N : Num) : Type := mkFloor { nfloor : T N -> Z }.
Arguments nfloor {N}.

Section Comp.
Context {N : Num}.
Notation F := (T N).
Notation P := (Pt N).
Notation seg := (seg N).
Variable co : CurveOps N.
Variable tr : Trig N.
Variable bm : BMath N.
Variable fl : FloorOps N.
Variable dop : Z.

(** a loop that stops at the first error *)
Fixpoint each {A B} (f : A -> res B) (l : list A) : res (list B) :=
  match l with
  | [] => Ok []
  | a :: r => bind (f a) (fun b => bind (each f r) (fun bs => Ok (b :: bs)))
  end.

(** dom/models.go:226-247 [HandleTransforms], the transforms already made; the cursor becomes PathCursor of the result, which panics
    on an empty path *)
Fixpoint applyTransforms (ts : list (path N -> res (path N))) (p : path N) : res (path N) :=
  match ts with
  | [] => Ok p
  | t :: r => bind (t p) (applyTransforms r)
  end.
Definition HandleTransforms (ts : list (path N -> res (path N))) (p : path N) : res (path N * P) :=
  bind (applyTransforms ts p) (fun p => bind (PathCursor p) (fun c => Ok (p, c))).

(** the loop of dom/group_component.go:50-62, components/basic_edge.go:80-91 and dom/part.go:140-155: every child is rendered with
    the cursor at the end of the previous one *)
Fixpoint renderChain (cs : list (P -> res (path N))) (cursor : P) : res (list (path N)) :=
  match cs with
  | [] => Ok []
  | c :: r => bind (c cursor) (fun p => bind (PathCursor p) (fun cur => bind (renderChain r cur) (fun ps => Ok (p :: ps))))
  end.

(** dom/group_component.go:46-67 [GroupComponent.Render] *)
Definition Group (ts : list (path N -> res (path N))) (cs : list (P -> res (path N))) (cursor : P) : res (path N * P) :=
  bind (renderChain cs cursor) (fun ps => bind (JoinPaths ps) (HandleTransforms ts)).

(** dom/repeat_component.go:45-105 [RepeatRender].  [comp None] is the component as first rendered, [comp (Some (ix, iy))] with the
    parameters index_x and index_y set; both with the cursor at (0,0) *)
Definition upto (n : Z) : list Z := map Z.of_nat (seq 0 (Z.to_nat n)).
Definition RepeatRender (comp : option (Z * Z) -> res (path N)) (maxX maxY : F) : res (path N * P) :=
  bind (comp None) (fun p =>
  bind (BoundingBoxWithWhitespace co p) (fun '(tl, br) =>
  let width := px br - px tl in
  let height := py br - py tl in
  let nx := if gtb maxX zero then nfloor fl (maxX / width) else 1%Z in
  let ny := if gtb maxY zero then nfloor fl (maxY / height) else 1%Z in
  bind (each (fun '(ix, iy) => bind (comp (Some (ix, iy))) (MoveT co (NewPoint (ofZ ix * width) (ofZ iy * height)) AStartPosition))
             (list_prod (upto nx) (upto ny))) (fun paths =>
  match paths with
  | [] => Err
  | _ => bind (JoinPaths paths) (fun p => bind (PathCursor p) (fun c => Ok (p, c)))
  end))).

(** components/basic_edge.go:94-119 and components/repeat_edge.go:176-202, the same code: the horizontal path is turned into the
    direction of the edge and its handle moved to the start *)
Definition placeEdge (startPoint endPoint : P) (handle : attr N) (p : path N) : res (path N) :=
  bind (PointPathAttribute co handle NoSub p) (fun axisPoint =>
  let angle := LineAngle tr startPoint endPoint in
  bind (if negb (eqb angle zero) then RotateT co tr angle handle p else Ok p) (fun p =>
  Ok (Shift (px startPoint - px axisPoint) (py startPoint - py axisPoint) p))).

(** components/basic_edge.go:47-122 [BasicEdgeComponent.Render]; [cs width] are the children, which see the variable "width" *)
Definition BasicEdge (ts : list (path N -> res (path N))) (cs : F -> list (P -> res (path N))) (startPoint endPoint : P) (handle : attr N) (cursor : P) : res (path N * P) :=
  bind (renderChain (cs (LineLength startPoint endPoint)) cursor) (fun ps =>
  bind (JoinPaths ps) (fun p =>
  bind (placeEdge startPoint endPoint handle p) (HandleTransforms ts))).

(** components/repeat_edge.go:76-204 [RepeatEdgeComponent.Render]; [left] and [right] see the variables left_width and right_width *)
Definition RepeatEdge (ts : list (path N -> res (path N))) (left right : F -> res (path N)) (comp : option (Z * Z) -> res (path N))
    (startPoint endPoint : P) (handle : attr N) (paddingLeft paddingRight : F) : res (path N * P) :=
  let maxX := LineLength startPoint endPoint - (paddingLeft + paddingRight) in
  bind (RepeatRender comp maxX zero) (fun '(p, _) =>
  bind (BoundingBoxWithWhitespace co p) (fun '(tl, br) =>
  let repeatWidth := px br - px tl in
  let overflow := maxX - repeatWidth in
  let leftWidth := overflow / two + paddingLeft in
  let rightWidth := overflow / two + paddingRight in
  bind (left leftWidth) (fun pLeft =>
  bind (right rightWidth) (fun pRight =>
  bind (MoveT co (NewPoint leftWidth zero) AStartPosition p) (fun p =>
  bind (MoveT co (NewPoint (leftWidth + repeatWidth) zero) AStartPosition pRight) (fun pRight =>
  bind (JoinPaths [pLeft; p; pRight]) (fun p =>
  bind (placeEdge startPoint endPoint handle p) (HandleTransforms ts)))))))).

(** path/attributes.go:67-69 [ToPathAttrFromPoint], read back by parsePoint (96-111): the point to [prec] decimals *)
Definition pointAttr (prec : nat) (c : P) : attr N :=
  match ToFloat64 (fmt prec (px c)), ToFloat64 (fmt prec (py c)) with
  | Some x, Some y => APoint (NewPoint x y)
  | _, _ => AUnknown
  end.

(** components/around.go:47-119 [AroundComponent.Render]; [comp len index] is the component with around__length and around__index
    set.  Line 91 sets around__index to 0 for every copy.  [prec] is AppContext().Precision(). *)
Definition Around (prec : nat) (comp : F -> Z -> res (path N)) (numEdges : Z) (radius : F) (center : P) : res (path N) :=
  if Z.eqb numEdges 0 then Err else if eqb radius zero then Err else
  let degrees := ofZ 360 / ofZ numEdges in
  let startPoint := send (NewLineSegmentAngle tr center radius (- (degrees / two) - ofZ 90)) in
  let endPoint := send (NewLineSegmentAngle tr center radius (degrees / two - ofZ 90)) in
  bind (each (fun i => bind (comp (LineLength startPoint endPoint) 0%Z) (fun p =>
                       bind (MoveT co startPoint AOrigin p) (RotateT co tr (degrees * ofZ i) (pointAttr prec center))))
             (upto numEdges)) JoinPaths.

(** path/util.go:433-435 [PolarToCartesian] *)
Definition PolarToCartesian (r theta : F) : P := NewPoint (r * nsin tr theta) (r * ncos tr theta).

(** components/gear.go:108-121 [q6], [iang], [q7] *)
Definition iang (r1 r2 : F) : F := nsqrt ((r2 / r1) * (r2 / r1) - one) - nacos bm (r1 / r2).
Definition q6 (b s t d : F) : P := PolarToCartesian d (s * (iang b d + t)).
Definition q7 (f r b r2 t s : F) : P := q6 b s t ((one - f) * nmax b r + f * r2).

(** components/gear.go:44-52: the radii of the gear; the number of teeth is an int converted to float64 *)
Record gearSpec : Type := mkGear { ge_teeth : Z; ge_width : F; ge_pressure : F; ge_clearance : F; ge_backlash : F }.
Definition gearPitch (g : gearSpec) : F := ge_width g * ofZ (ge_teeth g) / npi tr / two.
Definition gearOuter (g : gearSpec) : F := gearPitch g + ge_width g / npi tr - ge_clearance g.
Definition gearBase (g : gearSpec) : F := gearPitch g * ncos tr (DegreesToRadians tr (ge_pressure g)).
Definition gearRoot (g : gearSpec) : F := gearPitch g - (gearOuter g - gearPitch g) - ge_clearance g.
(** 3.142 (line 83) *)
Definition nearPi : F := ofZ 3142 / ofZ 1000.
(** components/gear.go:52-84: the points of one tooth *)
Definition gearTooth (g : gearSpec) : list P :=
  let n := ofZ (ge_teeth g) in
  let p := gearPitch g in let c := gearOuter g in let b := gearBase g in let r := gearRoot g in
  let t := ge_width g / two - ge_backlash g / two in
  let k := - iang b p - t / two / p in
  let tmp1 := if ltb r b then k else - npi tr / n in
  let tmp2 := if ltb r b then - k else npi tr / n in
  let up := map (fun i => ofZ i / ofZ 5) [0; 1; 2; 3; 4; 5]%Z in
  ([PolarToCartesian r (- npi tr / n); PolarToCartesian r tmp1]
   ++ map (fun f => q7 f r b c k one) up ++ map (fun f => q7 f r b c k (- one)) (rev up)
   ++ [PolarToCartesian r tmp2; PolarToCartesian r (nearPi / n)])%list.
(** components/gear.go:85-97 and 124-132: turning one point *)
Definition turned (angle : F) (p : P) : P :=
  NewPoint (px p * ncos tr angle - py p * nsin tr angle) (py p * ncos tr angle + px p * nsin tr angle).
(** components/gear.go:85-98; pth is a new drawing.  The constant 3.142/numTeeth and the quotients of line 74-82 are computed at run time from
    float64 values in the same order, except 3.142 and the fractions 1.0/5.0, which the compiler rounds once. *)
Definition gearPoints (g : gearSpec) : list P :=
  flat_map (fun i => map (turned (ofZ (- i) * two * npi tr / ofZ (ge_teeth g))) (gearTooth g)) (upto (ge_teeth g)).
Definition GearPath (g : gearSpec) : path N :=
  let d := match gearPoints g with
           | [] => NewDraw
           | p :: r => fold_left LineTo r (MoveTo NewDraw p)
           end in
  match gearTooth g with [] => d | p :: _ => LineTo d p end.

(** path/util.go:42-71 [HorizontalIntercepts]; sort.SliceStable by X (a stable sort; no result depends on which one) *)
Fixpoint insertX (q : P) (l : list P) : list P :=
  match l with
  | [] => [q]
  | a :: r => if ltb (px q) (px a) then q :: l else a :: insertX q r
  end.
Definition sortX (l : list P) : list P := fold_left (fun acc q => insertX q acc) l [].
Definition HorizontalIntercepts (p : path N) (y : F) : res (list P) :=
  bind (BoundingBoxWithWhitespace co p) (fun '(tl, br) =>
  let line := Line (NewPoint (px tl) y) (NewPoint (px br) y) in
  bind (each (Intersect co dop line) p) (fun pts => Ok (sortX (map fst (concat pts))))).

(** dom/lathe_part_transformer.go:45-105: the layers.  [comp from to index] is the rendered component of a layer.  [fuel] bounds the number of
    values of y; the loop ends because y grows (not for a thickness that is lost in rounding).  Result: for every layer its path, its width
    and height, and its length.  The label, made from the index, is left out. *)
Fixpoint layers (fuel : nat) (prec : Z) (comp : P -> P -> Z -> res (path N)) (outline : path N) (thickness bottom y : F) (index : Z) : res (list (path N * F * F * F)) :=
  match fuel with
  | O => OutOfFuel
  | S f =>
      if negb (leb y bottom) then Ok []
      else bind (HorizontalIntercepts outline y) (fun points =>
        match points with
        | from :: to :: _ =>
            let length := px to - px from in
            if PrecisionEquals length zero prec then layers f prec comp outline thickness bottom (y + thickness) index
            else bind (comp from to index) (fun p =>
                 bind (BoundingBoxTrimWhitespace co p) (fun '(tl, br) =>
                 bind (layers f prec comp outline thickness bottom (y + thickness) (index + 1)%Z) (fun r =>
                   Ok ((p, px br - px tl, py br - py tl, length) :: r))))
        | _ => layers f prec comp outline thickness bottom (y + thickness) index
        end)
  end.
(** dom/lathe_part_transformer.go:14-116 [TransformPart]: the layers, total_height (accumulated by repeated addition, line 104), top_width,
    bottom_width and num_layers *)
Definition Lathe (fuel : nat) (prec : Z) (comp : P -> P -> Z -> res (path N)) (outline : path N) (thickness paddingTop paddingBottom : F) : res (list (path N * F * F) * F * F * F * Z) :=
  bind (BoundingBoxWithWhitespace co outline) (fun '(tl, br) =>
  if leb thickness zero then Err else
  bind (layers fuel prec comp outline thickness (py br - paddingBottom) (py tl + paddingTop) 0%Z) (fun ls =>
  Ok (map fst ls, fold_left (fun h _ => h + thickness) ls zero, match ls with [] => zero | (_, l) :: _ => l end,
      fold_left (fun _ pl => snd pl) ls zero, Z.of_nat (List.length ls)))).

(** components/xintercept.go:84-117: the pieces at one height; result: the paths and the height of the last one rendered (line 113) *)
Fixpoint pieces (prec : Z) (comp : P -> P -> res (path N)) (points : list P) (height : F) : res (list (path N) * F) :=
  match points with
  | from :: to :: r =>
      if PrecisionEquals (px to - px from) zero prec then pieces prec comp r height
      else bind (comp from to) (fun p =>
           bind (BoundingBoxTrimWhitespace co p) (fun '(tl, br) =>
           bind (pieces prec comp r (py br - py tl)) (fun '(ps, h) => Ok (p :: ps, h))))
  | _ => Ok ([], height)
  end.
Fixpoint rows (fuel : nat) (prec : Z) (comp : P -> P -> res (path N)) (outline : path N) (spacing bottom y height : F) : res (list (path N)) :=
  match fuel with
  | O => OutOfFuel
  | S f =>
      if negb (leb y bottom) then Ok []
      else bind (HorizontalIntercepts outline y) (fun points =>
           bind (pieces prec comp points height) (fun '(ps, h) =>
           bind (rows f prec comp outline spacing bottom (y + h + spacing) h) (fun r => Ok (ps ++ r)%list)))
  end.
(** components/xintercept.go:58-124 [XInterceptComponent.Render].  Every error after line 69 is answered by "return nil, ctx, nil": a nil path
    and no error, here [Ok None]. *)
Definition XIntercept (fuel : nat) (prec : Z) (ts : list (path N -> res (path N))) (outline : res (path N)) (comp : P -> P -> res (path N)) (startY repeatY : F) : res (option (path N * P)) :=
  if eqb repeatY zero then Err else
  match bind outline (fun o => bind (BoundingBoxWithWhitespace co o) (fun '(tl, br) =>
        rows fuel prec comp o repeatY (py br) (py tl + startY) zero)) with
  | Err => Ok None
  | Panic => Panic
  | OutOfFuel => OutOfFuel
  | Ok [] => Err
  | Ok ps => bind (JoinPaths ps) (fun p => bind (HandleTransforms ts p) (fun r => Ok (Some r)))
  end.

(** dom/draw_component.go:57-87 [svgScaleTo] and 32-55 [svgRotateScaleTo]; [p] is the path read from the text (ParsePathFromSvg), [d] the drawing so far *)
Definition svgScaleTo (d p : path N) (to : P) (reverse : bool) : res (path N) :=
  let '(_, endPoint) := GetStartAndEnd d in
  let p := if reverse then PathReverse p else p in
  bind (ScaleT co (mkScale zero zero endPoint to zero zero) p) (fun pth =>
  bind (MoveT co endPoint AStartPoint pth) (fun pth => Ok (AddSegments d pth))).
Definition svgRotateScaleTo (d p : path N) (to : P) (reverse : bool) : res (path N) :=
  let '(_, endPoint) := GetStartAndEnd d in
  let p := if reverse then PathReverse p else p in
  bind (RotateScaleT co tr endPoint to p) (fun pth => Ok (AddSegments d pth)).

(** dom/part.go:183-193: several moves in a row become one *)
Fixpoint collapse_loop (acc : list seg) (l : list seg) : list seg :=
  match l with
  | [] => acc
  | s :: r => collapse_loop ((if isMove s then TrimTailMove acc else acc) ++ [s])%list r
  end.
Definition collapseMoves (p : path N) : path N := NewPathFromSegments (collapse_loop [] p).

(** dom/part.go:137-197 [Part.Render] *)
Definition PartRender (ts : list (path N -> res (path N))) (cs : list (P -> res (path N))) (cursor : P) : res (path N) :=
  bind (renderChain cs cursor) (fun ps =>
  match ps with
  | [] => Err
  | _ => bind (JoinPaths ps) (fun p =>
         bind (PathCursor p) (fun _ =>
         bind (HandleTransforms ts p) (fun '(p1, _) =>
         bind (TrimWhitespace co p1) (fun p2 => Ok (collapseMoves p2)))))
  end).

(** dom/part.go:78-116 [RenderPart], the repeated renderings before the part transformers: path, width and height of each; [render i] is Part.Render with part_index set to i *)
Definition renderOne (render : Z -> res (path N)) (i : Z) : res (path N * F * F) :=
  bind (render i) (fun p =>
  bind (TrimWhitespace co p) (fun p =>
  bind (BoundingBoxTrimWhitespace co p) (fun '(tl, br) => Ok (p, px br - px tl, py br - py tl)))).
Definition RenderPart (repeat : Z) (render : Z -> res (path N)) : res (list (path N * F * F)) :=
  each (renderOne render) (upto repeat).

End Comp.
Arguments gearSpec : clear implicits.
