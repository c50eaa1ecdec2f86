(** Model of package bezier (bezier/bezier.go, bezier/utils.go): evaluation, splitting, derivatives, extrema, boxes, projection,
    line/line intersection, roots, reduction, offset, curve/curve intersection.
    bezier.Point is [Pt] without normalisation of zeros; bezier.CubicCurve is [crv] (Start, StartControl, End, EndControl). *)
From Coq Require Import String List ZArith Bool Arith.
From Verif Require Import Num PathModel SegOps.
Import ListNotations.
Local Open Scope num_scope.

Section Bezier.
Context {N : Num}.
Notation F := (T N).
Notation P := (Pt N).
Notation crv := (crv N).

Definition two : F := ofZ 2.
Definition three : F := ofZ 3.
Definition half : F := one / two.

(** bezier/bezier.go:66-77 [_deCasteljau]: one round, and the recursion on the length (the in-place
    update reads points[i] and points[i+1] before writing points[i]) *)
Fixpoint casteljauRound (t : F) (l : list P) : list P :=
  match l with
  | a :: ((b :: _) as r) => mkPt ((one - t) * px a + t * px b) ((one - t) * py a + t * py b) :: casteljauRound t r
  | _ => []
  end.
Fixpoint deCasteljau (fuel : nat) (l : list P) (t : F) : res P :=
  match fuel with
  | 0 => OutOfFuel
  | S f => match l with
           | [] => Panic
           | [a] => Ok a
           | _ => deCasteljau f (casteljauRound t l) t
           end
  end.
(** bezier/bezier.go:88-95 [cubicCurveToArray], 61-64 [DeCasteljau] *)
Definition curveArray (c : crv) : list P := [c_s c; c_cs c; c_ce c; c_e c].
Definition DeCasteljau (c : crv) (t : F) : res P := deCasteljau 4 (curveArray c) t.

(** bezier/bezier.go:314-319 [lerp] *)
Definition lerp (r : F) (v1 v2 : P) : P := mkPt (px v1 + r * (px v2 - px v1)) (py v1 + r * (py v2 - py v1)).

(** bezier/bezier.go:741-761 [hull] for the four points of a curve, and the two halves taken from it
    (105-124): left = q0 q4 q7 q9, right = q9 q8 q6 q3 *)
Definition hullSplit (c : crv) (t : F) : crv * crv :=
  let q0 := c_s c in let q1 := c_cs c in let q2 := c_ce c in let q3 := c_e c in
  let q4 := lerp t q0 q1 in let q5 := lerp t q1 q2 in let q6 := lerp t q2 q3 in
  let q7 := lerp t q4 q5 in let q8 := lerp t q5 q6 in
  let q9 := lerp t q7 q8 in
  (mkCrv q0 q4 q9 q7, mkCrv q9 q8 q3 q6).

(** the Go zero value of CubicCurve *)
Definition zeroCrv : crv := mkCrv zeroPt zeroPt zeroPt zeroPt.

(** bezier/bezier.go:33-42 [curveSegment]; the field lut is always nil where it is read (getLUT, 324) *)
Record cseg := mkCseg { cv : crv; st1 : F; st2 : F }.
Definition zeroCseg : cseg := mkCseg zeroCrv zero zero.

(** bezier/bezier.go:156-162 [_map] *)
Definition mapRange (v ds de ts te : F) : F := ts + (te - ts) * ((v - ds) / (de - ds)).

(** bezier/bezier.go:115-132: the two halves at [t] with their sections *)
Definition hullSplitS (s : cseg) (t : F) : cseg * cseg :=
  let '(l, r) := hullSplit (cv s) t in
  let m := mapRange t zero one (st1 s) (st2 s) in
  (mkCseg l (mapRange zero zero one (st1 s) (st2 s)) m, mkCseg r m (mapRange one zero one (st1 s) (st2 s))).

(** bezier/bezier.go:105-142 [_splitCurveSection] with tEnd = -1.  tStart == 0 calls itself with
    (tEnd, -1) = (-1, -1), i.e. splits at -1, and returns a zero second segment. *)
Definition splitAtS (s : cseg) (t : F) : cseg * cseg :=
  if eqb t zero then (fst (hullSplitS s (- one)), zeroCseg) else hullSplitS s t.

(** bezier/bezier.go:105-142 [_splitCurveSection] in general *)
Definition splitSectionS (s : cseg) (tStart tEnd : F) : cseg * cseg :=
  if eqb tStart zero then (fst (splitAtS s tEnd), zeroCseg)
  else if eqb tEnd one then let r := snd (splitAtS s tStart) in (r, r)
  else
    let lr := hullSplitS s tStart in
    if ltb tEnd zero then lr
    else splitAtS (snd lr) (mapRange tEnd tStart one zero one).

(** bezier/bezier.go:97-100 [SplitCurve] *)
Definition SplitCurve (c : crv) (t : F) : crv * crv :=
  let '(l, r) := splitSectionS (mkCseg c zero zero) t (- one) in (cv l, cv r).
(** bezier/bezier.go:145-154 [SplitCurveSection] *)
Definition SplitCurveSection (c : crv) (tStart tEnd : F) : crv :=
  cv (fst (splitSectionS (mkCseg c tStart tEnd) tStart tEnd)).

(** bezier/bezier.go:165-185 [derive]: the control points of the first and second derivative *)
Definition dpt (k : F) (a b : P) : P := mkPt (k * (px b - px a)) (k * (py b - py a)).
Definition derive1 (c : crv) : P * P * P :=
  (dpt three (c_s c) (c_cs c), dpt three (c_cs c) (c_ce c), dpt three (c_ce c) (c_e c)).
Definition derive2 (c : crv) : P * P :=
  let '(p0, p1, p2) := derive1 c in (dpt two p0 p1, dpt two p1 p2).

(** bezier/bezier.go:188-200 [Derivative] *)
Definition Derivative (c : crv) (t : F) : P :=
  let mt := one - t in
  let '(p0, p1, p2) := derive1 c in
  let a := mt * mt in let b := mt * t * two in let d := t * t in
  mkPt (a * px p0 + b * px p1 + d * px p2) (a * py p0 + b * py p1 + d * py p2).

(** bezier/bezier.go:304-312 [normal] *)
Definition normal (c : crv) (t : F) : P :=
  let d := Derivative c t in
  let q := nsqrt (px d * px d + py d * py d) in
  mkPt (- (py d) / q) (px d / q).

(** bezier/bezier.go:202-219 [droots], three values *)
Definition droots3 (a b c : F) : list F :=
  let d := a - two * b + c in
  if negb (eqb d zero) then
    let m1 := - (nsqrt (b * b - a * c)) in
    let m2 := - a + b in
    [- (m1 + m2) / d; - (- m1 + m2) / d]
  else if negb (eqb b c) && eqb d zero then [(two * b - c) / (two * (b - c))]
  else [].
(** bezier/bezier.go:222-229 [droots], two values *)
Definition droots2 (a b : F) : list F := if negb (eqb a b) then [a / (a - b)] else [].

(** bezier/bezier.go:287-300, the filter of [extrema] *)
Definition in01 (t : F) : bool := geb t zero && leb t one.

(** bezier/bezier.go:267-302 [extrema], one dimension: the control points of the derivatives *)
Definition extrema1 (d : F * F * F) (e : F * F) : list F :=
  let '(a, b, c) := d in let '(a', b') := e in
  filter in01 (droots3 a b c ++ droots2 a' b').
Definition extremaX (c : crv) : list F :=
  let '(p0, p1, p2) := derive1 c in let '(q0, q1) := derive2 c in extrema1 (px p0, px p1, px p2) (px q0, px q1).
Definition extremaY (c : crv) : list F :=
  let '(p0, p1, p2) := derive1 c in let '(q0, q1) := derive2 c in extrema1 (py p0, py p1, py p2) (py q0, py q1).

(** bezier/bezier.go:234-257 [FindPoint] *)
Definition bernstein (t a b c d : F) : F :=
  let mt := one - t in let mt2 := mt * mt in let t2 := t * t in
  mt2 * mt * a + mt2 * t * three * b + mt * t2 * three * c + t * t2 * d.
Definition FindPoint (c : crv) (t : F) : P :=
  if eqb t zero then c_s c
  else if eqb t one then c_e c
  else mkPt (bernstein t (px (c_s c)) (px (c_cs c)) (px (c_ce c)) (px (c_e c)))
            (bernstein t (py (c_s c)) (py (c_cs c)) (py (c_ce c)) (py (c_e c))).

(** bezier/bezier.go:857-891 [getMinMax], one dimension; float64(MaxInt) is 2^63 and float64(MinInt) is -2^63 *)
Definition minStep (acc x : F) : F := if ltb x acc then x else acc.
Definition maxStep (acc x : F) : F := if gtb x acc then x else acc.
Definition withEnds (l : list F) : list F :=
  Float64ArrayInsertIfAbsent (Float64ArrayInsertIfAbsent l zero) one.
Definition minOf (xs : list F) : F := fold_left minStep xs (ofZ (2 ^ 63)).
Definition maxOf (xs : list F) : F := fold_left maxStep xs (ofZ (- (2 ^ 63))).
(** bezier/bezier.go:715-739 [BoundingBox] *)
Definition BoundingBox (c : crv) : P * P :=
  let xs := map (fun t => px (FindPoint c t)) (withEnds (extremaX c)) in
  let ys := map (fun t => py (FindPoint c t)) (withEnds (extremaY c)) in
  (mkPt (minOf xs) (minOf ys), mkPt (maxOf xs) (maxOf ys)).

(** bezier/bezier.go:689-712 [BoundingBoxOverlaps] *)
Definition overlaps1 (l1 h1 l2 h2 : F) : bool :=
  negb (geb (nabs ((l1 + h1) / two - (l2 + h2) / two)) ((h1 - l1 + (h2 - l2)) / two)).
Definition BoundingBoxOverlaps (tl1 br1 tl2 br2 : P) : bool :=
  overlaps1 (px tl1) (px br1) (px tl2) (px br2) && overlaps1 (py tl1) (py br1) (py tl2) (py br2).
(** bezier/bezier.go:645-649 [CurveOverlaps] *)
Definition CurveOverlaps (c1 c2 : crv) : bool :=
  let '(tl1, br1) := BoundingBox c1 in let '(tl2, br2) := BoundingBox c2 in BoundingBoxOverlaps tl1 br1 tl2 br2.

(** bezier/bezier.go:435-443 [Approximately], [Approx]; 0.000001 as the quotient 1/1000000 *)
Definition Approx (a b : F) : bool := leb (nabs (a - b)) (one / ofZ 1000000).
(** bezier/bezier.go:640-642 [Between] *)
Definition Between (v m1 m2 : F) : bool := (leb m1 v && leb v m2) || Approx v m1 || Approx v m2.
(** bezier/utils.go:61-70 [between] *)
Definition between (r a b : F) : bool :=
  if Approx r a || Approx r b then true else (geb r a && leb r b) || (leb r a && geb r b).

(** bezier/bezier.go:1044-1053 [lli8], 1055-1065 [lli4]; None = not successful *)
Definition lli4 (p1 p2 p3 p4 : P) : option P :=
  let x1 := px p1 in let y1 := py p1 in let x2 := px p2 in let y2 := py p2 in
  let x3 := px p3 in let y3 := py p3 in let x4 := px p4 in let y4 := py p4 in
  let nx := (x1 * y2 - y1 * x2) * (x3 - x4) - (x1 - x2) * (x3 * y4 - y3 * x4) in
  let ny := (x1 * y2 - y1 * x2) * (y3 - y4) - (y1 - y2) * (x3 * y4 - y3 * x4) in
  let d := (x1 - x2) * (y3 - y4) - (y1 - y2) * (x3 - x4) in
  if eqb d zero then None else Some (mkPt (nx / d) (ny / d)).

(** bezier/bezier.go:44-57 [normalize]; .1 is 1/10 and 1-.01 is 99/100, up to their rounding *)
Definition normalize (c : crv) : crv :=
  let c := if eqb (px (c_s c)) (px (c_cs c)) && eqb (py (c_s c)) (py (c_cs c))
           then mkCrv (c_s c) (FindPoint c (one / ofZ 10)) (c_e c) (c_ce c) else c in
  if eqb (px (c_e c)) (px (c_ce c)) && eqb (py (c_e c)) (py (c_ce c))
  then mkCrv (c_s c) (c_cs c) (c_e c) (FindPoint c (ofZ 99 / ofZ 100)) else c.

(** bezier/bezier.go:893-903 [OffsetPoint] *)
Definition OffsetPoint (c0 : crv) (t d : F) : P :=
  let c := normalize c0 in
  let p := FindPoint c t in let n := normal c t in
  mkPt (px p + px n * d) (py p + py n * d).

(** bezier/bezier.go:323-335 [getLUT]: [steps] points, the first at 0 and the last at 1 *)
Definition getLUT (c : crv) (steps : nat) : list P :=
  map (fun k => FindPoint c (ofZ (Z.of_nat k) / ofZ (Z.of_nat (steps - 1)))) (seq 0 steps).

(** bezier/utils.go:9-13 [Distance] *)
Definition bDistance (p q : P) : F := let x := px p - px q in let y := py p - py q in nsqrt (x * x + y * y).

(** bezier/bezier.go:338-349 [closest].  The named result [point] is still the zero point when the
    distances are taken, and the parameter [p] is shadowed: the query point is never used. *)
Fixpoint closest_loop (l : list P) (i besti : nat) (best : F) : F * nat :=
  match l with
  | [] => (best, besti)
  | q :: r => let d := bDistance zeroPt q in
              if ltb d best then closest_loop r (S i) i d else closest_loop r (S i) besti best
  end.
Definition closest (l : list P) : F * nat := closest_loop l 0 0 (ofZ (2 ^ 63)).

(** bezier/bezier.go:674-687 the fine search of [Project]; [fuel] bounds the for loop.
    mdist is increased by one before the search *)
Fixpoint fineSearch (fuel : nat) (c : crv) (point : P) (t t2 step mdist ft : F) : res (F * F) :=
  match fuel with
  | 0 => OutOfFuel
  | S f => if ltb t (t2 + step) then
             let d := bDistance point (FindPoint c t) in
             if ltb d mdist then fineSearch f c point (t + step) t2 step d t
             else fineSearch f c point (t + step) t2 step mdist ft
           else Ok (mdist, ft)
  end.
(** bezier/bezier.go:655-687 [Project]: point, distance, t.  In the first branch distance and t are returned exchanged. *)
Definition Project (fuel : nat) (c : crv) (point : P) : res (P * F * F) :=
  let lut := getLUT c 100 in
  let l := ofZ 99 in
  let '(mdist, mpos) := closest lut in
  let pt := nth mpos lut zeroPt in
  if Nat.eqb mpos 0 || Nat.eqb mpos 99 then Ok (pt, ofZ (Z.of_nat mpos) / l, mdist)
  else
    let m := ofZ (Z.of_nat mpos) in
    let t1 := (m - one) / l in
    let t2 := (m + one) / l in
    let step := (one / ofZ 10) / l in
    bind (fineSearch fuel c point t1 t2 step (mdist + one) t1) (fun '(d, ft) => Ok (FindPoint c ft, d, ft)).

(** Functions of package math beyond [Trig]: Acos, Pow, Round *)
Record BMath := mkBMath { nacos : F -> F; npow : F -> F -> F; nround : F -> F }.
Variable tr : Trig N.
Variable bm : BMath.

(** bezier/bezier.go:421-433 [Align] *)
Definition Align (l : list P) (p1 p2 : P) : list P :=
  let tx := px p1 in let ty := py p1 in
  let a := - natan2 tr (py p2 - ty) (px p2 - tx) in
  map (fun v => mkPt ((px v - tx) * ncos tr a - (py v - ty) * nsin tr a)
                     ((px v - tx) * nsin tr a + (py v - ty) * ncos tr a)) l.

(** bezier/bezier.go:446-452 [Crt] *)
Definition Crt (v : F) : F :=
  if ltb v zero then - npow bm (- v) (one / three) else npow bm v (one / three).

(** bezier/bezier.go:467-475, the local function [reduce] of Roots *)
Definition keep01 (l : list F) : list F := filter (fun t => leb zero t && leb t one) l.

(** bezier/bezier.go:500-543: the roots of t^3 + a t^2 + b t + c *)
Definition cubicRoots (a b c : F) : list F :=
  let p := (three * b - a * a) / three in
  let p3 := p / three in
  let q := (two * a * a * a - ofZ 9 * a * b + ofZ 27 * c) / ofZ 27 in
  let q2 := q / two in
  let discriminant := q2 * q2 + p3 * p3 * p3 in
  if ltb discriminant zero then
    let mp3 := - p / three in
    let mp33 := mp3 * mp3 * mp3 in
    let r := nsqrt mp33 in
    let t := - q / (two * r) in
    let cosphi := if ltb t (- one) then - one else if gtb t one then one else t in
    let phi := nacos bm cosphi in
    let tau := two * npi tr in
    let crtr := Crt r in
    let t1 := two * crtr in
    keep01 [t1 * ncos tr (phi / three) - a / three;
            t1 * ncos tr ((phi + tau) / three) - a / three;
            t1 * ncos tr ((phi + two * tau) / three) - a / three]
  else if eqb discriminant zero then
    let u1 := - Crt q2 in
    keep01 [two * u1 - a / three; - u1 - a / three]
  else
    let sd := nsqrt discriminant in
    let u1 := Crt (- q2 + sd) in
    let v1 := Crt (q2 + sd) in
    keep01 [u1 - v1 - a / three].

(** bezier/bezier.go:477-496: the roots of d t^3 + a t^2 + b t + c *)
Definition polyRoots (d a b c : F) : list F :=
  if Approx d zero then
    if Approx a zero then
      if Approx b zero then [] else keep01 [- c / b]
    else
      let q := nsqrt (b * b - ofZ 4 * a * c) in
      let a2 := two * a in
      keep01 [(q - b) / a2; (- b - q) / a2]
  else cubicRoots (a / d) (b / d) (c / d).

(** bezier/bezier.go:454-544 [Roots] for the points of a curve *)
Definition Roots (l : list P) (p1 p2 : P) : list F :=
  match map py (Align l p1 p2) with
  | [pa; pb; pc; pd] =>
      polyRoots (- pa + three * pb - three * pc + pd)
                (three * pa - ofZ 6 * pb + three * pc)
                (- three * pa + three * pb)
                pa
  | _ => []
  end.

(** math.Min and math.Max on numbers that are not NaN *)
Definition nmin (x y : F) : F := if ltb x y then x else y.
Definition nmax (x y : F) : F := if ltb x y then y else x.

(** bezier/bezier.go:584-601 [IntersectsLine]; maxy is the maximum of p2.Y and p2.Y *)
Definition IntersectsLine (c : crv) (p1 p2 : P) : list F :=
  let minx := nmin (px p1) (px p2) in
  let miny := nmin (py p1) (py p2) in
  let maxx := nmax (px p1) (px p2) in
  let maxy := py p2 in
  filter (fun t => let p := FindPoint c t in between (px p) minx maxx && between (py p) miny maxy)
         (Roots (curveArray c) p1 p2).

(** bezier/bezier.go:603-606 [IntersectsProjectedLine] *)
Definition IntersectsProjectedLine (c : crv) (p1 p2 : P) : list F := Roots (curveArray c) p1 p2.

(** bezier/bezier.go:763-771 [angle] *)
Definition angle (o v1 v2 : P) : F :=
  let dx1 := px v1 - px o in let dy1 := py v1 - py o in
  let dx2 := px v2 - px o in let dy2 := py v2 - py o in
  natan2 tr (dx1 * dy2 - dy1 * dx2) (dx1 * dx2 + dy1 * dy2).

(** bezier/bezier.go:773-787 [simple] *)
Definition simple (c : crv) : bool :=
  let a1 := angle (c_s c) (c_e c) (c_cs c) in
  let a2 := angle (c_s c) (c_e c) (c_ce c) in
  if (gtb a1 zero && ltb a2 zero) || (ltb a1 zero && gtb a2 zero) then false
  else
    let n1 := normal c zero in let n2 := normal c one in
    let s := px n1 * px n2 + py n1 * py n2 in
    ltb (nabs (nacos bm s)) (npi tr / three).

(** sort.Float64s on values that are not NaN *)
Fixpoint insertF (x : F) (l : list F) : list F :=
  match l with
  | [] => [x]
  | y :: r => if ltb y x then y :: insertF x r else x :: l
  end.
Definition sortF (l : list F) : list F := fold_right insertF [] l.

(** bezier/bezier.go:800-810: first pass of [reduce] *)
Fixpoint splitBetween (c : crv) (t1 : F) (ts : list F) : list cseg :=
  match ts with
  | [] => []
  | t2 :: r => mkCseg (cv (fst (splitSectionS (mkCseg c zero zero) t1 t2))) t1 t2 :: splitBetween c t2 r
  end.
(** bezier/bezier.go:789-810: extrema of both dimensions, with 0 and 1, without duplicates, sorted *)
Definition reduceParams (c : crv) : list F :=
  sortF (Float64ArrayDeDup (extremaX c ++ extremaY c ++ [zero; one])).
Definition pass1 (c : crv) : list cseg :=
  match reduceParams c with [] => [] | t :: r => splitBetween c t r end.

(** bezier/bezier.go:818-836: one run of the inner loop of the second pass; 0.01 is 1/100 *)
Definition rstep : F := one / ofZ 100.
Inductive inner : Type := IDone | IAbort | IBreak (s : cseg) (t2 : F) | IFuel.
Fixpoint innerLoop (fuel : nat) (p1 : cseg) (t1 t2 : F) : inner :=
  match fuel with
  | 0 => IFuel
  | S f =>
      if leb t2 (one + rstep) then
        if simple (cv (fst (splitSectionS p1 t1 t2))) then innerLoop f p1 t1 (t2 + rstep)
        else
          let t2' := t2 - rstep in
          if ltb (nabs (t1 - t2')) rstep then IAbort
          else IBreak (mkCseg (cv (fst (splitSectionS p1 t1 t2')))
                              (mapRange t1 zero one (st1 p1) (st2 p1)) (mapRange t2' zero one (st1 p1) (st2 p1))) t2'
      else IDone
  end.
(** bezier/bezier.go:815-837: the outer loop for one segment; None = the reduction is given up.
    After a break the loop goes on while t2 <= 1. *)
Fixpoint outerLoop (fuel : nat) (p1 : cseg) (t1 : F) : res (option (list cseg * F)) :=
  match fuel with
  | 0 => OutOfFuel
  | S f =>
      match innerLoop f p1 t1 (t1 + rstep) with
      | IFuel => OutOfFuel
      | IAbort => Ok None
      | IDone => Ok (Some ([], t1))
      | IBreak s t2 =>
          if leb t2 one then
            bind (outerLoop f p1 t2) (fun o =>
            match o with
            | None => Ok None
            | Some (l, t) => Ok (Some (s :: l, t))
            end)
          else Ok (Some ([s], t2))
      end
  end.
(** bezier/bezier.go:815-843: second pass for one segment *)
Definition pass2 (fuel : nat) (p1 : cseg) : res (option (list cseg)) :=
  bind (outerLoop fuel p1 zero) (fun o =>
  match o with
  | None => Ok None
  | Some (l, t1) =>
      if ltb t1 one then
        Ok (Some (l ++ [mkCseg (cv (fst (splitSectionS p1 t1 one))) (mapRange t1 zero one (st1 p1) (st2 p1)) (st2 p1)]))
      else Ok (Some l)
  end).
(** bezier/bezier.go:789-846 [reduce]: giving up returns the empty list *)
Fixpoint reduceLoop (fuel : nat) (l acc : list cseg) : res (list cseg) :=
  match l with
  | [] => Ok acc
  | p :: r => bind (pass2 fuel p) (fun o =>
              match o with
              | None => Ok []
              | Some s => reduceLoop fuel r (acc ++ s)
              end)
  end.
Definition reduce (fuel : nat) (c : crv) : res (list cseg) := reduceLoop fuel (pass1 c) [].

(** bezier/bezier.go:959-1015 [_scale] without a distance function; None = error.
    lli4 leaves the zero point when it does not succeed. *)
Definition orZero (o : option P) : P := match o with Some p => p | None => zeroPt end.
Definition Scale (c : crv) (d : F) : option crv :=
  let v0 := OffsetPoint c zero (ofZ 10) in let v1 := OffsetPoint c one (ofZ 10) in
  match lli4 v0 (FindPoint c zero) v1 (FindPoint c one) with
  | None => None
  | Some o =>
      let n0 := normal c zero in let n1 := normal c one in
      let q0 := mkPt (px (c_s c) + d * px n0) (py (c_s c) + d * py n0) in
      let q3 := mkPt (px (c_e c) + d * px n1) (py (c_e c) + d * py n1) in
      let d0 := Derivative c zero in let d1 := Derivative c one in
      let q1 := orZero (lli4 q0 (mkPt (px q0 + px d0) (py q0 + py d0)) o (c_cs c)) in
      let q2 := orZero (lli4 q3 (mkPt (px q3 + px d1) (py q3 + py d1)) o (c_ce c)) in
      Some (mkCrv q0 q1 q3 q2)
  end.

(** bezier/bezier.go:911-937 [Offset]: an error of Scale is printed and ends the list *)
Fixpoint scaleAll (l : list cseg) (d : F) : list crv :=
  match l with
  | [] => []
  | s :: r => match Scale (cv s) d with None => [] | Some c => c :: scaleAll r d end
  end.
Definition bOffset (fuel : nat) (c : crv) (d : F) : res (list crv) :=
  bind (reduce fuel (normalize c)) (fun l => Ok (scaleAll l d)).

(** bezier/bezier.go:350-375 [ValuePair], [ValuePairDedup]: the key is the text with five decimals *)
Definition pairKey (p : F * F) : string := (fmt 5 (fst p) ++ "/" ++ fmt 5 (snd p))%string.
Fixpoint pairDedup_loop (keys : list string) (l : list (F * F)) : list (F * F) :=
  match l with
  | [] => []
  | p :: r => if existsb (String.eqb (pairKey p)) keys then pairDedup_loop keys r
              else p :: pairDedup_loop (pairKey p :: keys) r
  end.
Definition pairDedup (l : list (F * F)) : list (F * F) := pairDedup_loop [] l.

(** bezier/bezier.go:377-419 [pairIteration]; the Go recursion has no bound *)
Definition boxSize (c : crv) : F :=
  let '(tl, br) := BoundingBox c in (px br - px tl) + (py br - py tl).
Fixpoint pairIteration (fuel : nat) (th : F) (c1 c2 : cseg) : res (list (F * F)) :=
  match fuel with
  | 0 => OutOfFuel
  | S f =>
      let r := ofZ 100000 in
      if ltb (boxSize (cv c1)) th && ltb (boxSize (cv c2)) th then
        Ok [(nround bm (r * (st1 c1 + st2 c1) / two) / r, nround bm (r * (st1 c2 + st2 c2) / two) / r)]
      else
        let '(l1, r1) := splitAtS c1 half in
        let '(l2, r2) := splitAtS c2 half in
        let pairs := filter (fun p => CurveOverlaps (cv (fst p)) (cv (snd p)))
                            [(l1, l2); (l1, r2); (r1, r2); (r1, l2)] in
        bind ((fix loop (ps : list (cseg * cseg)) : res (list (F * F)) :=
                 match ps with
                 | [] => Ok []
                 | p :: q => bind (pairIteration f th (fst p) (snd p)) (fun a =>
                             bind (loop q) (fun b => Ok (a ++ b)))
                 end) pairs) (fun l => Ok (pairDedup l))
  end.

(** bezier/bezier.go:617-638 [_curveIntersects], 612-616 [IntersectsCurve] *)
Fixpoint pairAll (fuel : nat) (th : F) (ps : list (cseg * cseg)) : res (list (F * F)) :=
  match ps with
  | [] => Ok []
  | p :: q => bind (pairIteration fuel th (fst p) (snd p)) (fun a =>
              bind (pairAll fuel th q) (fun b => Ok (a ++ b)))
  end.
Definition curveIntersects (fuel : nat) (c1 c2 : list cseg) (th : F) : res (list (F * F)) :=
  pairAll fuel th (filter (fun p => CurveOverlaps (cv (fst p)) (cv (snd p))) (list_prod c1 c2)).
Definition IntersectsCurve (fuel : nat) (c1 c2 : crv) (th : F) : res (list (F * F)) :=
  bind (reduce fuel c1) (fun l1 => bind (reduce fuel c2) (fun l2 => curveIntersects fuel l1 l2 th)).

(** path/segment_operators.go:509-513 [tP], 514-518 [bpP], 525-532 [bcC]; bPP and bCC (519-524, 534-541) copy *)
Definition bpP (p : P) : P := NewPoint (px p) (py p).
Definition tP (c : crv) (t : F) : ipt := (bpP (FindPoint c t), t).
Definition bcC (c : crv) : crv := mkCrv (bpP (c_s c)) (bpP (c_cs c)) (bpP (c_e c)) (bpP (c_ce c)).

(** path/segment_operators.go:543-550 [getTfromPoint] *)
Definition getTfromPoint (fuel : nat) (c : crv) (p : ipt) : res F :=
  if gtb (snd p) zero then Ok (snd p)
  else bind (Project fuel c (fst p)) (fun '(_, _, t) => Ok t).

(** path/segment_operators.go:552-556 [BoundingBox] *)
Definition opBox (c : crv) : res (P * P) :=
  let '(tl, br) := BoundingBox c in Ok (bpP tl, bpP br).

(** path/segment_operators.go:591-604 [Split] *)
Definition opSplit (fuel : nat) (c : crv) (p : ipt) : res (list crv) :=
  bind (getTfromPoint fuel c p) (fun t =>
  if PrecisionEquals t zero 7 || PrecisionEquals t one 7 then Ok [c]
  else let '(a, b) := SplitCurve c t in Ok [bcC a; bcC b]).

(** path/segment_operators.go:58-68, 552-614: the default CurveOperators, with threshold 0.5 *)
Definition BezierOps (fuel : nat) : CurveOps N := mkCurveOps
  opBox
  (fun c s e => Ok (map (tP c) (IntersectsLine c s e)))
  (fun c s e => Ok (map (tP c) (IntersectsProjectedLine c s e)))
  (fun c1 c2 => bind (IntersectsCurve fuel c1 c2 half) (fun l => Ok (map (fun p => tP c1 (fst p)) l)))
  (opSplit fuel)
  (fun c d => bind (bOffset fuel c d) (fun l => Ok (map bcC l))).

End Bezier.
Arguments BMath : clear implicits.
Arguments cseg : clear implicits.
