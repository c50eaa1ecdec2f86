(** The tests of the repository, run on the model with binary64 numbers: the inputs and the expected results are those of the
    *_test.go files of path/ and bezier/.  They say nothing new about the code; they say that the model computes what the code is
    expected to compute, to the third decimal and, where the tests compare numbers, to the last bit.  The functions of
    package math are those of TestMath.v.  Nothing is kept of these goals (Abort) but that they could be proved when the file was compiled: checking
    them again without the virtual machine takes too long. *)
From Coq Require Import String List ZArith Bool Arith.
From Verif Require Import Num FloatNum PathModel DrawModel SegOps TransformsModel SvgParse Bezier GeomTransforms OffsetModel Components TestMath.
Import ListNotations.
Local Open Scope string_scope.

(** the curve of most tests of bezier_test.go *)
Definition c0 : crv FNum := mkCrv (N := FNum) (pt 90 110) (pt 25 40) (pt 150 240) (pt 230 40).

(** path/path_parser_test.go:5-19 [TestPathParser] *)
Goal shows 3 (bind (ParsePathFromSvg "m 6.1222251,228.86139 c 3.2732061,-2.13129 5.8707069,-4.49412 10.6737049,-3.83158 C 4.802998,0.66254 7.471412,20.84919 7.896028,31.75029") (fun p => Ok p)) = 
  Some "M 6.122 228.861 C 9.395 226.730 11.993 224.367 16.796 225.030 C 4.803 0.663 7.471 20.849 7.896 31.750".
Proof. vm_compute. reflexivity. Abort.

(** path/path_parser_test.go:21-35 [TestPathParserWhitespace] *)
Goal shows 3 (bind (ParsePathFromSvg "  m 6,228 L 10  20") (fun p => Ok p)) = 
  Some "M 6.000 228.000 L 10.000 20.000".
Proof. vm_compute. reflexivity. Abort.

(** path/path_parser_test.go:37-51 [TestPathParserDecimals] *)
Goal shows 3 (bind (ParsePathFromSvg "L3.5,0") (fun p => Ok p)) = 
  Some "L 3.500 0.000".
Proof. vm_compute. reflexivity. Abort.

(** bezier/bezier_test.go:8-22 [TestDeCasteljau] *)
Goal match DeCasteljau c0 (flt 7 (-1)) with Ok p => ptText p | _ => "" end = "160.035,110.490".
Proof. vm_compute. reflexivity. Abort.

(** bezier/bezier_test.go:31-52 [TestSplitCurve] *)
Goal
  let '(l, r) := SplitCurve (mkCrv (pt 120 160) (pt 35 200) (pt 220 40) (pt 220 260)) (flt 75 (-2)) in
  (map ptText (curveArray l), map ptText (curveArray r)) =
  (["120.000,160.000"; "56.250,190.000"; "144.375,231.250"; "192.422,157.188"],
   ["192.422,157.188"; "208.438,132.500"; "220.000,95.000"; "220.000,40.000"]).
Proof. vm_compute. reflexivity. Abort.

(** bezier/bezier_test.go:54-73 [TestDerive]; the third derivative is not modelled, nothing uses it *)
Goal
  let '(a, b, c) := derive1 c0 in let '(d, e) := derive2 c0 in
  map ptText [a; b; c; d; e] = ["-195.000,-210.000"; "615.000,0.000"; "-240.000,600.000"; "1620.000,420.000"; "-1710.000,1200.000"].
Proof. vm_compute. reflexivity. Abort.

(** bezier/bezier_test.go:75-96 [TestDerivative] *)
Goal (isF (px (Derivative c0 (flt 5 (-1)))) (flt 19875 (-2)), isF (py (Derivative c0 (flt 5 (-1)))) (flt 975 (-1))) = (true, true).
Proof. vm_compute. reflexivity. Abort.

(** bezier/bezier_test.go:98-111 [TestFindPoint] *)
Goal ptText (FindPoint c0 (flt 43 (-2))) = "111.793,68.865".
Proof. vm_compute. reflexivity. Abort.

(** bezier/bezier_test.go:114-127 [TestExtrema], to the last bit *)
Goal
  (map (fun '(x, y) => isF x y) (combine (extremaX c0) [flt 14072358446134256 (-17); flt 8322493885116303 (-16); flt 4864864864864865 (-16)]),
   map (fun '(x, y) => isF x y) (combine (extremaY c0) [flt 3717045820153255 (-16)]), List.length (extremaX c0), List.length (extremaY c0)) =
  ([true; true; true], [true], 3, 1)%nat.
Proof. vm_compute. reflexivity. Abort.

(** bezier/bezier_test.go:144-158 [TestSplitCurveSection] *)
Goal
  map ptText (curveArray (SplitCurveSection c0 (flt 2 (-1)) (flt 3 (-1)))) =
  ["78.960,77.440"; "81.040,73.760"; "84.710,71.040"; "89.415,69.410"].
Proof. vm_compute. reflexivity. Abort.

(** bezier/bezier_test.go:160-175 [TestBoundingBox]; the numbers of [TestMinMax] (129-143) that show *)
Goal let '(a, b) := BoundingBox c0 in (ptText a, ptText b) = ("77.053,67.633", "168.820,240.000").
Proof. vm_compute. reflexivity. Abort.

(** bezier/bezier_test.go:178-198 [TestScale], to the last bit *)
Goal match Scale c0 (flt 3 (-1)) with Some c => isF (px (c_cs c)) (flt 250407381826544295 (-16)) | None => false end = true.
Proof. vm_compute. reflexivity. Abort.

(** bezier/bezier_test.go:200-219 [TestReduce], to the last bit *)
Goal
  match reduce testTrig testMath 1000 c0 with
  | Ok l => match nth_error l 3 with Some s => isF (px (c_ce (cv s))) (flt 11532051549113373 (-14)) | None => false end
  | _ => false end = true.
Proof. vm_compute. reflexivity. Abort.

(** bezier/bezier_test.go:220-234 [TestOffsetPoint] *)
Goal
  let p := OffsetPoint c0 (flt 1 (-1)) (flt 3 (-1)) in (fmt 9 (px p), fmt 9 (py p)) = ("78.332144822", "91.143121631").
Proof. vm_compute. reflexivity. Abort.

(** bezier/bezier_test.go:236-255 [TestOffset2] *)
Goal
  match bOffset testTrig testMath 1000 (mkCrv (p3 3545 2415) (p3 3545 2415) (p3 3124 3121) (p3 3314 2898)) (flt 2 (-2)) with
  | Ok l => match nth_error l 1 with Some c => ptText (c_cs c) | None => "" end | _ => "" end = "3.513,2.435".
Proof. vm_compute. reflexivity. Abort.

(** bezier/bezier_test.go:259-285 [TestOffset], to the last bit *)
Goal
  match bOffset testTrig testMath 1000 c0 (flt 3 (-1)) with
  | Ok l => match nth_error l 6 with Some c => isF (px (c_e c)) (flt 1497214569927344314 (-16)) | None => false end | _ => false end = true.
Proof. vm_compute. reflexivity. Abort.

(** path/util_test.go:7-27 [TestKnifeCut2] *)
Goal
  shows 3 (KnifeCut testOps 3 1000 (Line (p3 6522 18953) (p3 6521 9954)) (Line (p3 0 9577) (p3 10079 9577))) = Some "L 6.521 9.954".
Proof. vm_compute. reflexivity. Abort.

(** path/util_test.go:29-49 [TestKnifeCut] *)
Goal
  shows 3 (KnifeCut testOps 3 1000 (Curve (pt 100 240) (pt 30 60) (pt 160 30) (pt 210 230)) (Line (pt 50 119) (pt 200 119))) =
  Some "C 46.434 102.260 139.261 169.468 163.395 119.000 C 170.800 103.516 171.739 76.955 160.000 30.000".
Proof. vm_compute. reflexivity. Abort.

(** path/util_test.go:51-67 [TestHorizontalIntercepts] *)
Goal
  match HorizontalIntercepts testOps 3 (NewPathFromSegments [Curve (pt 100 240) (pt 30 60) (pt 160 30) (pt 210 230)]) (flt 119 0) with
  | Ok (p :: _) => ptText p | _ => "" end = "163.395,119.000".
Proof. vm_compute. reflexivity. Abort.

(** path/util_test.go:73-89 [TestLineDiagonalIntersection] *)
Goal
  match LineIntersection (pe 53825033905808803 1692845249434733 (-16)) (pe 16237329074372457 15373650982461482 (-16))
          (pe 12817127641115771 5976724774602398 (-16)) (pe 50404832472552110 (-7704080958424351) (-16)) 3 with
  | Some _ => true | None => false end = false.
Proof. vm_compute. reflexivity. Abort.

(** path/util_test.go:90-118 [TestTrimMove] *)
Goal
  (List.length (TrimMove (MoveTo (LineTo (LineTo (MoveTo NewDraw (pt 0 0)) (pt 10 10)) (pt 15 15)) (pt 0 0))),
   List.length (TrimMove (MoveTo NewDraw (pt 0 0))), List.length (TrimMove (MoveTo (MoveTo NewDraw (pt 0 0)) (pt 0 10)))) = (2, 0, 0)%nat.
Proof. vm_compute. reflexivity. Abort.

(** path/util_test.go:119-141 [TestParallel] *)
Goal
  let '(a, b) := Parallel (pt 10 10) (pt 10 100) (flt 10 0) in let '(c, d) := Parallel (pt 10 100) (pt 10 10) (flt 10 0) in
  map (fun '(p, x) => isF (px p) x) [(a, flt 20 0); (b, flt 20 0); (c, flt 0 0); (d, flt 0 0)] = [true; true; true; true].
Proof. vm_compute. reflexivity. Abort.

(** path/util_test.go:142-160 [TestLineIntersection] *)
Goal
  match LineIntersection (pt 10 10) (pt 150 30) (pt 10 20) (pt 100 25) 3 with Some p => ptText p | None => "" end = "124.545,26.364".
Proof. vm_compute. reflexivity. Abort.

(** path/segment_operators_test.go:7-24 [TestOffsetLine] *)
Goal shows 3 (Offset testOps 3 (Line (pt 10 10) (pt 15 30)) (flt 5 0)) = Some "L 10.149 31.213".
Proof. vm_compute. reflexivity. Abort.

(** path/segment_operators_test.go:49-69 [TestOffsetCurve] *)
Goal
  shows 3 (bind (Offset testOps 3 (Curve (p3 101700 202000) (pt 101 202) (pt 300 200) (pt 200 300)) (flt 20 0)) (fun l => Ok (NewPathFromSegments l))) =
  Some "M 101.700 182.000 C 92.423 182.000 87.620 186.571 84.530 191.739 C 82.948 194.387 81.696 197.711 81.696 202.004 C 81.696 202.337 87.844 221.539 119.977 240.669 C 140.564 252.926 169.576 264.969 202.797 264.969 C 236.732 264.969 275.443 252.841 314.142 214.142".
Proof. vm_compute. reflexivity. Abort.

(** path/draw_test.go:5-15 [TestDrawCornerCurve] *)
Goal
  SvgString (RoundedCornerTo testTrig (MoveTo NewDraw (pt 0 0)) (pt 5 5) (pt 0 5) (flt 2 0)) 3 =
  "M 0.000 0.000 L 0.000 3.000 C 0.000 4.105 0.895 5.000 2.000 5.000 L 5.000 5.000".
Proof. vm_compute. reflexivity. Abort.

(** path/attributes_test.go:8-21 [TestBoxMeasurements] *)
Goal
  match bind (ParsePathFromSvg "M 2 2 l 1 1 M 4 4") (PointPathAttribute testOps ABottomRight NoSub) with Ok p => ptText p | _ => "" end = "3.000,3.000".
Proof. vm_compute. reflexivity. Abort.

(** path/path_test.go:7-54 [TestDistance], [TestLineAngle] *)
Goal
  (fmt 3 (LineLength (pt 0 0) (pt 5 5)), fmt 3 (LineAngle testTrig (pt 0 0) (pt 3 2)), fmt 3 (LineAngle testTrig (pt 3 2) (pt 0 0))) =
  ("7.071", "33.690", "-146.310").
Proof. vm_compute. reflexivity. Abort.

