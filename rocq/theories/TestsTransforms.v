(** The tests of the repository, run on the model with binary64 numbers: the inputs and the expected results are those of the
    *_test.go files of transforms/.  They say nothing new about the code; they say that the model computes what the code is
    expected to compute, to the third decimal and, where the tests compare numbers, to the last bit.  The functions of
    package math are those of TestMath.v.  Nothing is kept of these goals (Abort) but that they could be proved when the file was compiled: checking
    them again without the virtual machine takes too long. *)
From Coq Require Import String List ZArith Bool Arith.
From Verif Require Import Num FloatNum PathModel DrawModel SegOps TransformsModel SvgParse Bezier GeomTransforms OffsetModel Components TestMath.
Import ListNotations.
Local Open Scope string_scope.

(** transforms/join_test.go:9-32 [TestJoinLineWithCurve2] *)
Goal shows 3 (bind (ParsePathFromSvg "M 0.000 0.011 C 0.004 0.011 0.626 -0.092 0.905 0.333 C 1.179 0.751 1.084 0.900 1.252 1.126 C 1.437 1.375 1.789 1.230 1.522 0.706 C 1.256 0.183 1.822 0.074 1.822 0.074 C 1.822 0.074 1.766 0.895 2.303 0.839 C 2.562 0.812 3.364 0.812 3.559 1.021 C 3.559 1.021 3.025 1.002 3.101 1.741 C 3.131 2.031 3.505 2.412 3.902 2.240 C 4.393 2.028 4.707 1.990 5.027 2.245 M 4.500 2.011 L 4.500 3.011 M 4.500 2.761 L 4.000 2.761 L 3.850 2.761 L 3.850 3.011 L 3.450 3.011 L 3.450 2.761 L 3.300 2.761 L 3.150 2.761 L 3.150 3.011 L 2.750 3.011 L 2.750 2.761 L 2.600 2.761 L 2.450 2.761 L 2.450 3.011 L 2.050 3.011 L 2.050 2.761 L 1.900 2.761 L 1.750 2.761 L 1.750 3.011 L 1.350 3.011 L 1.350 2.761 L 1.200 2.761 L 1.050 2.761 L 1.050 3.011 L 0.650 3.011 L 0.650 2.761 L 0.500 2.761 L 0.000 2.761 M 0.250 3.011 L 0.250 2.561 L 0.250 2.411 L 0.000 2.411 L 0.000 2.011 L 0.250 2.011 L 0.250 1.861 L 0.250 1.711 L 0.000 1.711 L 0.000 1.311 L 0.250 1.311 L 0.250 1.161 L 0.250 1.011 L 0.000 1.011 L 0.000 0.611 L 0.250 0.611 L 0.250 0.461 L 0.250 0.011 M 0.750 2.261 C 0.750 2.261 0.750 2.261 0.750 2.261 C 0.750 2.261 0.750 2.261 0.750 2.261 C 0.750 2.261 0.750 2.261 0.750 2.261 C 0.750 2.261 0.750 2.261 0.750 2.261 M 3.750 2.261 C 3.750 2.261 3.750 2.261 3.750 2.261 C 3.750 2.261 3.750 2.261 3.750 2.261 C 3.750 2.261 3.750 2.261 3.750 2.261 C 3.750 2.261 3.750 2.261 3.750 2.261") (JoinT testOps 3 1000 true true 3)) = 
  Some "M 4.500 2.069 C 4.327 2.078 4.135 2.140 3.902 2.240 C 3.505 2.412 3.131 2.031 3.101 1.741 C 3.025 1.002 3.559 1.021 3.559 1.021 C 3.364 0.812 2.562 0.812 2.303 0.839 C 1.766 0.895 1.822 0.074 1.822 0.074 C 1.822 0.074 1.256 0.183 1.522 0.706 C 1.789 1.230 1.437 1.375 1.252 1.126 C 1.084 0.900 1.179 0.751 0.905 0.333 C 0.740 0.082 0.456 0.015 0.250 0.003 L 0.250 0.461 L 0.250 0.611 L 0.000 0.611 L 0.000 1.011 L 0.250 1.011 L 0.250 1.161 L 0.250 1.311 L 0.000 1.311 L 0.000 1.711 L 0.250 1.711 L 0.250 1.861 L 0.250 2.011 L 0.000 2.011 L 0.000 2.411 L 0.250 2.411 L 0.250 2.561 L 0.250 2.761 L 0.500 2.761 L 0.650 2.761 L 0.650 3.011 L 1.050 3.011 L 1.050 2.761 L 1.200 2.761 L 1.350 2.761 L 1.350 3.011 L 1.750 3.011 L 1.750 2.761 L 1.900 2.761 L 2.050 2.761 L 2.050 3.011 L 2.450 3.011 L 2.450 2.761 L 2.600 2.761 L 2.750 2.761 L 2.750 3.011 L 3.150 3.011 L 3.150 2.761 L 3.300 2.761 L 3.450 2.761 L 3.450 3.011 L 3.850 3.011 L 3.850 2.761 L 4.000 2.761 L 4.500 2.761 L 4.500 2.069".
Proof. vm_compute. reflexivity. Abort.

(** transforms/join_test.go:34-57 [TestJoinLineWithCurve] *)
Goal shows 3 (bind (ParsePathFromSvg "M 0.000 0.066 C 2.673 0.994 2.854 0.953 3.055 1.084 M 2.800 1.066 L 2.800 1.366") (JoinT testOps 3 1000 true false 3)) = 
  Some "M 0.000 0.066 C 1.846 0.707 2.504 0.886 2.800 0.978 L 2.800 1.366".
Proof. vm_compute. reflexivity. Abort.

(** transforms/join_test.go:59-84 [TestSquare2] *)
Goal shows 3 (bind (ParsePathFromSvg "M 0.000 0.000 L 5.000 0.000 
    M 5.000 0.000 L 5.000 5.000 
    M 0.000 5.000 L 5.000 5.000 
    M 0.000 0.000 L 0.000 5.000") (JoinT testOps 3 1000 true false 3)) = 
  Some "M 0.000 0.000 L 5.000 0.000 L 5.000 5.000 L 0.000 5.000 L 0.000 0.000".
Proof. vm_compute. reflexivity. Abort.

(** transforms/join_test.go:86-108 [TestJoinCrossed] *)
Goal shows 3 (bind (ParsePathFromSvg "M 5 3 L 2 3 M 3 1 L 3 4") (JoinT testOps 3 1000 true false 3)) = 
  Some "M 5.000 3.000 L 3.000 3.000 L 3.000 1.000".
Proof. vm_compute. reflexivity. Abort.

(** transforms/join_test.go:110-133 [TestJoinAfterOffset] *)
Goal shows 3 (bind (ParsePathFromSvg "M 0.000 -0.050 L 0.250 -0.050 M 0.300 0.000 L 0.300 0.500 M 0.250 0.450 L 1.000 0.450 M 0.950 0.500 L 0.950 0.000 M 1.000 -0.050 L 1.250 -0.050 M 1.250 -0.050 L 1.500 -0.050 M 1.550 0.000 L 1.550 0.500 M 1.500 0.450 L 2.250 0.450 M 2.200 0.500 L 2.200 0.000 M 2.250 -0.050 L 2.500 -0.050 M 2.500 -0.050 L 2.750 -0.050 M 2.800 0.000 L 2.800 0.500 M 2.750 0.450 L 3.500 0.450 M 3.450 0.500 L 3.450 0.000 M 3.500 -0.050 L 3.750 -0.050 M 3.750 -0.050 L 4.000 -0.050 M 4.050 0.000 L 4.050 0.500 M 4.000 0.450 L 4.750 0.450 M 4.700 0.500 L 4.700 0.000 M 4.750 -0.050 L 5.000 -0.050 M 5.050 0.000 L 5.050 5.000 M 5.000 5.050 L 0.000 5.050 M -0.050 5.000 L -0.050 0.000") (JoinT testOps 3 1000 true true 3)) = 
  Some "M 0.950 -0.050 L 0.950 0.450 L 0.300 0.450 L 0.300 -0.050 L -0.050 -0.050 L -0.050 5.050 L 5.050 5.050 L 5.050 -0.050 L 4.700 -0.050 L 4.700 0.450 L 4.050 0.450 L 4.050 -0.050 L 3.750 -0.050 L 3.450 -0.050 L 3.450 0.450 L 2.800 0.450 L 2.800 -0.050 L 2.500 -0.050 L 2.200 -0.050 L 2.200 0.450 L 1.550 0.450 L 1.550 -0.050 L 1.250 -0.050 L 0.950 -0.050".
Proof. vm_compute. reflexivity. Abort.

(** transforms/join_test.go:135-158 [TestJoinSquare2] *)
Goal shows 3 (bind (ParsePathFromSvg "M.5,0 L3.5, 0 
    M0,0, L0,4") (JoinT testOps 3 1000 true false 3)) = 
  Some "M 3.500 0.000 L 0.000 0.000 L 0.000 4.000".
Proof. vm_compute. reflexivity. Abort.

(** transforms/join_test.go:160-196 [TestJoinFingerJoint3] *)
Goal shows 3 (bind (ParsePathFromSvg "M 4.180 0.000  L 1.170 0.000 L 0.000 0.000 L 0.000 5.000 
    M 0.000 5.000 M 5.000 0.000 L 5.000 5.000") (JoinT testOps 3 1000 true false 3)) = 
  Some "M 0.000 5.000 L 0.000 0.000 L 1.170 0.000 L 5.000 0.000 L 5.000 5.000".
Proof. vm_compute. reflexivity. Abort.

(** transforms/join_test.go:198-224 [TestJoinFingerJoint2] *)
Goal shows 3 (bind (ParsePathFromSvg "M 0.820 0.000 L 1.170 0.000 L 1.170 -0.450 L 2.150 -0.450 L 2.150 0.000 L 2.500 0.000 
    L 2.850 0.000 L 2.850 -0.450 L 3.830 -0.450 L 3.830 0.000 L 4.180 0.000 
    M 0.000 0.000 L 0.000 5.000
    M 5.000 0.000 L 5.000 5.000") (JoinT testOps 3 1000 true false 3)) = 
  Some "M 0.000 5.000 L 0.000 0.000 L 1.170 0.000 L 1.170 -0.450 L 2.150 -0.450 L 2.150 0.000 L 2.500 0.000 L 2.850 0.000 L 2.850 -0.450 L 3.830 -0.450 L 3.830 0.000 L 5.000 0.000 L 5.000 5.000".
Proof. vm_compute. reflexivity. Abort.

(** transforms/join_test.go:226-247 [TestJoinFingerJoint] *)
Goal shows 3 (bind (ParsePathFromSvg "M 0.820 -0.450 M 0.820 0.000 L 1.170 0.000 L 4.180 0.000 M 4.180 -0.450 M 4.180 -0.450 M 0.000 0.000 L 0.000 5.000") (JoinT testOps 3 1000 true false 3)) = 
  Some "M 4.180 0.000 L 1.170 0.000 L 0.000 0.000 L 0.000 5.000".
Proof. vm_compute. reflexivity. Abort.

(** transforms/join_test.go:249-273 [TestJoinRightAngle] *)
Goal shows 3 (bind (ParsePathFromSvg "M5,5 L50,5 M75,30 L75, 80") (JoinT testOps 3 1000 true false 3)) = 
  Some "M 5.000 5.000 L 75.000 5.000 L 75.000 80.000".
Proof. vm_compute. reflexivity. Abort.

(** transforms/join_test.go:275-300 [TestJoinSquare] *)
Goal shows 3 (bind (ParsePathFromSvg "M10,0 L50,0 M60,10 L60,50 M50,60 L10,60 M0,50 L0,10") (JoinT testOps 3 1000 true true 3)) = 
  Some "M 0.000 0.000 L 60.000 0.000 L 60.000 60.000 L 0.000 60.000 L 0.000 0.000".
Proof. vm_compute. reflexivity. Abort.

(** transforms/offset_test.go:72-100 [TestOffsetTJoint] *)
Goal shows 3 (bind (ParsePathFromSvg "M 1.350 0.500 M 1.350 0.700 L 1.350 1.000 L 1.150 1.000 L 1.150 0.700 L 1.350 0.700 M 1.350 1.200 M 1.350 1.200 M 1.350 1.400 L 1.350 1.700 L 1.150 1.700 L 1.150 1.400 L 1.350 1.400 M 1.350 1.900 M 1.350 1.900 M 1.350 2.100 L 1.350 2.400 L 1.150 2.400 L 1.150 2.100 L 1.350 2.100 M 1.350 2.600") (OffsetT testOps 3 1000 true 10 Smaller 3 (flt 7 (-3)))) = 
  Some "M 1.343 0.707 L 1.343 0.993 L 1.157 0.993 L 1.157 0.707 L 1.343 0.707 M 1.343 1.407 L 1.343 1.693 L 1.157 1.693 L 1.157 1.407 L 1.343 1.407 M 1.343 2.107 L 1.343 2.393 L 1.157 2.393 L 1.157 2.107 L 1.343 2.107".
Proof. vm_compute. reflexivity. Abort.

(** transforms/offset_test.go:102-134 [TestOffsetFingerJoint] *)
Goal shows 3 (bind (ParsePathFromSvg "M 0.000 0.000 L 0.250 0.000 L 0.250 0.500 L 1.000 0.500 L 1.000 0.000 L 1.250 0.000 
    M 1.250 0.000 L 1.500 0.000 L 1.500 0.500 L 2.250 0.500 L 2.250 0.000 L 2.500 0.000 
    M 2.500 0.000 L 2.750 0.000 L 2.750 0.500 L 3.500 0.500 L 3.500 0.000 L 3.750 0.000 
    M 3.750 0.000 L 4.000 0.000 L 4.000 0.500 L 4.750 0.500 L 4.750 0.000 L 5.000 0.000 
    
    M 5.000 0.000 
    M 5.000 0.000 L 5.000 5.000 
    M 5.000 5.000 L 0.000 5.000 
    M 0.000 5.000 L 0.000 0.000") (OffsetT testOps 3 1000 true 10 Larger 3 (flt 7 (-3)))) = 
  Some "M 1.250 -0.007 L 0.993 -0.007 L 0.993 0.493 L 0.257 0.493 L 0.257 -0.007 L 0.000 -0.007 M 2.500 -0.007 L 2.243 -0.007 L 2.243 0.493 L 1.507 0.493 L 1.507 -0.007 L 1.250 -0.007 M 3.750 -0.007 L 3.493 -0.007 L 3.493 0.493 L 2.757 0.493 L 2.757 -0.007 L 2.500 -0.007 M 5.000 -0.007 L 4.743 -0.007 L 4.743 0.493 L 4.007 0.493 L 4.007 -0.007 L 3.750 -0.007 M 5.007 5.000 L 5.007 0.000 M 0.000 5.007 L 5.000 5.007 M -0.007 0.000 L -0.007 5.000".
Proof. vm_compute. reflexivity. Abort.

(** transforms/offset_test.go:136-160 [TestLineOffset] *)
Goal shows 3 (bind (ParsePathFromSvg "M50,50 L150,50") (OffsetT testOps 3 1000 true 10 Unknown 0 (flt 50 0))) = 
  Some "M 50.000 100.000 L 150.000 100.000".
Proof. vm_compute. reflexivity. Abort.

(** transforms/offset_test.go:162-186 [TestSquareOffsetSmaller] *)
Goal shows 3 (bind (ParsePathFromSvg "M0,0 L5,0 L5,5 L0,5 L0,0") (OffsetT testOps 3 1000 true 10 Larger 3 (flt 1 0))) = 
  Some "M -1.000 -1.000 L -1.000 6.000 L 6.000 6.000 L 6.000 -1.000 L -1.000 -1.000".
Proof. vm_compute. reflexivity. Abort.

(** transforms/offset_test.go:188-212 [TestSquareOffsetLarger] *)
Goal shows 3 (bind (ParsePathFromSvg "M0,0 L5,0 L5,5 L0,5 L0,0") (OffsetT testOps 3 1000 true 10 Larger 3 (flt 1 0))) = 
  Some "M -1.000 -1.000 L -1.000 6.000 L 6.000 6.000 L 6.000 -1.000 L -1.000 -1.000".
Proof. vm_compute. reflexivity. Abort.

(** transforms/offset_test.go:214-240 [TestSquareOffset] *)
Goal shows 3 (bind (ParsePathFromSvg "M50,50 L150,50 L150,150 L50,150 L50,50") (OffsetT testOps 3 1000 true 10 Larger 3 (flt 50 0))) = 
  Some "M 0.000 0.000 L 0.000 200.000 L 200.000 200.000 L 200.000 0.000 L 0.000 0.000".
Proof. vm_compute. reflexivity. Abort.

(** transforms/offset_test.go:242-266 [TestSimpleCurveOffset] *)
Goal shows 3 (bind (ParsePathFromSvg "M 1.875 0 L 1.875 0.200 C 1.875 0.366 1.741 0.500 1.575 0.500 L 1.500 0.500 L 1.425 0.500 C 1.259 0.500 1.125 0.366 1.125 0.200 L 1.125 0.000") (OffsetT testOps 3 1000 true 10 Smaller 3 (flt 1 (-2)))) = 
  Some "M 1.865 0.000 L 1.865 0.200 C 1.865 0.308 1.807 0.401 1.720 0.451 C 1.678 0.476 1.628 0.490 1.575 0.490 L 1.500 0.490 L 1.425 0.490 C 1.317 0.490 1.224 0.432 1.174 0.345 C 1.149 0.303 1.135 0.253 1.135 0.200 L 1.135 0.000".
Proof. vm_compute. reflexivity. Abort.

(** transforms/offset_test.go:268-292 [TestOffsetEmptyPath] *)
Goal shows 3 (bind (ParsePathFromSvg "M 1.350 0.500") (OffsetT testOps 3 1000 true 10 Smaller 3 (flt 7 (-3)))) = 
  Some "M 1.350 0.500".
Proof. vm_compute. reflexivity. Abort.

(** transforms/dedup_test.go:9-27 [TestDedup4] *)
Goal shows 3 (bind (ParsePathFromSvg "M 50.000 100.000 L 150.000 100.000 M 100.000 50.000 L 100.000 150.000 M 150.000 100.000 L 50.000 100.000 M 100.000 150.000 L 100.000 50.000") (Dedup 3)) = 
  Some "M 50.000 100.000 L 150.000 100.000 M 100.000 50.000 L 100.000 150.000 M 150.000 100.000 L 50.000 100.000 M 100.000 150.000 L 100.000 50.000".
Proof. vm_compute. reflexivity. Abort.

(** transforms/dedup_test.go:29-47 [TestDedup3] *)
Goal shows 3 (bind (ParsePathFromSvg "L 0.000 5.000 M 0.000 0.000 M 0.000 5.000 L 5.000 5.000") (Dedup 3)) = 
  Some "M 0.000 0.000 L 0.000 5.000 L 5.000 5.000".
Proof. vm_compute. reflexivity. Abort.

(** transforms/dedup_test.go:49-67 [TestDedupIdempotency] *)
Goal shows 3 (bind (ParsePathFromSvg "M 0.000 0.000 L 0.000 5.000 L 5.000 5.000") (Dedup 3)) = 
  Some "M 0.000 0.000 L 0.000 5.000 L 5.000 5.000".
Proof. vm_compute. reflexivity. Abort.

(** transforms/dedup_test.go:69-88 [TestDedupSquare] *)
Goal shows 3 (bind (ParsePathFromSvg "M 4.180 0.000  L 1.170 0.000 L 0.000 0.000 L 0.000 5.000 
    M 0.000 5.000 M 5.000 0.000 L 5.000 5.000") (Dedup 2)) = 
  Some "M 4.180 0.000 L 1.170 0.000 L 0.000 0.000 L 0.000 5.000 M 5.000 0.000 L 5.000 5.000".
Proof. vm_compute. reflexivity. Abort.

(** transforms/dedup_test.go:90-105 [TestDedupMoves] *)
Goal shows 3 (bind (ParsePathFromSvg "L 1 3 m 10,20 M 15 17 L 34 80") (Dedup 2)) = 
  Some "M 0.000 0.000 L 1.000 3.000 M 15.000 17.000 L 34.000 80.000".
Proof. vm_compute. reflexivity. Abort.

(** transforms/dedup_test.go:107-123 [TestDedupSegmentAndReverse] *)
Goal shows 0 (bind (ParsePathFromSvg " M 15 17 L 34 80 L 15 17") (Dedup 2)) = 
  Some "M 15 17".
Proof. vm_compute. reflexivity. Abort.

(** transforms/slice_test.go:9-34 [TestSliceTransform] *)
Goal shows 3 (bind (ParsePathFromSvg "M 0,0 C 46.434 102.260 139.261 169.468 163.395 119.000 C 170.800 103.516 171.739 76.955 160.000 30.000") (HSlice testOps 3 1000 (flt 70 0) 3)) = 
  Some "M 0.000 0.000 C 11.837 26.067 26.688 49.857 42.647 70.000 M 167.684 70.000 C 166.344 58.647 163.856 45.424 160.000 30.000".
Proof. vm_compute. reflexivity. Abort.

(** transforms/path_reorder_test.go:9-37 [TestReorder] *)
Goal shows 3 (bind (ParsePathFromSvg "M 0.000 0.000 L 5.000 0.000 
 M 5.000 0.000 L 5.000 5.000 
 M 0.000 5.000 L 5.000 5.000 
 M 0.000 0.000 L 0.000 5.000") (Reorder 3)) = 
  Some "M 0.000 0.000 L 5.000 0.000 L 5.000 5.000 L 0.000 5.000 L 0.000 0.000".
Proof. vm_compute. reflexivity. Abort.

(** transforms/path_reorder_test.go:39-60 [TestReorderComplex] *)
Goal shows 3 (bind (ParsePathFromSvg "M 0.000 -0.050 L 0.250 -0.050 M 0.300 0.000 L 0.300 0.500 M 0.250 0.450 L 1.000 0.450 M 0.950 0.500 L 0.950 0.000 M 1.000 -0.050 L 1.250 -0.050 M 1.250 -0.050 L 1.500 -0.050 M 1.550 0.000 L 1.550 0.500 M 1.500 0.450 L 2.250 0.450 M 2.200 0.500 L 2.200 0.000 M 2.250 -0.050 L 2.500 -0.050 M 2.500 -0.050 L 2.750 -0.050 M 2.800 0.000 L 2.800 0.500 M 2.750 0.450 L 3.500 0.450 M 3.450 0.500 L 3.450 0.000 M 3.500 -0.050 L 3.750 -0.050 M 3.750 -0.050 L 4.000 -0.050 M 4.050 0.000 L 4.050 0.500 M 4.000 0.450 L 4.750 0.450 M 4.700 0.500 L 4.700 0.000 M 4.750 -0.050 L 5.000 -0.050 M 5.050 0.000 L 5.050 5.000 M 5.000 5.050 L 0.000 5.050 M -0.050 5.000 L -0.050 0.000") (Reorder 3)) = 
  Some "M 0.000 -0.050 L 0.250 -0.050 M 0.300 0.000 L 0.300 0.500 M 0.250 0.450 L 1.000 0.450 M 0.950 0.500 L 0.950 0.000 M 1.000 -0.050 L 1.250 -0.050 L 1.500 -0.050 M 1.550 0.000 L 1.550 0.500 M 1.500 0.450 L 2.250 0.450 M 2.200 0.500 L 2.200 0.000 M 2.250 -0.050 L 2.500 -0.050 L 2.750 -0.050 M 2.800 0.000 L 2.800 0.500 M 2.750 0.450 L 3.500 0.450 M 3.450 0.500 L 3.450 0.000 M 3.500 -0.050 L 3.750 -0.050 L 4.000 -0.050 M 4.050 0.000 L 4.050 0.500 M 4.000 0.450 L 4.750 0.450 M 4.700 0.500 L 4.700 0.000 M 4.750 -0.050 L 5.000 -0.050 M 5.050 0.000 L 5.050 5.000 M 5.000 5.050 L 0.000 5.050 M -0.050 5.000 L -0.050 0.000".
Proof. vm_compute. reflexivity. Abort.

(** transforms/reverse_test.go:30-50 [TestPathReverse] *)
Goal shows 3 (bind (ParsePathFromSvg "M 101.7 202 C 101 202 200 300 300 200 L 312 222 L 321.9 201.98") (fun p => Dedup 3 (PathReverse p))) = 
  Some "M 321.900 201.980 L 312.000 222.000 L 300.000 200.000 C 200.000 300.000 101.000 202.000 101.700 202.000 M 0.000 0.000".
Proof. vm_compute. reflexivity. Abort.

(** transforms/rotate_test.go:9-33 [TestRotateTransform] *)
Goal shows 3 (bind (ParsePathFromSvg "M 50.000 50.000 l 20,0") (RotateT testOps testTrig (flt 130 0) ATopLeft)) = 
  Some "M 50.000 50.000 L 37.144 65.321".
Proof. vm_compute. reflexivity. Abort.

(** transforms/move_test.go:9-34 [TestMoveTransform] *)
Goal shows 3 (bind (ParsePathFromSvg "M 30.000 30.000 l 5,5 l 10,0") (MoveT testOps (NewPoint (N := FNum) (flt 10 0) (flt 10 0)) AMiddleMiddle)) = 
  Some "M 2.500 7.500 L 7.500 12.500 L 17.500 12.500".
Proof. vm_compute. reflexivity. Abort.

(** transforms/mirror_test.go:9-33 [TestMirrorTransform] *)
Goal shows 3 (bind (ParsePathFromSvg "M425.474,539.286L345.318,539.286C330.065,539.286 317.682,551.67 317.682,566.923L317.682,622.195C317.682,637.448 330.065,649.832 345.318,649.832C383.05,617.532 417.826,603.513 450.386,603.194C482.947,603.513 517.723,617.532 555.455,649.832C570.708,649.832 583.091,637.448 583.091,622.195L583.091,566.923C583.091,551.67 570.708,539.286 555.455,539.286L475.298,539.286") (MirrorT testOps true AMiddleMiddle)) = 
  Some "M 425.474 705.105 L 345.318 705.105 C 330.065 705.105 317.682 692.721 317.682 677.468 L 317.682 622.196 C 317.682 606.943 330.065 594.559 345.318 594.559 C 383.050 626.859 417.826 640.878 450.386 641.197 C 482.947 640.878 517.723 626.859 555.455 594.559 C 570.708 594.559 583.091 606.943 583.091 622.196 L 583.091 677.468 C 583.091 692.721 570.708 705.105 555.455 705.105 L 475.298 705.105".
Proof. vm_compute. reflexivity. Abort.

(** transforms/matrix_test.go:9-37 [TestMatrixTransform] *)
Goal shows 3 (bind (ParsePathFromSvg "M 0,0 C 46.434 102.260 139.261 169.468 163.395 119.000 C 170.800 103.516 171.739 76.955 160.000 30.000") (fun p => Ok (MatrixT (mkMatrix (N := FNum) (flt 3 0) (flt 1 0) (flt (-1) 0) (flt 3 0) (flt 30 0) (flt 40 0)) p))) = 
  Some "M 30.000 40.000 C 67.042 393.214 278.315 687.665 401.185 560.395 C 438.884 521.348 468.262 442.604 480.000 290.000".
Proof. vm_compute. reflexivity. Abort.

(** transforms/scale_test.go:9-33 [TestScaleTransform] *)
Goal shows 3 (bind (ParsePathFromSvg "M348.7,980.332L257.96,1029.19L329.328,881.936 C638.607,1066.56 477.01,980.332 477.01,980.332") (ScaleT testOps (mkScale (N := FNum) (flt 0 0) (flt 0 0) (NewPoint (N := FNum) (flt 0 0) (flt 0 0)) (NewPoint (N := FNum) (flt 5 (-1)) (flt 0 0)) (flt 0 0) (flt 0 0)))) = 
  Some "M 1.359 3.820 L 1.005 4.011 L 1.283 3.437 C 2.489 4.156 1.859 3.820 1.859 3.820".
Proof. vm_compute. reflexivity. Abort.

(** transforms/trim_whitespace_test.go:9-31 [TestTrimWhitespaceTransform] *)
Goal shows 3 (bind (ParsePathFromSvg "M 1.726 5.858 C 1.726 5.861 2.170 5.774 2.224 5.858 C 2.278 5.941 2.321 6.333 2.448 6.309 C 2.574 6.284 2.602 5.806 2.676 5.828 C 2.749 5.851 3.098 6.275 3.163 6.167 C 3.228 6.060 3.246 5.710 3.188 5.610 C 3.130 5.511 3.692 5.642 3.678 5.561 C 3.664 5.480 3.401 5.178 3.473 5.032 C 3.545 4.886 3.987 4.898 3.987 4.898 C 4.108 4.774 3.333 4.446 3.337 4.493 C 3.350 4.620 3.488 4.027 3.488 4.027 C 3.279 4.031 3.230 4.069 2.970 4.193 C 2.970 4.193 2.881 3.700 2.795 3.646 C 2.710 3.591 2.524 3.932 2.378 4.049 C 2.232 4.166 1.739 3.978 1.677 4.193 C 1.616 4.408 1.868 4.583 1.896 4.617 C 1.923 4.650 1.550 4.810 1.550 4.951 C 1.550 5.092 1.903 5.152 1.902 5.316 C 1.900 5.479 1.726 5.855 1.726 5.858 M 2.961 5.177 M 2.961 5.177 L 2.961 4.684 L 2.768 4.684 L 2.768 5.177 L 2.961 5.177") (TrimWhitespace testOps)) = 
  Some "M 0.176 2.218 C 0.176 2.221 0.620 2.134 0.674 2.218 C 0.728 2.301 0.771 2.693 0.898 2.669 C 1.024 2.644 1.052 2.166 1.126 2.188 C 1.199 2.211 1.548 2.635 1.613 2.527 C 1.678 2.420 1.696 2.070 1.638 1.970 C 1.580 1.871 2.142 2.002 2.128 1.921 C 2.114 1.840 1.851 1.538 1.923 1.392 C 1.995 1.246 2.437 1.258 2.437 1.258 C 2.558 1.134 1.783 0.806 1.787 0.853 C 1.800 0.980 1.938 0.387 1.938 0.387 C 1.729 0.391 1.680 0.429 1.420 0.553 C 1.420 0.553 1.331 0.060 1.245 0.006 C 1.160 -0.049 0.974 0.292 0.828 0.409 C 0.682 0.526 0.189 0.338 0.127 0.553 C 0.066 0.768 0.318 0.943 0.346 0.977 C 0.373 1.010 0.000 1.170 0.000 1.311 C 0.000 1.452 0.353 1.512 0.352 1.676 C 0.350 1.839 0.176 2.215 0.176 2.218 M 1.411 1.537 M 1.411 1.537 L 1.411 1.044 L 1.218 1.044 L 1.218 1.537 L 1.411 1.537".
Proof. vm_compute. reflexivity. Abort.

(** transforms/cleanup_test.go:9-32 [TestCleanupBadStart] *)
Goal
  match Cleanup 3 [Move (pt 9 3) (pt 0 0)] with g :: _ => ptText (sstart g) | [] => "" end = "0.000,0.000".
Proof. vm_compute. reflexivity. Abort.

(** transforms/reverse_test.go:9-28 [TestSegmentReverse] *)
Goal
  match bind (ParsePathFromSvg "M 100.000 200.000 C 100.000 200.000 200.000 300.000 300.000 200.000") (fun p => Ok (nth_error p 1)) with
  | Ok (Some g) => segSvg 3 (Reverse (N := FNum) g) | _ => "" end = "C 200.000 300.000 100.000 200.000 100.000 200.000".
Proof. vm_compute. reflexivity. Abort.
