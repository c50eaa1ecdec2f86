(** Sine, cosine, arc tangent and arc cosine as package math computes them in binary64 (without fused operations), and a third root that is close to its power:
    only for the tests of the model, see TestsTransforms.v, TestsPaths.v and TestsDesigns.v.  No theorem depends on them. *)
From Coq Require Import String List ZArith Bool.
From Coq.Floats Require Import SpecFloat.
From Verif Require Import Num FloatNum PathModel SegOps Bezier DynModel.
Import ListNotations.
Local Open Scope num_scope.

Notation f := (T FNum).
Definition fz (z : Z) : f := ofZ (n := FNum) z.
(** values of the constants, computed once *)
Definition sinC : list f := Eval vm_compute in [flt 158962301576546568060 (-30); flt (-250507477628578072866) (-28); flt 275573136213857245213 (-26); flt (-198412698295895385996) (-24); flt 833333333332211858878 (-23); flt (-166666666666666307295) (-21)].
Definition cosC : list f := Eval vm_compute in [flt (-113585365213876817300) (-31); flt 208757008419747316778 (-29); flt (-275573141792967388112) (-27); flt 248015872888517045348 (-25); flt (-138888888888730564116) (-23); flt 416666666666665929218 (-22)].
Definition atanP : list f := Eval vm_compute in [flt (-8750608600031904122785) (-22); flt (-1615753718733365076637) (-20); flt (-7500855792314704667340) (-20); flt (-1228866684490136173410) (-19); flt (-6485021904942025371773) (-20)].
Definition atanQ : list f := Eval vm_compute in [flt 2485846490142306297962 (-20); flt 1650270098316988542046 (-19); flt 4328810604912902668951 (-19); flt 4853903996359136964868 (-19); flt 1945506571482613964425 (-19)].
Definition fpi : f := Eval vm_compute in flt 3141592653589793 (-15).
Definition half : f := Eval vm_compute in flt 5 (-1).
(** a polynomial *)
Definition poly (z : f) (cs : list f) : f := match cs with [] => fz 0 | c :: r => fold_left (fun a d => a * z + d) r c end.
Definition sinPoly (z : f) : f := let zz := z * z in z + z * zz * poly zz sinC.
Definition cosPoly (z : f) : f := let zz := z * z in fz 1 - half * zz + zz * zz * poly zz cosC.
(** the octant of an angle that is not negative, and the angle in it *)
Definition octant (x : f) : Z * f :=
  let j0 := truncZ (x * flt 1273239544735162814821 (-21)) in let j := if Z.odd j0 then (j0 + 1)%Z else j0 in let y := fz j in
  (Z.modulo j 8, x - y * flt 785398125648498535156 (-21) - y * flt 377489470793079817668 (-28) - y * flt 269515142907905952645 (-35)).
Definition signed (neg : bool) (x : f) : f := if neg then opp x else x.
(** math/sin.go *)
Definition fsin (x : f) : f :=
  if eqb x (fz 0) then x else
  let '(j, z) := octant (nabs x) in let k := Z.modulo j 4 in
  signed (xorb (ltb x (fz 0)) (Z.ltb 3 j)) (if (Z.eqb k 1 || Z.eqb k 2)%bool then cosPoly z else sinPoly z).
Definition fcos (x : f) : f :=
  let '(j, z) := octant (nabs x) in let k := Z.modulo j 4 in
  signed (xorb (Z.ltb 3 j) (Z.ltb 1 k)) (if (Z.eqb k 1 || Z.eqb k 2)%bool then sinPoly z else cosPoly z).
(** math/atan.go, math/atan2.go, math/asin.go *)
Definition xatan (x : f) : f := let z := x * x in let w := z * poly z atanP / poly z (fz 1 :: atanQ) in x * w + x.
Definition moreBits : f := Eval vm_compute in flt 6123233995736765886130 (-38).
Definition satan (x : f) : f :=
  if leb (n := FNum) x (flt 66 (-2)) then xatan x
  else if ltb (n := FNum) (flt 241421356237309504880 (-20)) x then fpi / fz 2 - xatan (fz 1 / x) + moreBits
  else fpi / fz 4 + xatan ((x - fz 1) / (x + fz 1)) + half * moreBits.
Definition fatan (x : f) : f := if eqb x (fz 0) then x else if ltb (fz 0) x then satan x else opp (satan (opp x)).
Definition negative (x : f) : bool := ltb (fz 1 / x) (fz 0).
Definition fatan2 (y x : f) : f :=
  if eqb y (fz 0) then if (leb (fz 0) x && negb (negative x))%bool then y else signed (negative y) fpi
  else if eqb x (fz 0) then signed (ltb y (fz 0)) (fpi / fz 2)
  else let q := fatan (y / x) in if ltb x (fz 0) then if leb q (fz 0) then q + fpi else q - fpi else q.
Definition fasin (x : f) : f :=
  if eqb x (fz 0) then x else
  let a := nabs x in let t := nsqrt (fz 1 - a * a) in
  signed (ltb x (fz 0)) (if ltb (n := FNum) (flt 7 (-1)) a then fpi / fz 2 - satan (t / a) else satan (a / t)).
Definition facos (x : f) : f := fpi / fz 2 - fasin x.
(** the third root, for which alone powers are used *)
Fixpoint newton (k : nat) (v x : f) : f := match k with O => x | S k => newton k v ((fz 2 * x + v / (x * x)) / fz 3) end.
Definition fpow (v e : f) : f := if eqb v (fz 0) then v else newton 80 v (if ltb v (fz 1) then fz 1 else v).
Definition fround (x : f) : f := let r y := fz (truncZ (y + fz 1 / fz 2)) in if ltb x (fz 0) then opp (r (opp x)) else r x.
Definition testTrig : Trig FNum := mkTrig FNum fsin fcos fatan fatan2 fpi.
Definition testMath : BMath FNum := mkBMath (N := FNum) facos fpow fround.
Definition testOps : CurveOps FNum := BezierOps testTrig testMath 1000.

(** how the tests show their results *)
Definition shows (n : nat) (r : res (path FNum)) : option string := match r with Ok p => Some (SvgString p n) | _ => None end.
Definition pe (x y e : Z) : Pt FNum := NewPoint (N := FNum) (flt x e) (flt y e).
Definition pt (x y : Z) : Pt FNum := pe x y 0.
Definition p3 (x y : Z) : Pt FNum := pe x y (-3).
Definition ptText (p : Pt FNum) : string := (fmt 3 (px p) ++ "," ++ fmt 3 (py p))%string.
Definition isF (x y : T FNum) : bool := eqb x y.
