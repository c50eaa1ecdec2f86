(** Model of the numeric functions of expressions (dom/expression_eval.go), on converted arguments. *)
From Coq Require Import String List ZArith Bool.
From Coq.Floats Require Import SpecFloat.
From Verif Require Import Num FloatNum PathModel TransformsModel GeomTransforms UnitsModel DynModel ParamModel.
Import ListNotations.
Local Open Scope string_scope.

(** dom/expression_eval.go:117-166: math.Sqrt, path.Distance, LineSegment.Angle, MMToInch and InchToMM on numbers read from the arguments; any other use of
    [numeric] does not occur *)
Definition goNumeric (tr : Trig FNum) (f : string) (l : list spec_float) : val :=
  match l with
  | [x] => if String.eqb f "sqrt" then VFloat (@nsqrt FNum x)
           else if String.eqb f "mmToInch" then VFloat (@MMToInch FNum x)
           else if String.eqb f "inchToMM" then VFloat (@InchToMM FNum x) else VNil
  | [x1; y1; x2; y2] =>
      let p := @NewPoint FNum x1 y1 in
      let q := @NewPoint FNum x2 y2 in
      if String.eqb f "distance" then VFloat (Distance p q)
      else if String.eqb f "angle" then VFloat (LineAngle tr p q) else VNil
  | _ => VNil
  end.
