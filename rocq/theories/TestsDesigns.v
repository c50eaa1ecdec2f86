(** The designs that the repository renders as a test of itself, run through the model: main.go, command diff_test, compares what is rendered with designs_rendered/, and so
    does this file, text for text.  The parameters and expressions of a design are evaluated by hand; everything after that, up to the saved text, is the model's, in binary64
    (TestMath.v).  These are checks of the model's fidelity, not claims; the goals are proved when the file is compiled and
    not kept (Abort), because checking them again without the virtual machine takes too long. *)
From Coq Require Import String List ZArith Bool Arith.
From Coq.Floats Require Import SpecFloat.
From Verif Require Import Num FloatNum PathModel DrawModel SegOps TransformsModel SvgParse Bezier GeomTransforms OffsetModel Components DrawComp UnitsModel BinPack PlanSet SvgWrite Output Deliver PartSplit RenderDoc DynModel SvgElement TestMath.
Import ListNotations.
Local Open Scope string_scope.
(** math.Floor, for the tests *)
Definition ffloor (x : f) : Z := let t := truncZ x in if ltb x (fz t) then (t - 1)%Z else t.
(** math.Floor for the model *)
Definition testFloor : FloorOps FNum := mkFloor FNum ffloor.
(** the first sheet of a design, as saved *)
Definition sheet0 (d : design FNum) : string :=
  match RenderDesign testOps testTrig 3 1000 100 1000 d "x" (fun _ => None) with Ok k => content k "x_000.svg" | _ => "" end.
(** the attributes of a command of a draw component, all numbers *)
Definition nums (l : list (string * f)) : attrs FNum := mkAttrs (fun _ => None) (fun k => lookup k l) (fun _ => None) (fun _ => None).
(** the path of a component, without the pen *)
Definition path1 (r : res (path FNum * Pt FNum)) : res (path FNum) := bind r (fun '(p, _) => Ok p).
(** designs/common/rectangle.hfd:1-24: a draw component with a rectangle, its transforms and its size *)
Definition rectangle (ts : list (path FNum -> res (path FNum))) (w h : f) (cursor : Pt FNum) : res (path FNum) :=
  path1 (DrawRender testOps testTrig ts [("rectangle", nums [("width", w); ("height", h)])] cursor).
(** a part without label, place and part transformers *)
Definition onePart (id : string) (render : Z -> res (path FNum)) : partDef FNum := mkPartDef id 1 render (fun _ => "") (fun _ => "") [].
(** a document that says how large the material is *)
Definition plain (w h : Z) (ps : list (partDef FNum)) : design FNum := mkDesign (Some (fz w)) (Some (fz h)) None None ps.
(** the attributes of a command: points, numbers, texts *)
Definition at_ (points : list (string * Pt FNum)) (ns : list (string * f)) (texts : list (string * string)) : attrs FNum :=
  mkAttrs (fun k => lookup k points) (fun k => lookup k ns) (fun k => lookup k texts) (fun _ => None).
(** parser/svgparser.go: the text that an imported svg file becomes *)
Definition svgText (e : list element) : string :=
  match ElementToPath (N := FNum) (Elem "svg" [] e) with Ok p => SvgString p 3 | _ => "" end.
(** an offset transform *)
Definition offsetT (s : sizeShouldBe) (d : f) : path FNum -> res (path FNum) := OffsetT testOps 3 1000 true 10 s 3 d.
(** a draw component without name *)
Definition draw (ts : list (path FNum -> res (path FNum))) (cs : list (string * attrs FNum)) (cursor : Pt FNum) : res (path FNum) :=
  path1 (DrawRender testOps testTrig ts cs cursor).
(** the offset of the designs, half the width of the cut: .0035 *)
Definition o35 : f := flt 35 (-4).
(** a point *)
Definition F (x : f) (y : f) := NewPoint (N := FNum) x y.
(** the thickness of the material, .2 *)
Definition t2 : f := flt 2 (-1).
(** a command rel_line *)
Definition rel (x y : f) : string * attrs FNum := ("rel_line", at_ [("to", F x y)] [] []).
(** a command move *)
Definition move0 (y : f) : string * attrs FNum := ("move", at_ [("to", F (fz 0) y)] [] []).
(** a join transform *)
Definition joinT (close : bool) : path FNum -> res (path FNum) := JoinT testOps 3 1000 true close 3.
(** designs/joints/finger_joint_socket.hfd:1-113 *)
Definition socket (fw fh fs : f) (a b : Pt FNum) (cursor : Pt FNum) : res (path FNum) :=
  let pad := mul fh (flt 11 (-1)) in let m := Num.sub (fz 0) fh in let h := div fs (fz 2) in
  path1 (RepeatEdge testOps testTrig testFloor [joinT false] (fun w => draw [] [move0 (fz 0); rel w (fz 0)] (pt 0 0)) (fun w => draw [] [move0 (fz 0); rel w (fz 0)] (pt 0 0))
    (fun _ => draw [] [rel h (fz 0); rel (fz 0) fh; rel fw (fz 0); rel (fz 0) m; rel h (fz 0)] (pt 0 0)) a b AStartPoint pad pad).
(** designs/joints/finger_joint_plug.hfd:1-120 *)
Definition plug (fw fh fs : f) (a b : Pt FNum) (cursor : Pt FNum) : res (path FNum) :=
  let pad := mul fh (flt 11 (-1)) in let m := Num.sub (fz 0) fh in let h := div fs (fz 2) in
  path1 (RepeatEdge testOps testTrig testFloor [joinT false] (fun w => draw [] [move0 fh; rel w (fz 0)] (pt 0 0)) (fun w => draw [] [move0 fh; rel w (fz 0)] (pt 0 0))
    (fun _ => draw [] [move0 fh; rel h (fz 0); rel (fz 0) m; rel fw (fz 0); rel (fz 0) fh; rel h (fz 0)] (pt 0 0)) a b AOrigin pad pad).
(** a basic edge that is a line, as designs/component_examples/part_split.hfd:1-84 has it *)
Definition edgeLine (a b : Pt FNum) (cursor : Pt FNum) : res (path FNum) :=
  path1 (BasicEdge testOps testTrig [] (fun w => [draw [] [move0 (fz 0); ("line", at_ [("to", F w (fz 0))] [] [])]]) a b AOrigin cursor).

(** designs/common/rectangle.hfd:1-24 *)
Definition rectangleHfd : design FNum :=
  mkDesign None None None None [onePart "0227151f62e7013d" (fun _ => PartRender testOps [] [rectangle [] (fz 2) (fz 2)] (pt 0 0))].
(** designs_rendered/rectangle_000.svg:1-9 *)
Goal sheet0 rectangleHfd =
"<?xml version=""1.0""?>
	<!-- Generated by github.com/dustismo/heavyfishdesign -->
	<svg width=""20.000in"" height=""12.000in"" viewBox=""0.000 0.000 20.000 12.000""
    	xmlns=""http://www.w3.org/2000/svg""
		xmlns:xlink=""http://www.w3.org/1999/xlink"">
	<g transform=""translate(0.100 0.100)"">
<path id=""0227151f62e7013d"" d=""M 0.000 0.000 L 2.000 0.000 L 2.000 2.000 L 0.000 2.000 L 0.000 0.000"" style=""fill:none;stroke:black;stroke-width:0.012"" />
</g>
</svg>
".
Proof. vm_compute. reflexivity. Abort.

(** designs/component_examples/gear.hfd:1-23 *)
Definition gearHfd : design FNum :=
  plain 20 12 [onePart "4f715b7f688bf76a" (fun _ => PartRender testOps [] [fun _ => Ok (GearPath testTrig testMath (mkGear (N := FNum) 25 (flt 2 (-1)) (fz 20) (flt 1 (-2)) (flt 1 (-2))))] (pt 0 0))].
(** designs_rendered/gear_000.svg:1-9 *)
Goal sheet0 gearHfd =
"<?xml version=""1.0""?>
	<!-- Generated by github.com/dustismo/heavyfishdesign -->
	<svg width=""20.000in"" height=""12.000in"" viewBox=""0.000 0.000 20.000 12.000""
    	xmlns=""http://www.w3.org/2000/svg""
		xmlns:xlink=""http://www.w3.org/1999/xlink"">
	<g transform=""translate(0.100 0.100)"">
<path id=""4f715b7f688bf76a"" d=""M 0.757 1.572 L 0.794 1.576 L 0.793 1.591 L 0.795 1.612 L 0.799 1.632 L 0.806 1.653 L 0.814 1.674 L 0.824 1.695 L 0.874 1.695 L 0.884 1.674 L 0.892 1.653 L 0.899 1.632 L 0.903 1.612 L 0.905 1.591 L 0.904 1.576 L 0.941 1.572 L 0.941 1.572 L 0.978 1.566 L 0.980 1.582 L 0.987 1.601 L 0.997 1.620 L 1.008 1.639 L 1.021 1.657 L 1.035 1.674 L 1.085 1.662 L 1.089 1.639 L 1.092 1.617 L 1.093 1.595 L 1.092 1.574 L 1.088 1.554 L 1.083 1.539 L 1.118 1.526 L 1.118 1.526 L 1.153 1.512 L 1.159 1.526 L 1.171 1.543 L 1.185 1.559 L 1.200 1.574 L 1.217 1.588 L 1.236 1.602 L 1.280 1.577 L 1.279 1.555 L 1.276 1.532 L 1.272 1.511 L 1.265 1.491 L 1.257 1.472 L 1.249 1.459 L 1.279 1.438 L 1.279 1.438 L 1.309 1.415 L 1.319 1.427 L 1.334 1.441 L 1.351 1.453 L 1.370 1.464 L 1.390 1.473 L 1.412 1.482 L 1.449 1.447 L 1.442 1.425 L 1.433 1.405 L 1.424 1.385 L 1.413 1.367 L 1.400 1.351 L 1.389 1.340 L 1.413 1.312 L 1.413 1.312 L 1.436 1.283 L 1.449 1.292 L 1.467 1.302 L 1.487 1.309 L 1.508 1.315 L 1.530 1.319 L 1.552 1.322 L 1.580 1.279 L 1.567 1.260 L 1.554 1.242 L 1.540 1.225 L 1.525 1.210 L 1.508 1.198 L 1.495 1.191 L 1.511 1.157 L 1.511 1.157 L 1.526 1.123 L 1.541 1.129 L 1.561 1.134 L 1.582 1.136 L 1.604 1.136 L 1.626 1.135 L 1.649 1.132 L 1.664 1.084 L 1.648 1.068 L 1.630 1.054 L 1.613 1.042 L 1.594 1.031 L 1.575 1.023 L 1.560 1.019 L 1.568 0.983 L 1.568 0.983 L 1.574 0.946 L 1.590 0.948 L 1.610 0.948 L 1.631 0.944 L 1.652 0.939 L 1.674 0.933 L 1.695 0.924 L 1.698 0.873 L 1.678 0.863 L 1.658 0.853 L 1.637 0.845 L 1.617 0.840 L 1.597 0.837 L 1.581 0.837 L 1.580 0.800 L 1.580 0.800 L 1.576 0.762 L 1.592 0.761 L 1.612 0.755 L 1.631 0.747 L 1.650 0.737 L 1.669 0.725 L 1.688 0.711 L 1.678 0.661 L 1.656 0.656 L 1.634 0.652 L 1.613 0.649 L 1.591 0.649 L 1.571 0.651 L 1.556 0.655 L 1.545 0.619 L 1.545 0.619 L 1.533 0.584 L 1.547 0.578 L 1.565 0.568 L 1.582 0.555 L 1.598 0.541 L 1.613 0.525 L 1.628 0.507 L 1.606 0.461 L 1.584 0.461 L 1.561 0.463 L 1.540 0.466 L 1.519 0.470 L 1.500 0.478 L 1.486 0.485 L 1.467 0.453 L 1.467 0.453 L 1.446 0.422 L 1.459 0.413 L 1.474 0.399 L 1.487 0.382 L 1.499 0.364 L 1.510 0.345 L 1.519 0.324 L 1.487 0.285 L 1.465 0.291 L 1.444 0.297 L 1.424 0.306 L 1.405 0.316 L 1.388 0.327 L 1.377 0.338 L 1.350 0.312 L 1.350 0.312 L 1.322 0.287 L 1.332 0.275 L 1.343 0.257 L 1.352 0.238 L 1.359 0.218 L 1.364 0.196 L 1.369 0.174 L 1.327 0.144 L 1.307 0.155 L 1.289 0.167 L 1.271 0.180 L 1.256 0.194 L 1.242 0.210 L 1.234 0.223 L 1.202 0.204 L 1.202 0.204 L 1.168 0.187 L 1.175 0.173 L 1.181 0.153 L 1.185 0.132 L 1.186 0.111 L 1.187 0.088 L 1.185 0.065 L 1.138 0.047 L 1.121 0.062 L 1.106 0.079 L 1.093 0.096 L 1.081 0.113 L 1.072 0.132 L 1.067 0.147 L 1.031 0.136 L 1.031 0.136 L 0.995 0.128 L 0.998 0.113 L 0.999 0.092 L 0.997 0.071 L 0.993 0.050 L 0.988 0.028 L 0.981 0.006 L 0.930 0.000 L 0.918 0.019 L 0.907 0.039 L 0.898 0.059 L 0.891 0.079 L 0.887 0.099 L 0.886 0.114 L 0.849 0.113 L 0.849 0.113 L 0.812 0.114 L 0.811 0.099 L 0.807 0.079 L 0.800 0.059 L 0.791 0.039 L 0.780 0.019 L 0.768 0.000 L 0.717 0.006 L 0.710 0.028 L 0.705 0.050 L 0.701 0.071 L 0.699 0.092 L 0.700 0.113 L 0.703 0.128 L 0.667 0.136 L 0.667 0.136 L 0.631 0.147 L 0.626 0.132 L 0.617 0.113 L 0.605 0.096 L 0.592 0.079 L 0.577 0.062 L 0.560 0.047 L 0.513 0.065 L 0.511 0.088 L 0.512 0.111 L 0.513 0.132 L 0.517 0.153 L 0.523 0.173 L 0.529 0.187 L 0.496 0.204 L 0.496 0.204 L 0.464 0.223 L 0.456 0.210 L 0.442 0.194 L 0.427 0.180 L 0.409 0.167 L 0.390 0.155 L 0.371 0.144 L 0.329 0.174 L 0.334 0.196 L 0.339 0.218 L 0.346 0.238 L 0.355 0.257 L 0.366 0.275 L 0.376 0.287 L 0.348 0.312 L 0.348 0.312 L 0.321 0.338 L 0.310 0.327 L 0.293 0.316 L 0.274 0.306 L 0.254 0.297 L 0.233 0.291 L 0.211 0.285 L 0.179 0.324 L 0.188 0.345 L 0.199 0.364 L 0.211 0.382 L 0.224 0.399 L 0.239 0.413 L 0.252 0.422 L 0.231 0.453 L 0.231 0.453 L 0.212 0.485 L 0.198 0.478 L 0.179 0.470 L 0.158 0.466 L 0.137 0.463 L 0.114 0.461 L 0.092 0.461 L 0.070 0.507 L 0.085 0.525 L 0.100 0.541 L 0.116 0.555 L 0.133 0.568 L 0.151 0.578 L 0.165 0.584 L 0.153 0.619 L 0.153 0.619 L 0.142 0.655 L 0.127 0.651 L 0.106 0.649 L 0.085 0.649 L 0.064 0.652 L 0.042 0.656 L 0.020 0.661 L 0.010 0.711 L 0.029 0.725 L 0.048 0.737 L 0.067 0.747 L 0.086 0.755 L 0.106 0.761 L 0.122 0.762 L 0.118 0.800 L 0.118 0.800 L 0.117 0.837 L 0.101 0.837 L 0.081 0.840 L 0.061 0.845 L 0.040 0.853 L 0.020 0.863 L 0.000 0.873 L 0.003 0.924 L 0.024 0.933 L 0.046 0.939 L 0.067 0.944 L 0.088 0.948 L 0.108 0.948 L 0.124 0.946 L 0.130 0.983 L 0.130 0.983 L 0.138 1.019 L 0.123 1.023 L 0.104 1.031 L 0.085 1.042 L 0.068 1.054 L 0.050 1.068 L 0.034 1.084 L 0.049 1.132 L 0.072 1.135 L 0.094 1.136 L 0.116 1.136 L 0.137 1.134 L 0.157 1.129 L 0.171 1.123 L 0.187 1.157 L 0.187 1.157 L 0.203 1.191 L 0.189 1.198 L 0.173 1.210 L 0.158 1.225 L 0.144 1.242 L 0.131 1.260 L 0.118 1.279 L 0.146 1.322 L 0.168 1.319 L 0.190 1.315 L 0.211 1.309 L 0.231 1.302 L 0.249 1.292 L 0.262 1.283 L 0.285 1.312 L 0.285 1.312 L 0.309 1.340 L 0.298 1.351 L 0.285 1.367 L 0.274 1.385 L 0.265 1.405 L 0.256 1.425 L 0.249 1.447 L 0.286 1.482 L 0.307 1.473 L 0.328 1.464 L 0.346 1.453 L 0.364 1.441 L 0.379 1.427 L 0.389 1.415 L 0.419 1.438 L 0.419 1.438 L 0.449 1.459 L 0.441 1.472 L 0.432 1.491 L 0.426 1.511 L 0.422 1.532 L 0.419 1.555 L 0.418 1.577 L 0.462 1.602 L 0.481 1.588 L 0.498 1.574 L 0.513 1.559 L 0.527 1.543 L 0.539 1.526 L 0.545 1.512 L 0.579 1.526 L 0.579 1.526 L 0.615 1.539 L 0.610 1.554 L 0.606 1.574 L 0.605 1.595 L 0.606 1.617 L 0.609 1.639 L 0.613 1.662 L 0.662 1.674 L 0.677 1.657 L 0.690 1.639 L 0.701 1.620 L 0.711 1.601 L 0.718 1.582 L 0.720 1.566 L 0.757 1.572 L 0.757 1.572"" style=""fill:none;stroke:black;stroke-width:0.012"" />
</g>
</svg>
".
Proof. vm_compute. reflexivity. Abort.

(** designs/component_examples/around.hfd:1-41 *)
Definition aroundHfd : design FNum :=
  plain 20 12 [onePart "0a69bdbd7ccb981e" (fun _ => PartRender testOps []
    [fun cursor => Around testOps testTrig 3 (fun len _ => rectangle [MoveT testOps (NewPoint (N := FNum) (div len (fz 2)) (fz 0)) ABottomMiddle] (Num.sub len (flt 3 (-1))) (flt 2 (-1)) (pt 0 0)) 9 (fz 2) cursor] (pt 0 0))].
(** designs_rendered/around_000.svg:1-9 *)
Goal sheet0 aroundHfd =
"<?xml version=""1.0""?>
	<!-- Generated by github.com/dustismo/heavyfishdesign -->
	<svg width=""20.000in"" height=""12.000in"" viewBox=""0.000 0.000 20.000 12.000""
    	xmlns=""http://www.w3.org/2000/svg""
		xmlns:xlink=""http://www.w3.org/1999/xlink"">
	<g transform=""translate(0.100 0.100)"">
<path id=""0a69bdbd7ccb981e"" d=""M 1.606 0.000 L 2.675 0.000 L 2.675 0.200 L 1.606 0.200 L 1.606 0.000 M 3.068 0.143 L 3.886 0.830 L 3.758 0.983 L 2.939 0.296 L 3.068 0.143 M 4.096 1.192 L 4.281 2.244 L 4.084 2.279 L 3.899 1.227 L 4.096 1.192 M 4.208 2.657 L 3.674 3.582 L 3.501 3.482 L 4.035 2.557 L 4.208 2.657 M 3.354 3.851 L 2.350 4.216 L 2.281 4.028 L 3.285 3.663 L 3.354 3.851 M 1.931 4.216 L 0.928 3.851 L 0.996 3.663 L 2.000 4.028 L 1.931 4.216 M 0.607 3.582 L 0.073 2.657 L 0.246 2.557 L 0.780 3.482 L 0.607 3.582 M 0.000 2.244 L 0.185 1.192 L 0.382 1.227 L 0.197 2.279 L 0.000 2.244 M 0.395 0.830 L 1.213 0.143 L 1.342 0.296 L 0.523 0.983 L 0.395 0.830"" style=""fill:none;stroke:black;stroke-width:0.012"" />
</g>
</svg>
".
Proof. vm_compute. reflexivity. Abort.
