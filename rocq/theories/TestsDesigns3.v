(** Still more of the designs that the repository renders as a test of itself, see TestsDesigns.v. *)
From Coq Require Import String List ZArith Bool Arith.
From Verif Require Import Num FloatNum PathModel DrawModel SegOps TransformsModel SvgParse Bezier GeomTransforms OffsetModel Components DrawComp UnitsModel BinPack PlanSet SvgWrite Output Deliver PartSplit RenderDoc DynModel TestMath TestsDesigns TestsDesigns2.
Import ListNotations.
Local Open Scope string_scope.

(** designs/joints/finger_joint_socket.hfd:1-113 and finger_joint_plug.hfd:1-120 with padding and handle *)
Definition socketP (handle : attr FNum) (pl pr fw fh fs : f) (a b : Pt FNum) (cursor : Pt FNum) : res (path FNum) :=
  let m := Num.sub (fz 0) fh in let h := div fs (fz 2) in
  path1 (RepeatEdge testOps testTrig testFloor [joinT false] (fun w => draw [] [move0 (fz 0); rel w (fz 0)] (pt 0 0)) (fun w => draw [] [move0 (fz 0); rel w (fz 0)] (pt 0 0))
    (fun _ => draw [] [rel h (fz 0); rel (fz 0) fh; rel fw (fz 0); rel (fz 0) m; rel h (fz 0)] (pt 0 0)) a b handle pl pr).
Definition plugP (handle : attr FNum) (pl pr fw fh fs : f) (a b : Pt FNum) (cursor : Pt FNum) : res (path FNum) :=
  let m := Num.sub (fz 0) fh in let h := div fs (fz 2) in
  path1 (RepeatEdge testOps testTrig testFloor [joinT false] (fun w => draw [] [move0 fh; rel w (fz 0)] (pt 0 0)) (fun w => draw [] [move0 fh; rel w (fz 0)] (pt 0 0))
    (fun _ => draw [] [move0 fh; rel h (fz 0); rel (fz 0) m; rel fw (fz 0); rel (fz 0) fh; rel h (fz 0)] (pt 0 0)) a b handle pl pr).
(** designs/joints/svg_edge.hfd:1-34 *)
Definition svgEdge (svg : string) (a b : Pt FNum) (cursor : Pt FNum) : res (path FNum) :=
  path1 (BasicEdge testOps testTrig [] (fun w => [draw [] [move0 (fz 0); ("svg_connect_to", at_ [("to", F w (fz 0))] [] [("svg", svg)])]]) a b AOrigin cursor).
(** designs/common/stem_with_topper.hfd:1-51 *)
Definition topper : string := "M 425.474 705.105 L 345.318 705.105 C 330.065 705.105 317.682 692.721 317.682 677.468 L 317.682 622.196 C 317.682 606.943 330.065 594.559 345.318 594.559 C 383.050 626.859 417.826 640.878 450.386 641.197 C 482.947 640.878 517.723 626.859 555.455 594.559 C 570.708 594.559 583.091 606.943 583.091 622.196 L 583.091 677.468 C 583.091 692.721 570.708 705.105 555.455 705.105 L 475.298 705.105".
Definition stem (svg : string) (w h : f) : Pt FNum -> res (path FNum) :=
  let ww := add w (mul o35 (fz 2)) in let line x y := ("line", at_ [("to", F x y)] [] []) in
  draw [joinT false] [("move", at_ [("to", F ww (fz 0))] [] []); line ww h; line (fz 0) h; line (fz 0) (fz 0); ("svg_scale_to", at_ [("to", F ww (fz 0))] [] [("svg", svg)])].
(** designs/common/rectangle_with_center_hole.hfd:1-69, as a component *)
Definition rectHole (w h hw hh : f) (cursor : Pt FNum) : res (path FNum) :=
  path1 (Group [] [draw [offsetT Larger o35] [move0 (fz 0); ("rectangle", nums [("width", w); ("height", h)])];
    rectangle [offsetT Smaller o35; MoveT testOps (F (div w (fz 2)) (div h (fz 2))) AMiddleMiddle] hw hh] cursor).

(** designs/game_cabinet/joystick.hfd:1-58 *)
Definition joystickHfd : design FNum :=
  plain 20 12 [mkPartDef "9e7dba72cbe44f2a" 1 (fun _ => PartRender testOps [] [draw [offsetT Smaller o35] [("move", at_ [("to", (F (Num.sub (div (flt 75 (-2) : f) (fz 2)) (div (flt 1 (-1) : f) (fz 2))) (fz 0)))] [] []); ("circle", nums [("radius", (div (flt 1 (-1) : f) (fz 2)))]); ("move", at_ [("to", (F (fz 0) (add (Num.sub (div (fz 3) (fz 2)) (div (flt 75 (-2) : f) (fz 2))) (div (flt 1 (-1) : f) (fz 2)))))] [] []); ("circle", nums [("radius", (div (flt 75 (-2) : f) (fz 2)))]); ("move", at_ [("to", (F (Num.sub (div (flt 75 (-2) : f) (fz 2)) (div (flt 1 (-1) : f) (fz 2))) (fz 3)))] [] []); ("circle", nums [("radius", (div (flt 1 (-1) : f) (fz 2)))])]] (pt 0 0)) (fun _ => "") (fun _ => "") []].
(** designs_rendered/joystick_000.svg:1-9 *)
Goal sheet0 joystickHfd =
"<?xml version=""1.0""?>
	<!-- Generated by github.com/dustismo/heavyfishdesign -->
	<svg width=""20.000in"" height=""12.000in"" viewBox=""0.000 0.000 20.000 12.000""
    	xmlns=""http://www.w3.org/2000/svg""
		xmlns:xlink=""http://www.w3.org/1999/xlink"">
	<g transform=""translate(0.100 0.100)"">
<path id=""9e7dba72cbe44f2a"" d=""M 0.371 0.000 C 0.389 0.000 0.404 0.009 0.412 0.023 C 0.416 0.030 0.418 0.038 0.418 0.046 C 0.418 0.064 0.409 0.079 0.395 0.087 C 0.388 0.091 0.380 0.093 0.371 0.093 C 0.354 0.093 0.339 0.084 0.331 0.070 C 0.327 0.063 0.325 0.055 0.325 0.046 C 0.325 0.029 0.334 0.014 0.348 0.006 C 0.355 0.002 0.363 0.000 0.371 0.000 M 0.371 1.175 C 0.509 1.175 0.629 1.250 0.693 1.361 C 0.725 1.415 0.743 1.479 0.743 1.546 C 0.743 1.684 0.668 1.804 0.557 1.868 C 0.503 1.900 0.439 1.918 0.371 1.918 C 0.234 1.918 0.114 1.843 0.050 1.732 C 0.018 1.678 0.000 1.614 0.000 1.546 C 0.000 1.409 0.075 1.289 0.186 1.225 C 0.240 1.193 0.304 1.175 0.371 1.175 M 0.371 3.000 C 0.389 3.000 0.404 3.009 0.412 3.023 C 0.416 3.030 0.418 3.038 0.418 3.046 C 0.418 3.064 0.409 3.079 0.395 3.087 C 0.388 3.091 0.380 3.093 0.371 3.093 C 0.354 3.093 0.339 3.084 0.331 3.070 C 0.327 3.063 0.325 3.055 0.325 3.046 C 0.325 3.029 0.334 3.014 0.348 3.006 C 0.355 3.002 0.363 3.000 0.371 3.000"" style=""fill:none;stroke:black;stroke-width:0.012"" />
</g>
</svg>
".
Proof. vm_compute. reflexivity. Abort.

(** designs/house/window.hfd:1-73 *)
Definition windowHfd : design FNum :=
  plain 20 12 [mkPartDef "window" 1 (fun _ => PartRender testOps [] [draw [] [("move", at_ [("to", (F t2 t2))] [] []); ("rectangle", nums [("width", (Num.sub (div (fz 5) (fz 2)) (mul (fz 3) t2))); ("height", (Num.sub (div (fz 6) (fz 2)) (mul (fz 3) t2)))]); ("move", at_ [("to", (F (add (mul t2 (fz 2)) (Num.sub (div (fz 5) (fz 2)) (mul (fz 3) t2))) t2))] [] []); ("rectangle", nums [("width", (Num.sub (div (fz 5) (fz 2)) (mul (fz 3) t2))); ("height", (Num.sub (div (fz 6) (fz 2)) (mul (fz 3) t2)))]); ("move", at_ [("to", (F t2 (add (mul t2 (fz 2)) (Num.sub (div (fz 6) (fz 2)) (mul (fz 3) t2)))))] [] []); ("rectangle", nums [("width", (Num.sub (div (fz 5) (fz 2)) (mul (fz 3) t2))); ("height", (Num.sub (div (fz 6) (fz 2)) (mul (fz 3) t2)))]); ("move", at_ [("to", (F (add (mul t2 (fz 2)) (Num.sub (div (fz 5) (fz 2)) (mul (fz 3) t2))) (add (mul t2 (fz 2)) (Num.sub (div (fz 6) (fz 2)) (mul (fz 3) t2)))))] [] []); ("rectangle", nums [("width", (Num.sub (div (fz 5) (fz 2)) (mul (fz 3) t2))); ("height", (Num.sub (div (fz 6) (fz 2)) (mul (fz 3) t2)))])]] (pt 0 0)) (fun _ => "") (fun _ => "") []].
(** designs_rendered/window_000.svg:1-9 *)
Goal sheet0 windowHfd =
"<?xml version=""1.0""?>
	<!-- Generated by github.com/dustismo/heavyfishdesign -->
	<svg width=""20.000in"" height=""12.000in"" viewBox=""0.000 0.000 20.000 12.000""
    	xmlns=""http://www.w3.org/2000/svg""
		xmlns:xlink=""http://www.w3.org/1999/xlink"">
	<g transform=""translate(0.100 0.100)"">
<path id=""window"" d=""M 0.000 0.000 L 1.900 0.000 L 1.900 2.400 L 0.000 2.400 L 0.000 0.000 M 2.100 0.000 L 4.000 0.000 L 4.000 2.400 L 2.100 2.400 L 2.100 0.000 M 0.000 2.600 L 1.900 2.600 L 1.900 5.000 L 0.000 5.000 L 0.000 2.600 M 2.100 2.600 L 4.000 2.600 L 4.000 5.000 L 2.100 5.000 L 2.100 2.600"" style=""fill:none;stroke:black;stroke-width:0.012"" />
</g>
</svg>
".
Proof. vm_compute. reflexivity. Abort.

(** designs/joints/svg_edge.hfd:1-35 *)
Definition svg_edgeHfd : design FNum :=
  mkDesign None None None None [mkPartDef "963aefd2afffbf8d" 1 (fun _ => PartRender testOps [] [svgEdge "M 0,0 L 3,0" (pt 0 0) (pt 1 1)] (pt 0 0)) (fun _ => "") (fun _ => "") []].
(** designs_rendered/svg_edge_000.svg:1-9 *)
Goal sheet0 svg_edgeHfd =
"<?xml version=""1.0""?>
	<!-- Generated by github.com/dustismo/heavyfishdesign -->
	<svg width=""20.000in"" height=""12.000in"" viewBox=""0.000 0.000 20.000 12.000""
    	xmlns=""http://www.w3.org/2000/svg""
		xmlns:xlink=""http://www.w3.org/1999/xlink"">
	<g transform=""translate(0.100 0.100)"">
<path id=""963aefd2afffbf8d"" d=""M 0.000 0.000 L 1.000 1.000"" style=""fill:none;stroke:black;stroke-width:0.012"" />
</g>
</svg>
".
Proof. vm_compute. reflexivity. Abort.

(** designs/common/stem_with_topper.hfd:1-52 *)
Definition stem_with_topperHfd : design FNum :=
  mkDesign None None None None [mkPartDef "43e544a710c1d14f" 1 (fun _ => PartRender testOps [] [stem topper half (fz 10)] (pt 0 0)) (fun _ => "") (fun _ => "") []].
(** designs_rendered/stem_with_topper_000.svg:1-9 *)
Goal sheet0 stem_with_topperHfd =
"<?xml version=""1.0""?>
	<!-- Generated by github.com/dustismo/heavyfishdesign -->
	<svg width=""20.000in"" height=""12.000in"" viewBox=""0.000 0.000 20.000 12.000""
    	xmlns=""http://www.w3.org/2000/svg""
		xmlns:xlink=""http://www.w3.org/1999/xlink"">
	<g transform=""translate(0.100 0.100)"">
<path id=""43e544a710c1d14f"" d=""M 1.604 1.125 L 1.604 11.125 L 1.097 11.125 L 1.097 1.125 L 0.281 1.125 C 0.126 1.125 0.000 0.999 0.000 0.844 L 0.000 0.281 C 0.000 0.126 0.126 0.000 0.281 0.000 C 0.665 0.329 1.019 0.471 1.350 0.475 C 1.682 0.471 2.036 0.329 2.420 0.000 C 2.575 0.000 2.701 0.126 2.701 0.281 L 2.701 0.844 C 2.701 0.999 2.575 1.125 2.420 1.125 L 1.604 1.125"" style=""fill:none;stroke:black;stroke-width:0.012"" />
</g>
</svg>
".
Proof. vm_compute. reflexivity. Abort.

(** designs/xmas_tree/spacer.hfd:1-50 *)
Definition spacerHfd : design FNum :=
  mkDesign None None None None [mkPartDef "d74de1ddb1bed8c3" 1 (fun _ => PartRender testOps [] [draw [] [("circle", nums [("radius", (div half (fz 2)))])]; rectangle [offsetT Smaller o35; MoveT testOps (F (div half (fz 2)) (div half (fz 2))) AMiddleMiddle] t2 (flt 25 (-2) : f)] (pt 0 0)) (fun _ => "") (fun _ => "") []].
(** designs_rendered/spacer_000.svg:1-9 *)
Goal sheet0 spacerHfd =
"<?xml version=""1.0""?>
	<!-- Generated by github.com/dustismo/heavyfishdesign -->
	<svg width=""20.000in"" height=""12.000in"" viewBox=""0.000 0.000 20.000 12.000""
    	xmlns=""http://www.w3.org/2000/svg""
		xmlns:xlink=""http://www.w3.org/1999/xlink"">
	<g transform=""translate(0.100 0.100)"">
<path id=""d74de1ddb1bed8c3"" d=""M 0.250 0.000 C 0.388 0.000 0.500 0.112 0.500 0.250 C 0.500 0.388 0.388 0.500 0.250 0.500 C 0.112 0.500 0.000 0.388 0.000 0.250 C 0.000 0.112 0.112 0.000 0.250 0.000 M 0.347 0.371 L 0.347 0.129 L 0.154 0.129 L 0.154 0.371 L 0.347 0.371"" style=""fill:none;stroke:black;stroke-width:0.012"" />
</g>
</svg>
".
Proof. vm_compute. reflexivity. Abort.

(** designs/game_cabinet/speaker.hfd:1-73 *)
Definition speakerHfd : design FNum :=
  plain 20 12 [mkPartDef "53b8f6e07fe2eec3" 1 (fun _ => PartRender testOps [] [fun cursor => path1 (Group [] [draw [] [("move", at_ [("to", (F (fz 0) (fz 0)))] [] []); ("circle", nums [("radius", (div (flt 1 (-1) : f) (fz 2)))]); ("move", at_ [("to", (F (Num.sub (fz 3) (flt 1 (-1) : f)) (fz 0)))] [] []); ("circle", nums [("radius", (div (flt 1 (-1) : f) (fz 2)))]); ("move", at_ [("to", (F (Num.sub (fz 3) (flt 1 (-1) : f)) (Num.sub (fz 2) (flt 1 (-1) : f))))] [] []); ("circle", nums [("radius", (div (flt 1 (-1) : f) (fz 2)))]); ("move", at_ [("to", (F (fz 0) (Num.sub (fz 2) (flt 1 (-1) : f))))] [] []); ("circle", nums [("radius", (div (flt 1 (-1) : f) (fz 2)))])];
    fun cursor => match XIntercept testOps 3 1000 3 [MoveT testOps (F (div (fz 3) (fz 2)) (div (fz 2) (fz 2))) AMiddleMiddle] (draw [] [("circle", nums [("radius", (div (flt 15 (-1) : f) (fz 2)))])] cursor) (fun a b => rectangle [MoveT testOps a ATopLeft] (Num.sub (px b) (px a)) t2 cursor) (fz 0) t2 with
       | Ok (Some (p, _)) => Ok p | _ => Err end] cursor)] (pt 0 0)) (fun _ => "") (fun _ => "") []].
(** designs_rendered/speaker_000.svg:1-9 *)
Goal sheet0 speakerHfd =
"<?xml version=""1.0""?>
	<!-- Generated by github.com/dustismo/heavyfishdesign -->
	<svg width=""20.000in"" height=""12.000in"" viewBox=""0.000 0.000 20.000 12.000""
    	xmlns=""http://www.w3.org/2000/svg""
		xmlns:xlink=""http://www.w3.org/1999/xlink"">
	<g transform=""translate(0.100 0.100)"">
<path id=""53b8f6e07fe2eec3"" d=""M 0.050 0.000 C 0.078 0.000 0.100 0.022 0.100 0.050 C 0.100 0.078 0.078 0.100 0.050 0.100 C 0.022 0.100 0.000 0.078 0.000 0.050 C 0.000 0.022 0.022 0.000 0.050 0.000 M 2.950 0.000 C 2.978 0.000 3.000 0.022 3.000 0.050 C 3.000 0.078 2.978 0.100 2.950 0.100 C 2.922 0.100 2.900 0.078 2.900 0.050 C 2.900 0.022 2.922 0.000 2.950 0.000 M 2.950 1.900 C 2.978 1.900 3.000 1.922 3.000 1.950 C 3.000 1.978 2.978 2.000 2.950 2.000 C 2.922 2.000 2.900 1.978 2.900 1.950 C 2.900 1.922 2.922 1.900 2.950 1.900 M 0.050 1.900 C 0.078 1.900 0.100 1.922 0.100 1.950 C 0.100 1.978 0.078 2.000 0.050 2.000 C 0.022 2.000 0.000 1.978 0.000 1.950 C 0.000 1.922 0.022 1.900 0.050 1.900 M 1.126 0.300 L 1.874 0.300 L 1.874 0.500 L 1.126 0.500 L 1.126 0.300 M 0.793 0.700 L 2.207 0.700 L 2.207 0.900 L 0.793 0.900 L 0.793 0.700 M 0.765 1.100 L 2.235 1.100 L 2.235 1.300 L 0.765 1.300 L 0.765 1.100 M 0.990 1.500 L 2.010 1.500 L 2.010 1.700 L 0.990 1.700 L 0.990 1.500"" style=""fill:none;stroke:black;stroke-width:0.012"" />
</g>
</svg>
".
Proof. vm_compute. reflexivity. Abort.

(** designs/house/roof.hfd:1-77 *)
Definition roofHfd : design FNum :=
  plain 20 12 [mkPartDef "roof_left" 1 (fun _ => PartRender testOps [] [rectangle [offsetT Larger o35] (add (fz 4) (mul (fz 2) half)) (add (Distance (F (div (fz 5) (fz 2)) (add (fz 6) (fz 4))) (F (fz 0) (fz 6))) (flt 75 (-2) : f)); fun cursor => path1 (Group [offsetT Smaller o35] [holes (flt 3 (-1) : f) t2 t2 t2 (F (add half t2) (fz 0)) (F (add half t2) (Distance (F (div (fz 5) (fz 2)) (add (fz 6) (fz 4))) (F (fz 0) (fz 6)))); holes (flt 3 (-1) : f) t2 t2 t2 (F (Num.sub (add (fz 4) (mul (fz 2) half)) half) (fz 0)) (F (Num.sub (add (fz 4) (mul (fz 2) half)) half) (Distance (F (div (fz 5) (fz 2)) (add (fz 6) (fz 4))) (F (fz 0) (fz 6))))] cursor)] (pt 0 0)) (fun _ => "") (fun _ => "") []].
(** designs_rendered/roof_000.svg:1-9 *)
Goal sheet0 roofHfd =
"<?xml version=""1.0""?>
	<!-- Generated by github.com/dustismo/heavyfishdesign -->
	<svg width=""20.000in"" height=""12.000in"" viewBox=""0.000 0.000 20.000 12.000""
    	xmlns=""http://www.w3.org/2000/svg""
		xmlns:xlink=""http://www.w3.org/1999/xlink"">
	<g transform=""translate(0.100 0.100)"">
<path id=""roof_left"" d=""M 0.000 0.000 L 0.000 5.474 L 5.007 5.474 L 5.007 0.000 L 0.000 0.000 M 0.700 0.465 L 0.700 0.758 L 0.507 0.758 L 0.507 0.465 L 0.700 0.465 M 0.700 1.258 L 0.700 0.965 L 0.507 0.965 L 0.507 1.258 L 0.700 1.258 M 0.700 1.465 L 0.700 1.758 L 0.507 1.758 L 0.507 1.465 L 0.700 1.465 M 0.700 1.965 L 0.700 2.258 L 0.507 2.258 L 0.507 1.965 L 0.700 1.965 M 0.700 2.465 L 0.700 2.758 L 0.507 2.758 L 0.507 2.465 L 0.700 2.465 M 0.700 2.965 L 0.700 3.258 L 0.507 3.258 L 0.507 2.965 L 0.700 2.965 M 0.700 3.465 L 0.700 3.758 L 0.507 3.758 L 0.507 3.465 L 0.700 3.465 M 0.700 3.965 L 0.700 4.258 L 0.507 4.258 L 0.507 3.965 L 0.700 3.965 M 4.500 0.465 L 4.500 0.758 L 4.307 0.758 L 4.307 0.465 L 4.500 0.465 M 4.500 1.258 L 4.500 0.965 L 4.307 0.965 L 4.307 1.258 L 4.500 1.258 M 4.500 1.465 L 4.500 1.758 L 4.307 1.758 L 4.307 1.465 L 4.500 1.465 M 4.500 1.965 L 4.500 2.258 L 4.307 2.258 L 4.307 1.965 L 4.500 1.965 M 4.500 2.465 L 4.500 2.758 L 4.307 2.758 L 4.307 2.465 L 4.500 2.465 M 4.500 2.965 L 4.500 3.258 L 4.307 3.258 L 4.307 2.965 L 4.500 2.965 M 4.500 3.465 L 4.500 3.758 L 4.307 3.758 L 4.307 3.465 L 4.500 3.465 M 4.500 3.965 L 4.500 4.258 L 4.307 4.258 L 4.307 3.965 L 4.500 3.965"" style=""fill:none;stroke:black;stroke-width:0.012"" />
</g>
</svg>
".
Proof. vm_compute. reflexivity. Abort.
