(** More of the designs that the repository renders as a test of itself, see TestsDesigns.v. *)
From Coq Require Import String List ZArith Bool Arith.
From Verif Require Import Num FloatNum PathModel DrawModel SegOps TransformsModel SvgParse Bezier GeomTransforms OffsetModel Components DrawComp UnitsModel BinPack PlanSet SvgWrite Output Deliver PartSplit RenderDoc DynModel TestMath TestsDesigns.
Import ListNotations.
Local Open Scope string_scope.

(** designs/joints/finger_joint_holes.hfd:1-82 *)
Definition holes (fw fh fs fd : f) (a b : Pt FNum) (cursor : Pt FNum) : res (path FNum) :=
  let pad := mul fh (flt 11 (-1)) in let h := div fs (fz 2) in let relMove x := ("rel_move", at_ [("to", F x (fz 0))] [] []) in
  path1 (RepeatEdge testOps testTrig testFloor [] (fun w => draw [] [move0 (fz 0); relMove w] (pt 0 0)) (fun w => draw [] [move0 (fz 0); relMove w] (pt 0 0))
    (fun _ => draw [] [("move", at_ [("to", F h (fz 0))] [] []); ("rectangle", nums [("width", fw); ("height", fd)]); relMove (add fw h)] (pt 0 0)) a b AOrigin pad pad).

(** designs/joints/finger_joint_plug.hfd:1-121 *)
Definition finger_joint_plugHfd : design FNum :=
  mkDesign None None None None [onePart "finger_joint_part" (fun _ => PartRender testOps [] [plug (flt 25 (-2)) t2 (flt 4 (-1)) (pt 0 0) (pt 5 0)] (pt 0 0))].
(** designs_rendered/finger_joint_plug_000.svg:1-9 *)
Goal sheet0 finger_joint_plugHfd =
"<?xml version=""1.0""?>
	<!-- Generated by github.com/dustismo/heavyfishdesign -->
	<svg width=""20.000in"" height=""12.000in"" viewBox=""0.000 0.000 20.000 12.000""
    	xmlns=""http://www.w3.org/2000/svg""
		xmlns:xlink=""http://www.w3.org/1999/xlink"">
	<g transform=""translate(0.100 0.100)"">
<path id=""finger_joint_part"" d=""M 0.000 0.200 L 0.225 0.200 L 0.425 0.200 L 0.425 0.000 L 0.675 0.000 L 0.675 0.200 L 0.875 0.200 L 1.075 0.200 L 1.075 0.000 L 1.325 0.000 L 1.325 0.200 L 1.525 0.200 L 1.725 0.200 L 1.725 0.000 L 1.975 0.000 L 1.975 0.200 L 2.175 0.200 L 2.375 0.200 L 2.375 0.000 L 2.625 0.000 L 2.625 0.200 L 2.825 0.200 L 3.025 0.200 L 3.025 0.000 L 3.275 0.000 L 3.275 0.200 L 3.475 0.200 L 3.675 0.200 L 3.675 0.000 L 3.925 0.000 L 3.925 0.200 L 4.125 0.200 L 4.325 0.200 L 4.325 0.000 L 4.575 0.000 L 4.575 0.200 L 4.775 0.200 L 5.000 0.200"" style=""fill:none;stroke:black;stroke-width:0.012"" />
</g>
</svg>
".
Proof. vm_compute. reflexivity. Abort.

(** designs/joints/finger_joint_socket.hfd:1-114 *)
Definition finger_joint_socketHfd : design FNum :=
  mkDesign None None None None [onePart "finger_joint_part" (fun _ => PartRender testOps [] [socket (flt 25 (-2)) t2 (flt 4 (-1)) (pt 0 0) (pt 5 0)] (pt 0 0))].
(** designs_rendered/finger_joint_socket_000.svg:1-9 *)
Goal sheet0 finger_joint_socketHfd =
"<?xml version=""1.0""?>
	<!-- Generated by github.com/dustismo/heavyfishdesign -->
	<svg width=""20.000in"" height=""12.000in"" viewBox=""0.000 0.000 20.000 12.000""
    	xmlns=""http://www.w3.org/2000/svg""
		xmlns:xlink=""http://www.w3.org/1999/xlink"">
	<g transform=""translate(0.100 0.100)"">
<path id=""finger_joint_part"" d=""M 0.000 0.000 L 0.225 0.000 L 0.425 0.000 L 0.425 0.200 L 0.675 0.200 L 0.675 0.000 L 0.875 0.000 L 1.075 0.000 L 1.075 0.200 L 1.325 0.200 L 1.325 0.000 L 1.525 0.000 L 1.725 0.000 L 1.725 0.200 L 1.975 0.200 L 1.975 0.000 L 2.175 0.000 L 2.375 0.000 L 2.375 0.200 L 2.625 0.200 L 2.625 0.000 L 2.825 0.000 L 3.025 0.000 L 3.025 0.200 L 3.275 0.200 L 3.275 0.000 L 3.475 0.000 L 3.675 0.000 L 3.675 0.200 L 3.925 0.200 L 3.925 0.000 L 4.125 0.000 L 4.325 0.000 L 4.325 0.200 L 4.575 0.200 L 4.575 0.000 L 4.775 0.000 L 5.000 0.000"" style=""fill:none;stroke:black;stroke-width:0.012"" />
</g>
</svg>
".
Proof. vm_compute. reflexivity. Abort.

(** designs/joints/finger_joint_holes.hfd:1-93 *)
Definition finger_joint_holesHfd : design FNum :=
  mkDesign None None None None [onePart "finger_joint_part" (fun _ => PartRender testOps [] [holes (flt 25 (-2)) t2 (flt 4 (-1)) t2 (pt 0 0) (pt 5 0)] (pt 0 0))].
(** designs_rendered/finger_joint_holes_000.svg:1-9 *)
Goal sheet0 finger_joint_holesHfd =
"<?xml version=""1.0""?>
	<!-- Generated by github.com/dustismo/heavyfishdesign -->
	<svg width=""20.000in"" height=""12.000in"" viewBox=""0.000 0.000 20.000 12.000""
    	xmlns=""http://www.w3.org/2000/svg""
		xmlns:xlink=""http://www.w3.org/1999/xlink"">
	<g transform=""translate(0.100 0.100)"">
<path id=""finger_joint_part"" d=""M 0.000 0.000 L 0.250 0.000 L 0.250 0.200 L 0.000 0.200 L 0.000 0.000 M 0.650 0.000 L 0.900 0.000 L 0.900 0.200 L 0.650 0.200 L 0.650 0.000 M 1.300 0.000 L 1.550 0.000 L 1.550 0.200 L 1.300 0.200 L 1.300 0.000 M 1.950 0.000 L 2.200 0.000 L 2.200 0.200 L 1.950 0.200 L 1.950 0.000 M 2.600 0.000 L 2.850 0.000 L 2.850 0.200 L 2.600 0.200 L 2.600 0.000 M 3.250 0.000 L 3.500 0.000 L 3.500 0.200 L 3.250 0.200 L 3.250 0.000 M 3.900 0.000 L 4.150 0.000 L 4.150 0.200 L 3.900 0.200 L 3.900 0.000 M 4.575 0.000"" style=""fill:none;stroke:black;stroke-width:0.012"" />
</g>
</svg>
".
Proof. vm_compute. reflexivity. Abort.

(** designs/common/screw_holes_pair.hfd:1-36 *)
Definition screw_holes_pairHfd : design FNum :=
  mkDesign None None None None [onePart "d98968935eafba32" (fun _ => PartRender testOps [] [draw [] [("move", at_ [("to", F (fz 0) (fz 0))] [] []); ("circle", nums [("radius", div t2 (fz 2))]); ("move", at_ [("to", F (Num.sub (fz 2) t2) (fz 0))] [] []); ("circle", nums [("radius", div t2 (fz 2))])]] (pt 0 0))].
(** designs_rendered/screw_holes_pair_000.svg:1-9 *)
Goal sheet0 screw_holes_pairHfd =
"<?xml version=""1.0""?>
	<!-- Generated by github.com/dustismo/heavyfishdesign -->
	<svg width=""20.000in"" height=""12.000in"" viewBox=""0.000 0.000 20.000 12.000""
    	xmlns=""http://www.w3.org/2000/svg""
		xmlns:xlink=""http://www.w3.org/1999/xlink"">
	<g transform=""translate(0.100 0.100)"">
<path id=""d98968935eafba32"" d=""M 0.100 0.000 C 0.155 0.000 0.200 0.045 0.200 0.100 C 0.200 0.155 0.155 0.200 0.100 0.200 C 0.045 0.200 0.000 0.155 0.000 0.100 C 0.000 0.045 0.045 0.000 0.100 0.000 M 1.900 0.000 C 1.955 0.000 2.000 0.045 2.000 0.100 C 2.000 0.155 1.955 0.200 1.900 0.200 C 1.845 0.200 1.800 0.155 1.800 0.100 C 1.800 0.045 1.845 0.000 1.900 0.000"" style=""fill:none;stroke:black;stroke-width:0.012"" />
</g>
</svg>
".
Proof. vm_compute. reflexivity. Abort.

(** designs/common/screw_holes_rect.hfd:1-53 *)
Definition screw_holes_rectHfd : design FNum :=
  mkDesign None None None None [onePart "dccaab38308606e5" (fun _ => PartRender testOps [] [draw [] [("move", at_ [("to", F (fz 0) (fz 0))] [] []); ("circle", nums [("radius", div ((flt 225 (-3) : f)) (fz 2))]); ("move", at_ [("to", F (Num.sub (fz 2) ((flt 225 (-3) : f))) (fz 0))] [] []); ("circle", nums [("radius", div ((flt 225 (-3) : f)) (fz 2))]); ("move", at_ [("to", F (Num.sub (fz 2) ((flt 225 (-3) : f))) (Num.sub (fz 2) ((flt 225 (-3) : f))))] [] []); ("circle", nums [("radius", div ((flt 225 (-3) : f)) (fz 2))]); ("move", at_ [("to", F (fz 0) (Num.sub (fz 2) ((flt 225 (-3) : f))))] [] []); ("circle", nums [("radius", div ((flt 225 (-3) : f)) (fz 2))])]] (pt 0 0))].
(** designs_rendered/screw_holes_rect_000.svg:1-9 *)
Goal sheet0 screw_holes_rectHfd =
"<?xml version=""1.0""?>
	<!-- Generated by github.com/dustismo/heavyfishdesign -->
	<svg width=""20.000in"" height=""12.000in"" viewBox=""0.000 0.000 20.000 12.000""
    	xmlns=""http://www.w3.org/2000/svg""
		xmlns:xlink=""http://www.w3.org/1999/xlink"">
	<g transform=""translate(0.100 0.100)"">
<path id=""dccaab38308606e5"" d=""M 0.113 0.000 C 0.175 0.000 0.225 0.050 0.225 0.113 C 0.225 0.175 0.175 0.225 0.113 0.225 C 0.050 0.225 0.000 0.175 0.000 0.113 C 0.000 0.050 0.050 0.000 0.113 0.000 M 1.887 0.000 C 1.950 0.000 2.000 0.050 2.000 0.113 C 2.000 0.175 1.950 0.225 1.887 0.225 C 1.825 0.225 1.775 0.175 1.775 0.113 C 1.775 0.050 1.825 0.000 1.887 0.000 M 1.887 1.775 C 1.950 1.775 2.000 1.825 2.000 1.887 C 2.000 1.950 1.950 2.000 1.887 2.000 C 1.825 2.000 1.775 1.950 1.775 1.887 C 1.775 1.825 1.825 1.775 1.887 1.775 M 0.113 1.775 C 0.175 1.775 0.225 1.825 0.225 1.887 C 0.225 1.950 0.175 2.000 0.113 2.000 C 0.050 2.000 0.000 1.950 0.000 1.887 C 0.000 1.825 0.050 1.775 0.113 1.775"" style=""fill:none;stroke:black;stroke-width:0.012"" />
</g>
</svg>
".
Proof. vm_compute. reflexivity. Abort.

(** designs/common/circle_with_center_rectangle.hfd:1-67 *)
Definition circle_with_center_rectangleHfd : design FNum :=
  plain 20 12 [onePart "circle_with_center_rectangle" (fun _ => PartRender testOps [] [draw [offsetT Larger o35] [move0 (fz 0); ("circle", nums [("radius", fz 5)])]; rectangle [offsetT Smaller o35; MoveT testOps (pt 5 5) AMiddleMiddle] half t2] (pt 0 0))].
(** designs_rendered/circle_with_center_rectangle_000.svg:1-9 *)
Goal sheet0 circle_with_center_rectangleHfd =
"<?xml version=""1.0""?>
	<!-- Generated by github.com/dustismo/heavyfishdesign -->
	<svg width=""20.000in"" height=""12.000in"" viewBox=""0.000 0.000 20.000 12.000""
    	xmlns=""http://www.w3.org/2000/svg""
		xmlns:xlink=""http://www.w3.org/1999/xlink"">
	<g transform=""translate(0.100 0.100)"">
<path id=""circle_with_center_rectangle"" d=""M 5.003 0.000 C 3.152 0.000 1.535 1.006 0.670 2.500 C 0.244 3.237 0.000 4.092 0.000 5.003 C 0.000 6.855 1.006 8.472 2.500 9.337 C 3.237 9.763 4.092 10.007 5.003 10.007 C 6.855 10.007 8.472 9.001 9.337 7.507 C 9.763 6.770 10.007 5.915 10.007 5.003 C 10.007 3.152 9.001 1.535 7.507 0.670 C 6.770 0.244 5.915 0.000 5.003 0.000 M 5.248 5.102 L 5.248 4.905 L 4.755 4.905 L 4.755 5.098 L 5.252 5.098"" style=""fill:none;stroke:black;stroke-width:0.012"" />
</g>
</svg>
".
Proof. vm_compute. reflexivity. Abort.

(** designs/common/rectangle_with_center_hole.hfd:1-69 *)
Definition rectangle_with_center_holeHfd : design FNum :=
  plain 20 12 [onePart "rectangle_with_center_hole" (fun _ => PartRender testOps [] [draw [offsetT Larger o35] [move0 (fz 0); ("rectangle", nums [("width", fz 5); ("height", fz 6)])]; rectangle [offsetT Smaller o35; MoveT testOps (F (div (fz 5) (fz 2)) (div (fz 6) (fz 2))) AMiddleMiddle] half t2] (pt 0 0))].
(** designs_rendered/rectangle_with_center_hole_000.svg:1-9 *)
Goal sheet0 rectangle_with_center_holeHfd =
"<?xml version=""1.0""?>
	<!-- Generated by github.com/dustismo/heavyfishdesign -->
	<svg width=""20.000in"" height=""12.000in"" viewBox=""0.000 0.000 20.000 12.000""
    	xmlns=""http://www.w3.org/2000/svg""
		xmlns:xlink=""http://www.w3.org/1999/xlink"">
	<g transform=""translate(0.100 0.100)"">
<path id=""rectangle_with_center_hole"" d=""M 0.000 0.000 L 0.000 6.007 L 5.007 6.007 L 5.007 0.000 L 0.000 0.000 M 2.752 3.098 L 2.255 3.098 L 2.255 2.905 L 2.748 2.905 L 2.748 3.102"" style=""fill:none;stroke:black;stroke-width:0.012"" />
</g>
</svg>
".
Proof. vm_compute. reflexivity. Abort.

(** designs/joints/line.hfd:1-35 *)
Definition lineHfd : design FNum :=
  mkDesign None None None None [onePart "4fd2b7e1acf57e97" (fun _ => PartRender testOps [] [edgeLine (pt 0 0) (pt 1 1)] (pt 0 0))].
(** designs_rendered/line_000.svg:1-9 *)
Goal sheet0 lineHfd =
"<?xml version=""1.0""?>
	<!-- Generated by github.com/dustismo/heavyfishdesign -->
	<svg width=""20.000in"" height=""12.000in"" viewBox=""0.000 0.000 20.000 12.000""
    	xmlns=""http://www.w3.org/2000/svg""
		xmlns:xlink=""http://www.w3.org/1999/xlink"">
	<g transform=""translate(0.100 0.100)"">
<path id=""4fd2b7e1acf57e97"" d=""M 0.000 0.000 L 1.000 1.000"" style=""fill:none;stroke:black;stroke-width:0.012"" />
</g>
</svg>
".
Proof. vm_compute. reflexivity. Abort.

(** designs/joints/tab_joint_plug.hfd:1-53 *)
Definition tab_joint_plugHfd : design FNum :=
  mkDesign None None None None [onePart "ba9ca1b66631ff2a" (fun _ => PartRender testOps [] [(fun cursor => path1 (BasicEdge testOps testTrig [] (fun w => let s := div (Num.sub w half) (fz 2) in [draw [] [move0 t2; rel s (fz 0); rel (fz 0) (opp t2); rel half (fz 0); rel (fz 0) t2; rel s (fz 0)]]) (pt 0 0) (pt 1 1) AOrigin cursor))] (pt 0 0))].
(** designs_rendered/tab_joint_plug_000.svg:1-9 *)
Goal sheet0 tab_joint_plugHfd =
"<?xml version=""1.0""?>
	<!-- Generated by github.com/dustismo/heavyfishdesign -->
	<svg width=""20.000in"" height=""12.000in"" viewBox=""0.000 0.000 20.000 12.000""
    	xmlns=""http://www.w3.org/2000/svg""
		xmlns:xlink=""http://www.w3.org/1999/xlink"">
	<g transform=""translate(0.100 0.100)"">
<path id=""ba9ca1b66631ff2a"" d=""M 0.000 0.000 L 0.323 0.323 L 0.465 0.182 L 0.818 0.535 L 0.677 0.677 L 1.000 1.000"" style=""fill:none;stroke:black;stroke-width:0.012"" />
</g>
</svg>
".
Proof. vm_compute. reflexivity. Abort.

(** designs/joints/tab_joint_socket.hfd:1-51 *)
Definition tab_joint_socketHfd : design FNum :=
  mkDesign None None None None [onePart "e0580a688a89862a" (fun _ => PartRender testOps [] [(fun cursor => path1 (BasicEdge testOps testTrig [] (fun w => let s := div (Num.sub w half) (fz 2) in [draw [] [move0 (fz 0); rel s (fz 0); rel (fz 0) t2; rel half (fz 0); rel (fz 0) (opp t2); rel s (fz 0)]]) (pt 0 0) (pt 1 1) AOrigin cursor))] (pt 0 0))].
(** designs_rendered/tab_joint_socket_000.svg:1-9 *)
Goal sheet0 tab_joint_socketHfd =
"<?xml version=""1.0""?>
	<!-- Generated by github.com/dustismo/heavyfishdesign -->
	<svg width=""20.000in"" height=""12.000in"" viewBox=""0.000 0.000 20.000 12.000""
    	xmlns=""http://www.w3.org/2000/svg""
		xmlns:xlink=""http://www.w3.org/1999/xlink"">
	<g transform=""translate(0.100 0.100)"">
<path id=""e0580a688a89862a"" d=""M 0.000 0.000 L 0.323 0.323 L 0.182 0.465 L 0.535 0.818 L 0.677 0.677 L 1.000 1.000"" style=""fill:none;stroke:black;stroke-width:0.012"" />
</g>
</svg>
".
Proof. vm_compute. reflexivity. Abort.

(** designs/game_cabinet/button.hfd:1-43 *)
Definition buttonHfd : design FNum :=
  plain 20 12 [onePart "b74c4c9a3c7e12f8" (fun _ => PartRender testOps [] [draw [offsetT Smaller o35; MoveT testOps (pt 1 1) AMiddleLeft] [("circle", nums [("radius", div (flt 75 (-2) : f) (fz 2))])]] (pt 0 0))].
(** designs_rendered/button_000.svg:1-9 *)
Goal sheet0 buttonHfd =
"<?xml version=""1.0""?>
	<!-- Generated by github.com/dustismo/heavyfishdesign -->
	<svg width=""20.000in"" height=""12.000in"" viewBox=""0.000 0.000 20.000 12.000""
    	xmlns=""http://www.w3.org/2000/svg""
		xmlns:xlink=""http://www.w3.org/1999/xlink"">
	<g transform=""translate(0.100 0.100)"">
<path id=""b74c4c9a3c7e12f8"" d=""M 0.372 0.000 C 0.509 0.000 0.629 0.075 0.693 0.186 C 0.725 0.240 0.743 0.304 0.743 0.372 C 0.743 0.509 0.668 0.629 0.557 0.693 C 0.503 0.725 0.439 0.743 0.372 0.743 C 0.234 0.743 0.114 0.668 0.050 0.557 C 0.018 0.503 0.000 0.439 0.000 0.372 C 0.000 0.234 0.075 0.114 0.186 0.050 C 0.240 0.018 0.304 0.000 0.372 0.000"" style=""fill:none;stroke:black;stroke-width:0.012"" />
</g>
</svg>
".
Proof. vm_compute. reflexivity. Abort.

(** designs/joints/slot_joint.hfd:1-65 *)
Definition slot_jointHfd : design FNum :=
  mkDesign None None None None [onePart "f18419745cb091a4" (fun _ => PartRender testOps [] [draw [RotateT testOps testTrig (LineAngle testTrig (pt 0 0) (pt 2 2)) ATopLeft; MoveT testOps (pt 0 0) ATopLeft] [("move", at_ [("to", F (fz 0) (fz 0))] [] []); ("line", at_ [("to", F (half) (fz 0))] [] []); ("line", at_ [("to", F (half) (half))] [] []); ("line", at_ [("to", F (add half (flt 25 (-2) : f)) (half))] [] []); ("line", at_ [("to", F (add half (flt 25 (-2) : f)) (fz 0))] [] []); ("line", at_ [("to", F (LineLength (pt 0 0) (pt 2 2)) (fz 0))] [] [])]] (pt 0 0))].
(** designs_rendered/slot_joint_000.svg:1-9 *)
Goal sheet0 slot_jointHfd =
"<?xml version=""1.0""?>
	<!-- Generated by github.com/dustismo/heavyfishdesign -->
	<svg width=""20.000in"" height=""12.000in"" viewBox=""0.000 0.000 20.000 12.000""
    	xmlns=""http://www.w3.org/2000/svg""
		xmlns:xlink=""http://www.w3.org/1999/xlink"">
	<g transform=""translate(0.100 0.100)"">
<path id=""f18419745cb091a4"" d=""M 0.000 0.000 L 0.354 0.354 L 0.000 0.707 L 0.177 0.884 L 0.530 0.530 L 2.000 2.000"" style=""fill:none;stroke:black;stroke-width:0.012"" />
</g>
</svg>
".
Proof. vm_compute. reflexivity. Abort.
