(** Still more of the designs that the repository renders as a test of itself, see TestsDesigns.v. *)
From Coq Require Import String List ZArith Bool Arith.
From Verif Require Import Num FloatNum PathModel DrawModel SegOps TransformsModel SvgParse Bezier GeomTransforms OffsetModel Components DrawComp UnitsModel BinPack PlanSet SvgWrite Output Deliver PartSplit RenderDoc DynModel TestMath TestsDesigns TestsDesigns2 TestsDesigns3.
Import ListNotations.
Local Open Scope string_scope.

(** designs/game_cabinet/screen_panel.hfd:1-86 *)
Definition screen_panelHfd : design FNum :=
  plain 20 12 [mkPartDef "0bd1bcce084884d3" 1 (fun _ => PartRender testOps [] [fun cursor => path1 (Group [joinT true; offsetT Larger o35] [edgeLine (F (fz 0) (fz 0)) (F (fz 10) (fz 0)); plugP AOrigin (mul t2 (flt 11 (-1) : f)) (mul t2 (flt 11 (-1) : f)) (flt 3 (-1) : f) t2 t2 (F (fz 10) (fz 0)) (F (fz 10) (fz 10)); edgeLine (F (fz 10) (fz 10)) (F (fz 0) (fz 10)); plugP AOrigin (mul t2 (flt 11 (-1) : f)) (mul t2 (flt 11 (-1) : f)) (flt 3 (-1) : f) t2 t2 (F (fz 0) (fz 10)) (F (fz 0) (fz 0))] cursor); rectangle [MoveT testOps (F (div (Num.sub (fz 10) (fz 5)) (fz 2)) (div (Num.sub (fz 10) (fz 6)) (fz 2))) ATopLeft] (fz 5) (fz 6)] (pt 0 0)) (fun _ => "") (fun _ => "") []].
(** designs_rendered/screen_panel_000.svg:1-9 *)
Goal sheet0 screen_panelHfd =
"<?xml version=""1.0""?>
	<!-- Generated by github.com/dustismo/heavyfishdesign -->
	<svg width=""20.000in"" height=""12.000in"" viewBox=""0.000 0.000 20.000 12.000""
    	xmlns=""http://www.w3.org/2000/svg""
		xmlns:xlink=""http://www.w3.org/1999/xlink"">
	<g transform=""translate(0.100 0.100)"">
<path id=""0bd1bcce084884d3"" d=""M 10.007 3.850 L 10.007 4.157 L 9.807 4.157 L 9.807 4.253 L 9.807 4.350 L 10.007 4.350 L 10.007 4.657 L 9.807 4.657 L 9.807 4.753 L 9.807 4.850 L 10.007 4.850 L 10.007 5.157 L 9.807 5.157 L 9.807 5.253 L 9.807 5.350 L 10.007 5.350 L 10.007 5.657 L 9.807 5.657 L 9.807 5.753 L 9.807 5.850 L 10.007 5.850 L 10.007 6.157 L 9.807 6.157 L 9.807 6.253 L 9.807 6.350 L 10.007 6.350 L 10.007 6.657 L 9.807 6.657 L 9.807 6.753 L 9.807 6.850 L 10.007 6.850 L 10.007 7.157 L 9.807 7.157 L 9.807 7.253 L 9.807 7.350 L 10.007 7.350 L 10.007 7.657 L 9.807 7.657 L 9.807 7.753 L 9.807 7.850 L 10.007 7.850 L 10.007 8.157 L 9.807 8.157 L 9.807 8.254 L 9.807 8.350 L 10.007 8.350 L 10.007 8.657 L 9.807 8.657 L 9.807 8.754 L 9.807 8.850 L 10.007 8.850 L 10.007 9.157 L 9.807 9.157 L 9.807 9.254 L 9.807 9.350 L 10.007 9.350 L 10.007 9.657 L 9.807 9.657 L 9.807 9.754 L 9.807 10.007 L 0.200 10.007 L 0.200 9.754 L 0.200 9.657 L 0.000 9.657 L 0.000 9.350 L 0.200 9.350 L 0.200 9.254 L 0.200 9.157 L 0.000 9.157 L 0.000 8.850 L 0.200 8.850 L 0.200 8.754 L 0.200 8.657 L 0.000 8.657 L 0.000 8.350 L 0.200 8.350 L 0.200 8.254 L 0.200 8.157 L 0.000 8.157 L 0.000 7.850 L 0.200 7.850 L 0.200 7.753 L 0.200 7.657 L 0.000 7.657 L 0.000 7.350 L 0.200 7.350 L 0.200 7.253 L 0.200 7.157 L 0.000 7.157 L 0.000 6.850 L 0.200 6.850 L 0.200 6.753 L 0.200 6.657 L 0.000 6.657 L 0.000 6.350 L 0.200 6.350 L 0.200 6.253 L 0.200 6.157 L 0.000 6.157 L 0.000 5.850 L 0.200 5.850 L 0.200 5.753 L 0.200 5.657 L 0.000 5.657 L 0.000 5.350 L 0.200 5.350 L 0.200 5.253 L 0.200 5.157 L 0.000 5.157 L 0.000 4.850 L 0.200 4.850 L 0.200 4.753 L 0.200 4.657 L 0.000 4.657 L 0.000 4.350 L 0.200 4.350 L 0.200 4.253 L 0.200 4.157 L 0.000 4.157 L 0.000 3.850 L 0.200 3.850 L 0.200 3.753 L 0.200 3.657 L 0.000 3.657 L 0.000 3.350 L 0.200 3.350 L 0.200 3.253 L 0.200 3.157 L 0.000 3.157 L 0.000 2.850 L 0.200 2.850 L 0.200 2.753 L 0.200 2.657 L 0.000 2.657 L 0.000 2.350 L 0.200 2.350 L 0.200 2.253 L 0.200 2.157 L 0.000 2.157 L 0.000 1.850 L 0.200 1.850 L 0.200 1.754 L 0.200 1.657 L 0.000 1.657 L 0.000 1.350 L 0.200 1.350 L 0.200 1.254 L 0.200 1.157 L 0.000 1.157 L 0.000 0.850 L 0.200 0.850 L 0.200 0.753 L 0.200 0.657 L 0.000 0.657 L 0.000 0.350 L 0.200 0.350 L 0.200 0.254 L 0.200 0.000 L 9.807 0.000 L 9.807 0.254 L 9.807 0.350 L 10.007 0.350 L 10.007 0.657 L 9.807 0.657 L 9.807 0.753 L 9.807 0.850 L 10.007 0.850 L 10.007 1.157 L 9.807 1.157 L 9.807 1.254 L 9.807 1.350 L 10.007 1.350 L 10.007 1.657 L 9.807 1.657 L 9.807 1.754 L 9.807 1.850 L 10.007 1.850 L 10.007 2.157 L 9.807 2.157 L 9.807 2.253 L 9.807 2.350 L 10.007 2.350 L 10.007 2.657 L 9.807 2.657 L 9.807 2.753 L 9.807 2.850 L 10.007 2.850 L 10.007 3.157 L 9.807 3.157 L 9.807 3.253 L 9.807 3.350 L 10.007 3.350 L 10.007 3.657 L 9.807 3.657 L 9.807 3.753 L 9.807 3.850 L 10.007 3.850 M 2.503 2.004 L 7.503 2.004 L 7.503 8.004 L 2.503 8.004 L 2.503 2.003"" style=""fill:none;stroke:black;stroke-width:0.012"" />
</g>
</svg>
".
Proof. vm_compute. reflexivity. Abort.

(** designs/house/side.hfd:1-75 *)
Definition sideHfd : design FNum :=
  plain 20 12 [mkPartDef "house_side" 1 (fun _ => PartRender testOps [joinT true; offsetT Larger o35] [plugP AOrigin (mul t2 (flt 11 (-1) : f)) (mul t2 (flt 11 (-1) : f)) (flt 3 (-1) : f) t2 t2 (F (fz 0) (fz 0)) (F (fz 5) (fz 0)); socketP AStartPoint (div (add t2 (flt 3 (-1) : f)) (fz 2)) (add (div (add t2 (flt 3 (-1) : f)) (fz 2)) t2) (flt 3 (-1) : f) t2 t2 (F (fz 5) (fz 0)) (F (fz 5) (fz 6)); plugP ABottomLeft (mul t2 (flt 11 (-1) : f)) (mul t2 (flt 11 (-1) : f)) (flt 3 (-1) : f) t2 t2 (F (fz 5) (fz 6)) (F (div (fz 5) (fz 2)) (add (fz 6) (fz 4))); plugP ABottomLeft (mul t2 (flt 11 (-1) : f)) (mul t2 (flt 11 (-1) : f)) (flt 3 (-1) : f) t2 t2 (F (div (fz 5) (fz 2)) (add (fz 6) (fz 4))) (F (fz 0) (fz 6)); socketP AStartPoint (add (div (add t2 (flt 3 (-1) : f)) (fz 2)) t2) (div (add t2 (flt 3 (-1) : f)) (fz 2)) (flt 3 (-1) : f) t2 t2 (F (fz 0) (fz 6)) (F (fz 0) (fz 0))] (pt 0 0)) (fun _ => "") (fun _ => "") []].
(** designs_rendered/side_000.svg:1-9 *)
Goal sheet0 sideHfd =
"<?xml version=""1.0""?>
	<!-- Generated by github.com/dustismo/heavyfishdesign -->
	<svg width=""20.000in"" height=""12.000in"" viewBox=""0.000 0.000 20.000 12.000""
    	xmlns=""http://www.w3.org/2000/svg""
		xmlns:xlink=""http://www.w3.org/1999/xlink"">
	<g transform=""translate(0.100 0.100)"">
<path id=""house_side"" d=""M 2.503 10.010 L 2.311 9.701 L 2.259 9.620 L 2.090 9.726 L 1.927 9.465 L 2.097 9.359 L 2.046 9.277 L 1.994 9.196 L 1.825 9.302 L 1.662 9.041 L 1.832 8.935 L 1.781 8.853 L 1.729 8.772 L 1.560 8.878 L 1.397 8.617 L 1.567 8.511 L 1.516 8.429 L 1.464 8.348 L 1.295 8.454 L 1.132 8.193 L 1.302 8.087 L 1.251 8.005 L 1.199 7.924 L 1.030 8.030 L 0.867 7.769 L 1.037 7.663 L 0.986 7.581 L 0.934 7.500 L 0.765 7.606 L 0.602 7.345 L 0.772 7.239 L 0.721 7.157 L 0.669 7.076 L 0.500 7.182 L 0.337 6.921 L 0.507 6.815 L 0.456 6.733 L 0.404 6.652 L 0.235 6.758 L 0.072 6.497 L 0.242 6.391 L 0.191 6.309 L 0.000 6.005 L 0.000 5.404 L 0.000 5.300 L 0.200 5.300 L 0.200 5.007 L 0.000 5.007 L 0.000 4.904 L 0.000 4.800 L 0.200 4.800 L 0.200 4.507 L 0.000 4.507 L 0.000 4.404 L 0.000 4.300 L 0.200 4.300 L 0.200 4.007 L 0.000 4.007 L 0.000 3.903 L 0.000 3.800 L 0.200 3.800 L 0.200 3.507 L 0.000 3.507 L 0.000 3.403 L 0.000 3.300 L 0.200 3.300 L 0.200 3.007 L 0.000 3.007 L 0.000 2.903 L 0.000 2.800 L 0.200 2.800 L 0.200 2.507 L 0.000 2.507 L 0.000 2.403 L 0.000 2.300 L 0.200 2.300 L 0.200 2.007 L 0.000 2.007 L 0.000 1.903 L 0.000 1.800 L 0.200 1.800 L 0.200 1.507 L 0.000 1.507 L 0.000 1.403 L 0.000 1.300 L 0.200 1.300 L 0.200 1.007 L 0.000 1.007 L 0.000 0.903 L 0.000 0.800 L 0.200 0.800 L 0.200 0.507 L 0.000 0.507 L 0.000 0.404 L 0.000 0.200 L 0.254 0.200 L 0.350 0.200 L 0.350 0.000 L 0.657 0.000 L 0.657 0.200 L 0.753 0.200 L 0.850 0.200 L 0.850 0.000 L 1.157 0.000 L 1.157 0.200 L 1.254 0.200 L 1.350 0.200 L 1.350 0.000 L 1.657 0.000 L 1.657 0.200 L 1.754 0.200 L 1.850 0.200 L 1.850 0.000 L 2.157 0.000 L 2.157 0.200 L 2.253 0.200 L 2.350 0.200 L 2.350 0.000 L 2.657 0.000 L 2.657 0.200 L 2.753 0.200 L 2.850 0.200 L 2.850 0.000 L 3.157 0.000 L 3.157 0.200 L 3.253 0.200 L 3.350 0.200 L 3.350 0.000 L 3.657 0.000 L 3.657 0.200 L 3.753 0.200 L 3.850 0.200 L 3.850 0.000 L 4.157 0.000 L 4.157 0.200 L 4.253 0.200 L 4.350 0.200 L 4.350 0.000 L 4.657 0.000 L 4.657 0.200 L 4.753 0.200 L 5.007 0.200 L 5.007 0.404 L 5.007 0.507 L 4.807 0.507 L 4.807 0.800 L 5.007 0.800 L 5.007 0.903 L 5.007 1.007 L 4.807 1.007 L 4.807 1.300 L 5.007 1.300 L 5.007 1.403 L 5.007 1.507 L 4.807 1.507 L 4.807 1.800 L 5.007 1.800 L 5.007 1.903 L 5.007 2.007 L 4.807 2.007 L 4.807 2.300 L 5.007 2.300 L 5.007 2.403 L 5.007 2.507 L 4.807 2.507 L 4.807 2.800 L 5.007 2.800 L 5.007 2.903 L 5.007 3.007 L 4.807 3.007 L 4.807 3.300 L 5.007 3.300 L 5.007 3.403 L 5.007 3.507 L 4.807 3.507 L 4.807 3.800 L 5.007 3.800 L 5.007 3.903 L 5.007 4.007 L 4.807 4.007 L 4.807 4.300 L 5.007 4.300 L 5.007 4.404 L 5.007 4.507 L 4.807 4.507 L 4.807 4.800 L 5.007 4.800 L 5.007 4.904 L 5.007 5.007 L 4.807 5.007 L 4.807 5.300 L 5.007 5.300 L 5.007 5.404 L 5.007 6.005 L 4.816 6.309 L 4.765 6.391 L 4.935 6.497 L 4.772 6.758 L 4.603 6.652 L 4.551 6.733 L 4.500 6.815 L 4.670 6.921 L 4.507 7.182 L 4.338 7.076 L 4.286 7.157 L 4.235 7.239 L 4.405 7.345 L 4.242 7.606 L 4.073 7.500 L 4.021 7.581 L 3.970 7.663 L 4.140 7.769 L 3.977 8.030 L 3.808 7.924 L 3.756 8.005 L 3.705 8.087 L 3.875 8.193 L 3.712 8.454 L 3.543 8.348 L 3.491 8.429 L 3.440 8.511 L 3.610 8.617 L 3.447 8.878 L 3.278 8.772 L 3.226 8.853 L 3.175 8.935 L 3.345 9.041 L 3.182 9.302 L 3.013 9.196 L 2.961 9.277 L 2.910 9.359 L 3.080 9.465 L 2.917 9.726 L 2.748 9.620 L 2.696 9.701 L 2.503 10.010"" style=""fill:none;stroke:black;stroke-width:0.012"" />
</g>
</svg>
".
Proof. vm_compute. reflexivity. Abort.

(** designs/box/lid.hfd:1-68 *)
Definition lidHfd : design FNum :=
  plain 20 12 [mkPartDef "inner_rectangle" 1 (fun _ => PartRender testOps [] [rectHole (Num.sub (Num.sub (fz 5) (mul t2 (fz 2))) (mul t2 (flt 1 (-1) : f))) (Num.sub (Num.sub (fz 6) (mul t2 (fz 2))) (mul t2 (flt 1 (-1) : f))) (flt 3 (-1) : f) t2] (pt 0 0)) (fun _ => "") (fun _ => "") []; mkPartDef "outer_rectangle" 1 (fun _ => PartRender testOps [] [rectHole (fz 5) (fz 6) (flt 3 (-1) : f) t2] (pt 0 0)) (fun _ => "") (fun _ => "") []; mkPartDef "handle" 1 (fun _ => PartRender testOps [] [fun cursor => path1 (Group [] [stem topper (flt 3 (-1) : f) (mul t2 (fz 2))] cursor)] (pt 0 0)) (fun _ => "") (fun _ => "") []].
(** designs_rendered/lid_000.svg:1-15 *)
Goal sheet0 lidHfd =
"<?xml version=""1.0""?>
	<!-- Generated by github.com/dustismo/heavyfishdesign -->
	<svg width=""20.000in"" height=""12.000in"" viewBox=""0.000 0.000 20.000 12.000""
    	xmlns=""http://www.w3.org/2000/svg""
		xmlns:xlink=""http://www.w3.org/1999/xlink"">
	<g transform=""translate(0.100 0.100)"">
<path id=""inner_rectangle"" d=""M 0.000 0.000 L 0.000 5.587 L 4.587 5.587 L 4.587 0.000 L 0.000 0.000 M 2.442 2.888 L 2.145 2.888 L 2.145 2.695 L 2.438 2.695 L 2.438 2.892"" style=""fill:none;stroke:black;stroke-width:0.012"" />
</g>
<g transform=""translate(4.887 0.100)"">
<path id=""outer_rectangle"" d=""M 0.000 0.000 L 0.000 6.007 L 5.007 6.007 L 5.007 0.000 L 0.000 0.000 M 2.652 3.098 L 2.355 3.098 L 2.355 2.905 L 2.648 2.905 L 2.648 3.102"" style=""fill:none;stroke:black;stroke-width:0.012"" />
</g>
<g transform=""translate(0.100 5.887)"">
<path id=""handle"" d=""M 0.971 0.681 L 0.971 1.081 L 0.664 1.081 L 0.664 0.681 L 0.170 0.681 C 0.076 0.681 0.000 0.605 0.000 0.511 L 0.000 0.170 C 0.000 0.076 0.076 0.000 0.170 0.000 C 0.403 0.199 0.617 0.285 0.818 0.287 C 1.018 0.285 1.233 0.199 1.465 0.000 C 1.559 0.000 1.635 0.076 1.635 0.170 L 1.635 0.511 C 1.635 0.605 1.559 0.681 1.465 0.681 L 0.971 0.681"" style=""fill:none;stroke:black;stroke-width:0.012"" />
</g>
</svg>
".
Proof. vm_compute. reflexivity. Abort.

(** designs/box/box_no_lid.hfd:1-53 *)
Definition box_no_lidHfd : design FNum :=
  plain 20 12 [mkPartDef "front_flat_top" 2 (fun _ => PartRender testOps [] [fun cursor => path1 (Group [joinT true; offsetT Larger o35] [edgeLine (F (fz 0) (fz 0)) (F (fz 2) (fz 0)); plugP AOrigin (div (add t2 t2) (fz 2)) (add (div (add t2 t2) (fz 2)) t2) t2 t2 t2 (F (fz 2) (fz 0)) (F (fz 2) (fz 3)); plugP AOrigin (mul t2 (flt 11 (-1) : f)) (mul t2 (flt 11 (-1) : f)) t2 t2 t2 (F (fz 2) (fz 3)) (F (fz 0) (fz 3)); plugP AOrigin (add (div (add t2 t2) (fz 2)) t2) (div (add t2 t2) (fz 2)) t2 t2 t2 (F (fz 0) (fz 3)) (F (fz 0) (fz 0))] cursor)] (pt 0 0)) (fun _ => "") (fun _ => "") []; mkPartDef "side_flat_top" 2 (fun _ => PartRender testOps [] [fun cursor => path1 (Group [joinT true; offsetT Larger o35] [edgeLine (F (fz 0) (fz 0)) (F (fz 2) (fz 0)); socketP AStartPoint (div (add t2 t2) (fz 2)) (add (div (add t2 t2) (fz 2)) t2) t2 t2 t2 (F (fz 2) (fz 0)) (F (fz 2) (fz 3)); plugP AOrigin (mul t2 (flt 11 (-1) : f)) (mul t2 (flt 11 (-1) : f)) t2 t2 t2 (F (fz 2) (fz 3)) (F (fz 0) (fz 3)); socketP AStartPoint (add (div (add t2 t2) (fz 2)) t2) (div (add t2 t2) (fz 2)) t2 t2 t2 (F (fz 0) (fz 3)) (F (fz 0) (fz 0))] cursor)] (pt 0 0)) (fun _ => "") (fun _ => "") []; mkPartDef "bottom" 1 (fun _ => PartRender testOps [] [fun cursor => path1 (Group [joinT true; offsetT Larger o35] [socketP AStartPoint (mul t2 (flt 11 (-1) : f)) (mul t2 (flt 11 (-1) : f)) t2 t2 t2 (F (fz 0) (fz 0)) (F (fz 2) (fz 0)); socketP AStartPoint (mul t2 (flt 11 (-1) : f)) (mul t2 (flt 11 (-1) : f)) t2 t2 t2 (F (fz 2) (fz 0)) (F (fz 2) (fz 2)); socketP AStartPoint (mul t2 (flt 11 (-1) : f)) (mul t2 (flt 11 (-1) : f)) t2 t2 t2 (F (fz 2) (fz 2)) (F (fz 0) (fz 2)); socketP AStartPoint (mul t2 (flt 11 (-1) : f)) (mul t2 (flt 11 (-1) : f)) t2 t2 t2 (F (fz 0) (fz 2)) (F (fz 0) (fz 0))] cursor)] (pt 0 0)) (fun _ => "") (fun _ => "") []].
(** designs_rendered/box_no_lid_000.svg:1-21 *)
Goal sheet0 box_no_lidHfd =
"<?xml version=""1.0""?>
	<!-- Generated by github.com/dustismo/heavyfishdesign -->
	<svg width=""20.000in"" height=""12.000in"" viewBox=""0.000 0.000 20.000 12.000""
    	xmlns=""http://www.w3.org/2000/svg""
		xmlns:xlink=""http://www.w3.org/1999/xlink"">
	<g transform=""translate(0.100 0.100)"">
<path id=""front_flat_top"" d=""M 1.807 2.807 L 1.807 2.403 L 1.807 2.307 L 2.007 2.307 L 2.007 2.100 L 1.807 2.100 L 1.807 2.003 L 1.807 1.907 L 2.007 1.907 L 2.007 1.700 L 1.807 1.700 L 1.807 1.604 L 1.807 1.507 L 2.007 1.507 L 2.007 1.300 L 1.807 1.300 L 1.807 1.204 L 1.807 1.107 L 2.007 1.107 L 2.007 0.900 L 1.807 0.900 L 1.807 0.803 L 1.807 0.707 L 2.007 0.707 L 2.007 0.500 L 1.807 0.500 L 1.807 0.404 L 1.807 0.000 L 0.200 0.000 L 0.200 0.404 L 0.200 0.500 L 0.000 0.500 L 0.000 0.707 L 0.200 0.707 L 0.200 0.803 L 0.200 0.900 L 0.000 0.900 L 0.000 1.107 L 0.200 1.107 L 0.200 1.204 L 0.200 1.300 L 0.000 1.300 L 0.000 1.507 L 0.200 1.507 L 0.200 1.604 L 0.200 1.700 L 0.000 1.700 L 0.000 1.907 L 0.200 1.907 L 0.200 2.003 L 0.200 2.100 L 0.000 2.100 L 0.000 2.307 L 0.200 2.307 L 0.200 2.403 L 0.200 2.807 L 0.404 2.807 L 0.500 2.807 L 0.500 3.007 L 0.707 3.007 L 0.707 2.807 L 0.803 2.807 L 0.900 2.807 L 0.900 3.007 L 1.107 3.007 L 1.107 2.807 L 1.204 2.807 L 1.300 2.807 L 1.300 3.007 L 1.507 3.007 L 1.507 2.807 L 1.604 2.807 L 1.807 2.807"" style=""fill:none;stroke:black;stroke-width:0.012"" />
</g>
<g transform=""translate(0.100 3.307)"">
<path id=""front_flat_top"" d=""M 1.807 2.807 L 1.807 2.403 L 1.807 2.307 L 2.007 2.307 L 2.007 2.100 L 1.807 2.100 L 1.807 2.003 L 1.807 1.907 L 2.007 1.907 L 2.007 1.700 L 1.807 1.700 L 1.807 1.604 L 1.807 1.507 L 2.007 1.507 L 2.007 1.300 L 1.807 1.300 L 1.807 1.204 L 1.807 1.107 L 2.007 1.107 L 2.007 0.900 L 1.807 0.900 L 1.807 0.803 L 1.807 0.707 L 2.007 0.707 L 2.007 0.500 L 1.807 0.500 L 1.807 0.404 L 1.807 0.000 L 0.200 0.000 L 0.200 0.404 L 0.200 0.500 L 0.000 0.500 L 0.000 0.707 L 0.200 0.707 L 0.200 0.803 L 0.200 0.900 L 0.000 0.900 L 0.000 1.107 L 0.200 1.107 L 0.200 1.204 L 0.200 1.300 L 0.000 1.300 L 0.000 1.507 L 0.200 1.507 L 0.200 1.604 L 0.200 1.700 L 0.000 1.700 L 0.000 1.907 L 0.200 1.907 L 0.200 2.003 L 0.200 2.100 L 0.000 2.100 L 0.000 2.307 L 0.200 2.307 L 0.200 2.403 L 0.200 2.807 L 0.404 2.807 L 0.500 2.807 L 0.500 3.007 L 0.707 3.007 L 0.707 2.807 L 0.803 2.807 L 0.900 2.807 L 0.900 3.007 L 1.107 3.007 L 1.107 2.807 L 1.204 2.807 L 1.300 2.807 L 1.300 3.007 L 1.507 3.007 L 1.507 2.807 L 1.604 2.807 L 1.807 2.807"" style=""fill:none;stroke:black;stroke-width:0.012"" />
</g>
<g transform=""translate(0.100 6.514)"">
<path id=""side_flat_top"" d=""M 1.507 2.807 L 1.604 2.807 L 2.007 2.807 L 2.007 2.403 L 2.007 2.300 L 1.807 2.300 L 1.807 2.107 L 2.007 2.107 L 2.007 2.003 L 2.007 1.900 L 1.807 1.900 L 1.807 1.707 L 2.007 1.707 L 2.007 1.604 L 2.007 1.500 L 1.807 1.500 L 1.807 1.307 L 2.007 1.307 L 2.007 1.204 L 2.007 1.100 L 1.807 1.100 L 1.807 0.907 L 2.007 0.907 L 2.007 0.803 L 2.007 0.700 L 1.807 0.700 L 1.807 0.507 L 2.007 0.507 L 2.007 0.404 L 2.007 0.000 L 0.000 0.000 L 0.000 0.404 L 0.000 0.507 L 0.200 0.507 L 0.200 0.700 L 0.000 0.700 L 0.000 0.803 L 0.000 0.907 L 0.200 0.907 L 0.200 1.100 L 0.000 1.100 L 0.000 1.204 L 0.000 1.307 L 0.200 1.307 L 0.200 1.500 L 0.000 1.500 L 0.000 1.604 L 0.000 1.707 L 0.200 1.707 L 0.200 1.900 L 0.000 1.900 L 0.000 2.003 L 0.000 2.107 L 0.200 2.107 L 0.200 2.300 L 0.000 2.300 L 0.000 2.403 L 0.000 2.807 L 0.404 2.807 L 0.500 2.807 L 0.500 3.007 L 0.707 3.007 L 0.707 2.807 L 0.803 2.807 L 0.900 2.807 L 0.900 3.007 L 1.107 3.007 L 1.107 2.807 L 1.204 2.807 L 1.300 2.807 L 1.300 3.007 L 1.507 3.007 L 1.507 2.807"" style=""fill:none;stroke:black;stroke-width:0.012"" />
</g>
<g transform=""translate(2.307 0.100)"">
<path id=""side_flat_top"" d=""M 1.507 2.807 L 1.604 2.807 L 2.007 2.807 L 2.007 2.403 L 2.007 2.300 L 1.807 2.300 L 1.807 2.107 L 2.007 2.107 L 2.007 2.003 L 2.007 1.900 L 1.807 1.900 L 1.807 1.707 L 2.007 1.707 L 2.007 1.604 L 2.007 1.500 L 1.807 1.500 L 1.807 1.307 L 2.007 1.307 L 2.007 1.204 L 2.007 1.100 L 1.807 1.100 L 1.807 0.907 L 2.007 0.907 L 2.007 0.803 L 2.007 0.700 L 1.807 0.700 L 1.807 0.507 L 2.007 0.507 L 2.007 0.404 L 2.007 0.000 L 0.000 0.000 L 0.000 0.404 L 0.000 0.507 L 0.200 0.507 L 0.200 0.700 L 0.000 0.700 L 0.000 0.803 L 0.000 0.907 L 0.200 0.907 L 0.200 1.100 L 0.000 1.100 L 0.000 1.204 L 0.000 1.307 L 0.200 1.307 L 0.200 1.500 L 0.000 1.500 L 0.000 1.604 L 0.000 1.707 L 0.200 1.707 L 0.200 1.900 L 0.000 1.900 L 0.000 2.003 L 0.000 2.107 L 0.200 2.107 L 0.200 2.300 L 0.000 2.300 L 0.000 2.403 L 0.000 2.807 L 0.404 2.807 L 0.500 2.807 L 0.500 3.007 L 0.707 3.007 L 0.707 2.807 L 0.803 2.807 L 0.900 2.807 L 0.900 3.007 L 1.107 3.007 L 1.107 2.807 L 1.204 2.807 L 1.300 2.807 L 1.300 3.007 L 1.507 3.007 L 1.507 2.807"" style=""fill:none;stroke:black;stroke-width:0.012"" />
</g>
<g transform=""translate(0.100 9.721)"">
<path id=""bottom"" d=""M 1.807 1.100 L 1.807 0.907 L 2.007 0.907 L 2.007 0.803 L 2.007 0.700 L 1.807 0.700 L 1.807 0.507 L 2.007 0.507 L 2.007 0.404 L 2.007 0.000 L 1.604 0.000 L 1.500 0.000 L 1.500 0.200 L 1.307 0.200 L 1.307 0.000 L 1.204 0.000 L 1.100 0.000 L 1.100 0.200 L 0.907 0.200 L 0.907 0.000 L 0.803 0.000 L 0.700 0.000 L 0.700 0.200 L 0.507 0.200 L 0.507 0.000 L 0.404 0.000 L 0.000 0.000 L 0.000 0.404 L 0.000 0.507 L 0.200 0.507 L 0.200 0.700 L 0.000 0.700 L 0.000 0.803 L 0.000 0.907 L 0.200 0.907 L 0.200 1.100 L 0.000 1.100 L 0.000 1.204 L 0.000 1.307 L 0.200 1.307 L 0.200 1.500 L 0.000 1.500 L 0.000 1.604 L 0.000 2.007 L 0.404 2.007 L 0.507 2.007 L 0.507 1.807 L 0.700 1.807 L 0.700 2.007 L 0.803 2.007 L 0.907 2.007 L 0.907 1.807 L 1.100 1.807 L 1.100 2.007 L 1.204 2.007 L 1.307 2.007 L 1.307 1.807 L 1.500 1.807 L 1.500 2.007 L 1.604 2.007 L 2.007 2.007 L 2.007 1.604 L 2.007 1.500 L 1.807 1.500 L 1.807 1.307 L 2.007 1.307 L 2.007 1.204 L 2.007 1.100 L 1.807 1.100"" style=""fill:none;stroke:black;stroke-width:0.012"" />
</g>
</svg>
".
Proof. vm_compute. reflexivity. Abort.
