(** Still more of the designs that the repository renders as a test of itself, see TestsDesigns.v. *)
From Coq Require Import String List ZArith Bool Arith.
From Verif Require Import Num FloatNum PathModel DrawModel SegOps TransformsModel SvgParse Bezier GeomTransforms OffsetModel Components DrawComp UnitsModel BinPack PlanSet SvgWrite Output Deliver PartSplit RenderDoc DynModel TestMath TestsDesigns TestsDesigns2 TestsDesigns3.
Import ListNotations.
Local Open Scope string_scope.

(** designs/house/floor.hfd:1-63 *)
Definition floorHfd : design FNum :=
  plain 20 12 [mkPartDef "house_floor" 1 (fun _ => PartRender testOps [joinT true; offsetT Larger o35] [socketP AStartPoint (mul t2 (flt 11 (-1) : f)) (mul t2 (flt 11 (-1) : f)) (flt 3 (-1) : f) t2 t2 (F (fz 0) (fz 0)) (F (fz 5) (fz 0)); socketP AStartPoint (mul t2 (flt 11 (-1) : f)) (mul t2 (flt 11 (-1) : f)) (flt 3 (-1) : f) t2 t2 (F (fz 5) (fz 0)) (F (fz 5) (fz 6)); socketP AStartPoint (mul t2 (flt 11 (-1) : f)) (mul t2 (flt 11 (-1) : f)) (flt 3 (-1) : f) t2 t2 (F (fz 5) (fz 6)) (F (fz 0) (fz 6)); socketP AStartPoint (mul t2 (flt 11 (-1) : f)) (mul t2 (flt 11 (-1) : f)) (flt 3 (-1) : f) t2 t2 (F (fz 0) (fz 6)) (F (fz 0) (fz 0))] (pt 0 0)) (fun _ => "") (fun _ => "") []].
(** designs_rendered/floor_000.svg:1-9 *)
Goal sheet0 floorHfd =
"<?xml version=""1.0""?>
	<!-- Generated by github.com/dustismo/heavyfishdesign -->
	<svg width=""20.000in"" height=""12.000in"" viewBox=""0.000 0.000 20.000 12.000""
    	xmlns=""http://www.w3.org/2000/svg""
		xmlns:xlink=""http://www.w3.org/1999/xlink"">
	<g transform=""translate(0.100 0.100)"">
<path id=""house_floor"" d=""M 4.150 0.200 L 3.857 0.200 L 3.857 0.000 L 3.753 0.000 L 3.650 0.000 L 3.650 0.200 L 3.357 0.200 L 3.357 0.000 L 3.253 0.000 L 3.150 0.000 L 3.150 0.200 L 2.857 0.200 L 2.857 0.000 L 2.753 0.000 L 2.650 0.000 L 2.650 0.200 L 2.357 0.200 L 2.357 0.000 L 2.253 0.000 L 2.150 0.000 L 2.150 0.200 L 1.857 0.200 L 1.857 0.000 L 1.754 0.000 L 1.650 0.000 L 1.650 0.200 L 1.357 0.200 L 1.357 0.000 L 1.254 0.000 L 1.150 0.000 L 1.150 0.200 L 0.857 0.200 L 0.857 0.000 L 0.753 0.000 L 0.650 0.000 L 0.650 0.200 L 0.357 0.200 L 0.357 0.000 L 0.254 0.000 L 0.000 0.000 L 0.000 0.254 L 0.000 0.357 L 0.200 0.357 L 0.200 0.650 L 0.000 0.650 L 0.000 0.753 L 0.000 0.857 L 0.200 0.857 L 0.200 1.150 L 0.000 1.150 L 0.000 1.254 L 0.000 1.357 L 0.200 1.357 L 0.200 1.650 L 0.000 1.650 L 0.000 1.754 L 0.000 1.857 L 0.200 1.857 L 0.200 2.150 L 0.000 2.150 L 0.000 2.253 L 0.000 2.357 L 0.200 2.357 L 0.200 2.650 L 0.000 2.650 L 0.000 2.753 L 0.000 2.857 L 0.200 2.857 L 0.200 3.150 L 0.000 3.150 L 0.000 3.253 L 0.000 3.357 L 0.200 3.357 L 0.200 3.650 L 0.000 3.650 L 0.000 3.753 L 0.000 3.857 L 0.200 3.857 L 0.200 4.150 L 0.000 4.150 L 0.000 4.253 L 0.000 4.357 L 0.200 4.357 L 0.200 4.650 L 0.000 4.650 L 0.000 4.753 L 0.000 4.857 L 0.200 4.857 L 0.200 5.150 L 0.000 5.150 L 0.000 5.253 L 0.000 5.357 L 0.200 5.357 L 0.200 5.650 L 0.000 5.650 L 0.000 5.753 L 0.000 6.007 L 0.254 6.007 L 0.357 6.007 L 0.357 5.807 L 0.650 5.807 L 0.650 6.007 L 0.753 6.007 L 0.857 6.007 L 0.857 5.807 L 1.150 5.807 L 1.150 6.007 L 1.254 6.007 L 1.357 6.007 L 1.357 5.807 L 1.650 5.807 L 1.650 6.007 L 1.754 6.007 L 1.857 6.007 L 1.857 5.807 L 2.150 5.807 L 2.150 6.007 L 2.253 6.007 L 2.357 6.007 L 2.357 5.807 L 2.650 5.807 L 2.650 6.007 L 2.753 6.007 L 2.857 6.007 L 2.857 5.807 L 3.150 5.807 L 3.150 6.007 L 3.253 6.007 L 3.357 6.007 L 3.357 5.807 L 3.650 5.807 L 3.650 6.007 L 3.753 6.007 L 3.857 6.007 L 3.857 5.807 L 4.150 5.807 L 4.150 6.007 L 4.253 6.007 L 4.357 6.007 L 4.357 5.807 L 4.650 5.807 L 4.650 6.007 L 4.753 6.007 L 5.007 6.007 L 5.007 5.753 L 5.007 5.650 L 4.807 5.650 L 4.807 5.357 L 5.007 5.357 L 5.007 5.253 L 5.007 5.150 L 4.807 5.150 L 4.807 4.857 L 5.007 4.857 L 5.007 4.753 L 5.007 4.650 L 4.807 4.650 L 4.807 4.357 L 5.007 4.357 L 5.007 4.253 L 5.007 4.150 L 4.807 4.150 L 4.807 3.857 L 5.007 3.857 L 5.007 3.753 L 5.007 3.650 L 4.807 3.650 L 4.807 3.357 L 5.007 3.357 L 5.007 3.253 L 5.007 3.150 L 4.807 3.150 L 4.807 2.857 L 5.007 2.857 L 5.007 2.753 L 5.007 2.650 L 4.807 2.650 L 4.807 2.357 L 5.007 2.357 L 5.007 2.253 L 5.007 2.150 L 4.807 2.150 L 4.807 1.857 L 5.007 1.857 L 5.007 1.754 L 5.007 1.650 L 4.807 1.650 L 4.807 1.357 L 5.007 1.357 L 5.007 1.254 L 5.007 1.150 L 4.807 1.150 L 4.807 0.857 L 5.007 0.857 L 5.007 0.753 L 5.007 0.650 L 4.807 0.650 L 4.807 0.357 L 5.007 0.357 L 5.007 0.254 L 5.007 0.000 L 4.753 0.000 L 4.650 0.000 L 4.650 0.200 L 4.357 0.200 L 4.357 0.000 L 4.253 0.000 L 4.150 0.000 L 4.150 0.200"" style=""fill:none;stroke:black;stroke-width:0.012"" />
</g>
</svg>
".
Proof. vm_compute. reflexivity. Abort.

(** designs/house/front.hfd:1-67 *)
Definition frontHfd : design FNum :=
  plain 20 12 [mkPartDef "house_front" 1 (fun _ => PartRender testOps [joinT true; offsetT Larger o35] [plugP AOrigin (mul t2 (flt 11 (-1) : f)) (mul t2 (flt 11 (-1) : f)) (flt 3 (-1) : f) t2 t2 (F (fz 0) (fz 0)) (F (fz 5) (fz 0)); plugP AOrigin (div (add t2 (flt 3 (-1) : f)) (fz 2)) (add (div (add t2 (flt 3 (-1) : f)) (fz 2)) t2) (flt 3 (-1) : f) t2 t2 (F (fz 5) (fz 0)) (F (fz 5) (fz 6)); edgeLine (F (fz 5) (fz 6)) (F (fz 0) (fz 6)); plugP AOrigin (add (div (add t2 (flt 3 (-1) : f)) (fz 2)) t2) (div (add t2 (flt 3 (-1) : f)) (fz 2)) (flt 3 (-1) : f) t2 t2 (F (fz 0) (fz 6)) (F (fz 0) (fz 0))] (pt 0 0)) (fun _ => "") (fun _ => "") []].
(** designs_rendered/front_000.svg:1-9 *)
Goal sheet0 frontHfd =
"<?xml version=""1.0""?>
	<!-- Generated by github.com/dustismo/heavyfishdesign -->
	<svg width=""20.000in"" height=""12.000in"" viewBox=""0.000 0.000 20.000 12.000""
    	xmlns=""http://www.w3.org/2000/svg""
		xmlns:xlink=""http://www.w3.org/1999/xlink"">
	<g transform=""translate(0.100 0.100)"">
<path id=""house_front"" d=""M 2.157 0.200 L 2.157 0.000 L 1.850 0.000 L 1.850 0.200 L 1.754 0.200 L 1.657 0.200 L 1.657 0.000 L 1.350 0.000 L 1.350 0.200 L 1.254 0.200 L 1.157 0.200 L 1.157 0.000 L 0.850 0.000 L 0.850 0.200 L 0.753 0.200 L 0.657 0.200 L 0.657 0.000 L 0.350 0.000 L 0.350 0.200 L 0.254 0.200 L 0.200 0.200 L 0.200 0.404 L 0.200 0.500 L 0.000 0.500 L 0.000 0.807 L 0.200 0.807 L 0.200 0.903 L 0.200 1.000 L 0.000 1.000 L 0.000 1.307 L 0.200 1.307 L 0.200 1.403 L 0.200 1.500 L 0.000 1.500 L 0.000 1.807 L 0.200 1.807 L 0.200 1.903 L 0.200 2.000 L 0.000 2.000 L 0.000 2.307 L 0.200 2.307 L 0.200 2.403 L 0.200 2.500 L 0.000 2.500 L 0.000 2.807 L 0.200 2.807 L 0.200 2.903 L 0.200 3.000 L 0.000 3.000 L 0.000 3.307 L 0.200 3.307 L 0.200 3.403 L 0.200 3.500 L 0.000 3.500 L 0.000 3.807 L 0.200 3.807 L 0.200 3.903 L 0.200 4.000 L 0.000 4.000 L 0.000 4.307 L 0.200 4.307 L 0.200 4.404 L 0.200 4.500 L 0.000 4.500 L 0.000 4.807 L 0.200 4.807 L 0.200 4.904 L 0.200 5.000 L 0.000 5.000 L 0.000 5.307 L 0.200 5.307 L 0.200 5.404 L 0.200 6.007 L 4.807 6.007 L 4.807 5.404 L 4.807 5.307 L 5.007 5.307 L 5.007 5.000 L 4.807 5.000 L 4.807 4.904 L 4.807 4.807 L 5.007 4.807 L 5.007 4.500 L 4.807 4.500 L 4.807 4.404 L 4.807 4.307 L 5.007 4.307 L 5.007 4.000 L 4.807 4.000 L 4.807 3.903 L 4.807 3.807 L 5.007 3.807 L 5.007 3.500 L 4.807 3.500 L 4.807 3.403 L 4.807 3.307 L 5.007 3.307 L 5.007 3.000 L 4.807 3.000 L 4.807 2.903 L 4.807 2.807 L 5.007 2.807 L 5.007 2.500 L 4.807 2.500 L 4.807 2.403 L 4.807 2.307 L 5.007 2.307 L 5.007 2.000 L 4.807 2.000 L 4.807 1.903 L 4.807 1.807 L 5.007 1.807 L 5.007 1.500 L 4.807 1.500 L 4.807 1.403 L 4.807 1.307 L 5.007 1.307 L 5.007 1.000 L 4.807 1.000 L 4.807 0.903 L 4.807 0.807 L 5.007 0.807 L 5.007 0.500 L 4.807 0.500 L 4.807 0.404 L 4.807 0.200 L 4.753 0.200 L 4.657 0.200 L 4.657 0.000 L 4.350 0.000 L 4.350 0.200 L 4.253 0.200 L 4.157 0.200 L 4.157 0.000 L 3.850 0.000 L 3.850 0.200 L 3.753 0.200 L 3.657 0.200 L 3.657 0.000 L 3.350 0.000 L 3.350 0.200 L 3.253 0.200 L 3.157 0.200 L 3.157 0.000 L 2.850 0.000 L 2.850 0.200 L 2.753 0.200 L 2.657 0.200 L 2.657 0.000 L 2.350 0.000 L 2.350 0.200 L 2.253 0.200 L 2.157 0.200"" style=""fill:none;stroke:black;stroke-width:0.012"" />
</g>
</svg>
".
Proof. vm_compute. reflexivity. Abort.

(** designs/box/front_flat_top.hfd:1-64 *)
Definition front_flat_topHfd : design FNum :=
  plain 20 12 [mkPartDef "box_side" 1 (fun _ => PartRender testOps [joinT true; offsetT Larger o35] [edgeLine (F (fz 0) (fz 0)) (F (fz 5) (fz 0)); plugP AOrigin (div (add t2 (flt 3 (-1) : f)) (fz 2)) (add (div (add t2 (flt 3 (-1) : f)) (fz 2)) t2) (flt 3 (-1) : f) t2 t2 (F (fz 5) (fz 0)) (F (fz 5) (fz 6)); plugP AOrigin (mul t2 (flt 11 (-1) : f)) (mul t2 (flt 11 (-1) : f)) (flt 3 (-1) : f) t2 t2 (F (fz 5) (fz 6)) (F (fz 0) (fz 6)); plugP AOrigin (add (div (add t2 (flt 3 (-1) : f)) (fz 2)) t2) (div (add t2 (flt 3 (-1) : f)) (fz 2)) (flt 3 (-1) : f) t2 t2 (F (fz 0) (fz 6)) (F (fz 0) (fz 0))] (pt 0 0)) (fun _ => "") (fun _ => "") []].
(** designs_rendered/front_flat_top_000.svg:1-9 *)
Goal sheet0 front_flat_topHfd =
"<?xml version=""1.0""?>
	<!-- Generated by github.com/dustismo/heavyfishdesign -->
	<svg width=""20.000in"" height=""12.000in"" viewBox=""0.000 0.000 20.000 12.000""
    	xmlns=""http://www.w3.org/2000/svg""
		xmlns:xlink=""http://www.w3.org/1999/xlink"">
	<g transform=""translate(0.100 0.100)"">
<path id=""box_side"" d=""M 0.200 3.807 L 0.200 3.903 L 0.200 4.000 L 0.000 4.000 L 0.000 4.307 L 0.200 4.307 L 0.200 4.404 L 0.200 4.500 L 0.000 4.500 L 0.000 4.807 L 0.200 4.807 L 0.200 4.904 L 0.200 5.000 L 0.000 5.000 L 0.000 5.307 L 0.200 5.307 L 0.200 5.404 L 0.200 5.807 L 0.254 5.807 L 0.350 5.807 L 0.350 6.007 L 0.657 6.007 L 0.657 5.807 L 0.753 5.807 L 0.850 5.807 L 0.850 6.007 L 1.157 6.007 L 1.157 5.807 L 1.254 5.807 L 1.350 5.807 L 1.350 6.007 L 1.657 6.007 L 1.657 5.807 L 1.754 5.807 L 1.850 5.807 L 1.850 6.007 L 2.157 6.007 L 2.157 5.807 L 2.253 5.807 L 2.350 5.807 L 2.350 6.007 L 2.657 6.007 L 2.657 5.807 L 2.753 5.807 L 2.850 5.807 L 2.850 6.007 L 3.157 6.007 L 3.157 5.807 L 3.253 5.807 L 3.350 5.807 L 3.350 6.007 L 3.657 6.007 L 3.657 5.807 L 3.753 5.807 L 3.850 5.807 L 3.850 6.007 L 4.157 6.007 L 4.157 5.807 L 4.253 5.807 L 4.350 5.807 L 4.350 6.007 L 4.657 6.007 L 4.657 5.807 L 4.753 5.807 L 4.807 5.807 L 4.807 5.404 L 4.807 5.307 L 5.007 5.307 L 5.007 5.000 L 4.807 5.000 L 4.807 4.904 L 4.807 4.807 L 5.007 4.807 L 5.007 4.500 L 4.807 4.500 L 4.807 4.404 L 4.807 4.307 L 5.007 4.307 L 5.007 4.000 L 4.807 4.000 L 4.807 3.903 L 4.807 3.807 L 5.007 3.807 L 5.007 3.500 L 4.807 3.500 L 4.807 3.403 L 4.807 3.307 L 5.007 3.307 L 5.007 3.000 L 4.807 3.000 L 4.807 2.903 L 4.807 2.807 L 5.007 2.807 L 5.007 2.500 L 4.807 2.500 L 4.807 2.403 L 4.807 2.307 L 5.007 2.307 L 5.007 2.000 L 4.807 2.000 L 4.807 1.903 L 4.807 1.807 L 5.007 1.807 L 5.007 1.500 L 4.807 1.500 L 4.807 1.403 L 4.807 1.307 L 5.007 1.307 L 5.007 1.000 L 4.807 1.000 L 4.807 0.903 L 4.807 0.807 L 5.007 0.807 L 5.007 0.500 L 4.807 0.500 L 4.807 0.404 L 4.807 0.000 L 0.200 0.000 L 0.200 0.404 L 0.200 0.500 L 0.000 0.500 L 0.000 0.807 L 0.200 0.807 L 0.200 0.903 L 0.200 1.000 L 0.000 1.000 L 0.000 1.307 L 0.200 1.307 L 0.200 1.403 L 0.200 1.500 L 0.000 1.500 L 0.000 1.807 L 0.200 1.807 L 0.200 1.903 L 0.200 2.000 L 0.000 2.000 L 0.000 2.307 L 0.200 2.307 L 0.200 2.403 L 0.200 2.500 L 0.000 2.500 L 0.000 2.807 L 0.200 2.807 L 0.200 2.903 L 0.200 3.000 L 0.000 3.000 L 0.000 3.307 L 0.200 3.307 L 0.200 3.403 L 0.200 3.500 L 0.000 3.500 L 0.000 3.807 L 0.200 3.807"" style=""fill:none;stroke:black;stroke-width:0.012"" />
</g>
</svg>
".
Proof. vm_compute. reflexivity. Abort.

(** designs/box/side_flat_top.hfd:1-65 *)
Definition side_flat_topHfd : design FNum :=
  plain 20 12 [mkPartDef "box_side" 1 (fun _ => PartRender testOps [joinT true; offsetT Larger o35] [edgeLine (F (fz 0) (fz 0)) (F (fz 5) (fz 0)); socketP AStartPoint (div (add t2 (flt 3 (-1) : f)) (fz 2)) (add (div (add t2 (flt 3 (-1) : f)) (fz 2)) t2) (flt 3 (-1) : f) t2 t2 (F (fz 5) (fz 0)) (F (fz 5) (fz 6)); plugP AOrigin (mul t2 (flt 11 (-1) : f)) (mul t2 (flt 11 (-1) : f)) (flt 3 (-1) : f) t2 t2 (F (fz 5) (fz 6)) (F (fz 0) (fz 6)); socketP AStartPoint (add (div (add t2 (flt 3 (-1) : f)) (fz 2)) t2) (div (add t2 (flt 3 (-1) : f)) (fz 2)) (flt 3 (-1) : f) t2 t2 (F (fz 0) (fz 6)) (F (fz 0) (fz 0))] (pt 0 0)) (fun _ => "") (fun _ => "") []].
(** designs_rendered/side_flat_top_000.svg:1-9 *)
Goal sheet0 side_flat_topHfd =
"<?xml version=""1.0""?>
	<!-- Generated by github.com/dustismo/heavyfishdesign -->
	<svg width=""20.000in"" height=""12.000in"" viewBox=""0.000 0.000 20.000 12.000""
    	xmlns=""http://www.w3.org/2000/svg""
		xmlns:xlink=""http://www.w3.org/1999/xlink"">
	<g transform=""translate(0.100 0.100)"">
<path id=""box_side"" d=""M 3.850 6.007 L 4.157 6.007 L 4.157 5.807 L 4.253 5.807 L 4.350 5.807 L 4.350 6.007 L 4.657 6.007 L 4.657 5.807 L 4.753 5.807 L 5.007 5.807 L 5.007 5.404 L 5.007 5.300 L 4.807 5.300 L 4.807 5.007 L 5.007 5.007 L 5.007 4.904 L 5.007 4.800 L 4.807 4.800 L 4.807 4.507 L 5.007 4.507 L 5.007 4.404 L 5.007 4.300 L 4.807 4.300 L 4.807 4.007 L 5.007 4.007 L 5.007 3.903 L 5.007 3.800 L 4.807 3.800 L 4.807 3.507 L 5.007 3.507 L 5.007 3.403 L 5.007 3.300 L 4.807 3.300 L 4.807 3.007 L 5.007 3.007 L 5.007 2.903 L 5.007 2.800 L 4.807 2.800 L 4.807 2.507 L 5.007 2.507 L 5.007 2.403 L 5.007 2.300 L 4.807 2.300 L 4.807 2.007 L 5.007 2.007 L 5.007 1.903 L 5.007 1.800 L 4.807 1.800 L 4.807 1.507 L 5.007 1.507 L 5.007 1.403 L 5.007 1.300 L 4.807 1.300 L 4.807 1.007 L 5.007 1.007 L 5.007 0.903 L 5.007 0.800 L 4.807 0.800 L 4.807 0.507 L 5.007 0.507 L 5.007 0.404 L 5.007 0.000 L 0.000 0.000 L 0.000 0.404 L 0.000 0.507 L 0.200 0.507 L 0.200 0.800 L 0.000 0.800 L 0.000 0.903 L 0.000 1.007 L 0.200 1.007 L 0.200 1.300 L 0.000 1.300 L 0.000 1.403 L 0.000 1.507 L 0.200 1.507 L 0.200 1.800 L 0.000 1.800 L 0.000 1.903 L 0.000 2.007 L 0.200 2.007 L 0.200 2.300 L 0.000 2.300 L 0.000 2.403 L 0.000 2.507 L 0.200 2.507 L 0.200 2.800 L 0.000 2.800 L 0.000 2.903 L 0.000 3.007 L 0.200 3.007 L 0.200 3.300 L 0.000 3.300 L 0.000 3.403 L 0.000 3.507 L 0.200 3.507 L 0.200 3.800 L 0.000 3.800 L 0.000 3.903 L 0.000 4.007 L 0.200 4.007 L 0.200 4.300 L 0.000 4.300 L 0.000 4.404 L 0.000 4.507 L 0.200 4.507 L 0.200 4.800 L 0.000 4.800 L 0.000 4.904 L 0.000 5.007 L 0.200 5.007 L 0.200 5.300 L 0.000 5.300 L 0.000 5.404 L 0.000 5.807 L 0.254 5.807 L 0.350 5.807 L 0.350 6.007 L 0.657 6.007 L 0.657 5.807 L 0.753 5.807 L 0.850 5.807 L 0.850 6.007 L 1.157 6.007 L 1.157 5.807 L 1.254 5.807 L 1.350 5.807 L 1.350 6.007 L 1.657 6.007 L 1.657 5.807 L 1.754 5.807 L 1.850 5.807 L 1.850 6.007 L 2.157 6.007 L 2.157 5.807 L 2.253 5.807 L 2.350 5.807 L 2.350 6.007 L 2.657 6.007 L 2.657 5.807 L 2.753 5.807 L 2.850 5.807 L 2.850 6.007 L 3.157 6.007 L 3.157 5.807 L 3.253 5.807 L 3.350 5.807 L 3.350 6.007 L 3.657 6.007 L 3.657 5.807 L 3.753 5.807 L 3.850 5.807 L 3.850 6.007"" style=""fill:none;stroke:black;stroke-width:0.012"" />
</g>
</svg>
".
Proof. vm_compute. reflexivity. Abort.
