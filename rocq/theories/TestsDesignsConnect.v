(** The design svg_connect: an imported drawing connected to finger joints, see TestsDesigns.v. *)
From Coq Require Import String List ZArith Bool Arith.
From Coq.Floats Require Import SpecFloat.
From Verif Require Import Num FloatNum PathModel DrawModel SegOps TransformsModel SvgParse Bezier GeomTransforms OffsetModel Components DrawComp UnitsModel BinPack PlanSet SvgWrite Output Deliver PartSplit RenderDoc DynModel SvgElement TestMath TestsDesigns.
Import ListNotations.
Local Open Scope string_scope.
(** designs/svg/squiggle_line.svg:1 *)
Definition squiggleSvg : list element := [Elem "g" [("transform", "matrix(0.32,0,0,0.32,0,0)")] [Elem "path" [("d", "M267.358,694.888C268.652,694.888 448.664,656.528 535.623,776.709C621.134,894.889 595.541,939.494 647.546,1003.3C704.753,1073.48 805.466,1026.36 720.663,877.21C635.86,728.059 799.57,688.774 799.57,688.774C799.57,688.774 794.363,928.838 950.037,905.454C1025.29,894.149 1259.27,883.217 1318.77,941.52C1318.77,941.52 1162.77,943.306 1194.99,1157.64C1207.63,1241.7 1321.72,1347.79 1435.11,1292.48C1575.52,1223.98 1666.72,1208.55 1763.42,1278.73")] []]].
(** designs/component_examples/svg_connect.hfd:1-77 *)
Definition svg_connectHfd : design FNum :=
  plain 20 20
    [onePart "side" (fun _ => PartRender testOps []
        [fun cursor => path1 (Group [joinT true; offsetT Larger o35]
           [draw [] [("svg_connect_to", at_ [("to", pt 3 1)] [] [("svg", svgText squiggleSvg)])]; edgeLine (pt 3 1) (pt 3 3);
            plug (flt 4 (-1)) t2 (flt 3 (-1)) (pt 3 3) (pt 0 3); plug (flt 4 (-1)) t2 (flt 3 (-1)) (pt 0 3) (pt 0 0)] cursor)] (pt 0 0))].
(** designs_rendered/svg_connect_000.svg:1-9 *)
Goal sheet0 svg_connectHfd =
"<?xml version=""1.0""?>
	<!-- Generated by github.com/dustismo/heavyfishdesign -->
	<svg width=""20.000in"" height=""20.000in"" viewBox=""0.000 0.000 20.000 20.000""
    	xmlns=""http://www.w3.org/2000/svg""
		xmlns:xlink=""http://www.w3.org/1999/xlink"">
	<g transform=""translate(0.100 0.100)"">
<path id=""side"" d=""M 2.096 0.452 C 2.096 0.452 2.038 0.456 1.979 0.495 C 1.921 0.534 1.862 0.609 1.862 0.751 C 1.862 0.790 1.867 0.835 1.877 0.885 C 1.880 0.901 1.885 0.916 1.892 0.932 C 1.897 0.944 1.903 0.957 1.910 0.969 C 1.968 1.070 2.088 1.161 2.219 1.161 C 2.248 1.161 2.277 1.156 2.306 1.147 C 2.323 1.141 2.340 1.134 2.358 1.124 C 2.516 1.036 2.644 0.987 2.762 0.987 C 2.810 0.987 2.856 0.995 2.903 1.012 C 2.937 1.025 2.971 1.042 3.005 1.065 L 3.007 1.068 L 3.007 2.871 L 2.553 2.871 L 2.407 2.871 L 2.407 3.071 L 2.000 3.071 L 2.000 2.871 L 1.854 2.871 L 1.707 2.871 L 1.707 3.071 L 1.300 3.071 L 1.300 2.871 L 1.153 2.871 L 1.007 2.871 L 1.007 3.071 L 0.600 3.071 L 0.600 2.871 L 0.454 2.871 L 0.200 2.871 L 0.200 2.618 L 0.200 2.471 L 0.000 2.471 L 0.000 2.064 L 0.200 2.064 L 0.200 1.918 L 0.200 1.771 L 0.000 1.771 L 0.000 1.364 L 0.200 1.364 L 0.200 1.218 L 0.200 1.071 L 0.000 1.071 L 0.000 0.664 L 0.200 0.664 L 0.200 0.518 L 0.200 0.049 L 0.204 0.046 C 0.243 0.048 0.285 0.053 0.326 0.064 C 0.404 0.085 0.482 0.125 0.542 0.200 C 0.638 0.320 0.670 0.402 0.695 0.470 C 0.698 0.478 0.701 0.485 0.704 0.493 C 0.714 0.520 0.724 0.545 0.738 0.571 C 0.750 0.591 0.765 0.612 0.784 0.634 C 0.804 0.656 0.825 0.671 0.846 0.680 C 0.862 0.687 0.878 0.690 0.894 0.690 C 0.910 0.690 0.926 0.686 0.939 0.678 C 0.966 0.662 0.984 0.630 0.984 0.584 C 0.984 0.533 0.963 0.466 0.910 0.383 C 0.869 0.318 0.853 0.263 0.853 0.217 C 0.853 0.136 0.902 0.081 0.951 0.047 C 0.994 0.017 1.038 0.003 1.047 0.000 C 1.048 -0.000 1.048 -0.000 1.053 0.003 C 1.053 0.003 1.056 0.107 1.090 0.210 C 1.100 0.240 1.113 0.270 1.129 0.298 C 1.168 0.364 1.226 0.416 1.314 0.416 C 1.331 0.416 1.348 0.414 1.366 0.411 C 1.379 0.408 1.395 0.405 1.413 0.403 C 1.490 0.390 1.607 0.378 1.724 0.376 C 1.735 0.376 1.746 0.376 1.756 0.376 C 1.900 0.376 2.038 0.393 2.096 0.452"" style=""fill:none;stroke:black;stroke-width:0.012"" />
</g>
</svg>
".
Proof. vm_compute. reflexivity. Abort.
