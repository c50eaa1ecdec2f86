(** The design xintercept: rectangles inside of an imported drawing, see TestsDesigns.v. *)
From Coq Require Import String List ZArith Bool Arith.
From Coq.Floats Require Import SpecFloat.
From Verif Require Import Num FloatNum PathModel DrawModel SegOps TransformsModel SvgParse Bezier GeomTransforms OffsetModel Components DrawComp UnitsModel BinPack PlanSet SvgWrite Output Deliver PartSplit RenderDoc DynModel SvgElement TestMath TestsDesigns.
Import ListNotations.
Local Open Scope string_scope.
(** designs/svg/dala_horse.svg:1 *)
Definition horseSvg : list element := [Elem "path" [("d", "M1737.67,3223.05C1741.93,3012.42 1703.38,2657.78 1658.39,2489.74C1649.81,2457.71 1638.98,2420.24 1626.27,2419.2C1573.9,2414.94 1504.61,2480.79 1465.52,2467.06C1426.43,2453.32 1379.52,2368.44 1391.72,2336.79C1411.18,2286.31 1564.16,2172.07 1564.16,2172.07C1564.16,2172.07 1519.7,1980.33 1538.54,1969.65C1557.37,1958.97 1651.32,2078.64 1691.67,2098.76C1744.27,2124.97 1812.38,2109.49 1897.38,2177.11C1954.91,2222.88 1985.17,2351.02 2020.89,2392.29C2041.92,2416.6 2085.96,2426.2 2117.75,2430.94C2189.66,2441.66 2376.35,2431.3 2452.37,2456.64C2507.8,2475.12 2564.63,2525.31 2573.87,2583.01C2593.27,2704.22 2575.87,3105.21 2569.81,3215.11C2567.41,3258.64 2446.55,3238.29 2446.55,3238.29L2350.8,2880.27C2350.8,2880.27 2208.87,2914.91 2140,2915.31C2046.77,2915.85 1906.13,2874.09 1906.13,2874.09C1906.13,2874.09 1889.05,3152.16 1871.36,3213.33C1864.27,3237.85 1822.28,3239.49 1800,3241.11C1778.43,3242.68 1737.67,3223.05 1737.67,3223.05Z")] []; Elem "g" [("transform", "matrix(1,0,0,1,-64.0746,-19.6221)")] [Elem "circle" [("cx", "2136.96"); ("cy", "2514.4"); ("r", "26.584")] []]].
(** designs/component_examples/xintercept.hfd:1-57 *)
Definition xinterceptHfd : design FNum :=
  plain 20 12 [onePart "321145164434c789" (fun _ => PartRender testOps []
    [fun cursor =>
       match XIntercept testOps 3 1000 3 [] (draw [ScaleT testOps (mkScale (N := FNum) (fz 1) (fz 1) (pt 0 0) (pt 0 0) (fz 3) (fz 0))] [("svg", at_ [] [] [("svg", svgText horseSvg)])] cursor)
         (fun a b => rectangle [MoveT testOps a ATopLeft] (Num.sub (px b) (px a)) (flt 1 (-1)) cursor) (fz 0) (flt 1 (-1)) with
       | Ok (Some (p, _)) => Ok p | _ => Err end] (pt 0 0))].
(** designs_rendered/xintercept_000.svg:1-9 *)
Goal sheet0 xinterceptHfd =
"<?xml version=""1.0""?>
	<!-- Generated by github.com/dustismo/heavyfishdesign -->
	<svg width=""20.000in"" height=""12.000in"" viewBox=""0.000 0.000 20.000 12.000""
    	xmlns=""http://www.w3.org/2000/svg""
		xmlns:xlink=""http://www.w3.org/1999/xlink"">
	<g transform=""translate(0.100 0.100)"">
<path id=""321145164434c789"" d=""M 0.340 0.000 L 0.435 0.000 L 0.435 0.100 L 0.340 0.100 L 0.340 0.000 M 0.364 0.200 L 0.639 0.200 L 0.639 0.300 L 0.364 0.300 L 0.364 0.200 M 0.403 0.400 L 1.141 0.400 L 1.141 0.500 L 0.403 0.500 L 0.403 0.400 M 0.243 0.600 L 1.356 0.600 L 1.356 0.700 L 0.243 0.700 L 0.243 0.600 M 0.033 0.800 L 1.453 0.800 L 1.453 0.900 L 0.033 0.900 L 0.033 0.800 M 0.000 1.000 L 1.553 1.000 L 1.553 1.100 L 0.000 1.100 L 0.000 1.000 M 0.160 1.200 L 0.248 1.200 L 0.248 1.300 L 0.160 1.300 L 0.160 1.200 M 0.637 1.200 L 2.705 1.200 L 2.705 1.300 L 0.637 1.300 L 0.637 1.200 M 0.687 1.400 L 2.923 1.400 L 2.923 1.500 L 0.687 1.500 L 0.687 1.400 M 0.725 1.600 L 2.967 1.600 L 2.967 1.700 L 0.725 1.700 L 0.725 1.600 M 0.757 1.800 L 2.976 1.800 L 2.976 1.900 L 0.757 1.900 L 0.757 1.800 M 0.783 2.000 L 2.978 2.000 L 2.978 2.100 L 0.783 2.100 L 0.783 2.000 M 0.806 2.200 L 2.976 2.200 L 2.976 2.300 L 0.806 2.300 L 0.806 2.200 M 0.824 2.400 L 1.265 2.400 L 1.265 2.500 L 0.824 2.500 L 0.824 2.400 M 2.437 2.400 L 2.972 2.400 L 2.972 2.500 L 2.437 2.500 L 2.437 2.400 M 0.839 2.600 L 1.249 2.600 L 1.249 2.700 L 0.839 2.700 L 0.839 2.600 M 2.490 2.600 L 2.966 2.600 L 2.966 2.700 L 2.490 2.700 L 2.490 2.600 M 0.849 2.800 L 1.231 2.800 L 1.231 2.900 L 0.849 2.900 L 0.849 2.800 M 2.544 2.800 L 2.959 2.800 L 2.959 2.900 L 2.544 2.900 L 2.544 2.800 M 0.854 3.000 L 1.206 3.000 L 1.206 3.100 L 0.854 3.100 L 0.854 3.000 M 2.597 3.000 L 2.950 3.000 L 2.950 3.100 L 2.597 3.100 L 2.597 3.000"" style=""fill:none;stroke:black;stroke-width:0.012"" />
</g>
</svg>
".
Proof. vm_compute. reflexivity. Abort.
