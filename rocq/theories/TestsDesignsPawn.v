(** The design pawn: layers of an imported drawing, see TestsDesigns.v. *)
From Coq Require Import String List ZArith Bool Arith.
From Coq.Floats Require Import SpecFloat.
From Verif Require Import Num FloatNum PathModel DrawModel SegOps TransformsModel SvgParse Bezier GeomTransforms OffsetModel Components DrawComp UnitsModel BinPack PlanSet SvgWrite Output Deliver PartSplit RenderDoc DynModel SvgElement TestMath TestsDesigns.
Import ListNotations.
Local Open Scope string_scope.
(** designs/svg/lathe_pawn.svg:1 *)
Definition pawnSvg : list element := [Elem "path" [("d", "M240,78.616C266.787,77.517 270.594,110.263 270.594,110.263C270.594,110.263 272.62,144.304 245.985,153.396C219.349,162.489 250.011,191.707 250.011,191.707C250.011,191.707 295.474,226.478 299.615,263.082C303.756,299.686 283.699,308.011 275.217,313.853C266.735,319.695 250.054,329.772 247.471,335.888C244.889,342.003 238.901,352.817 248.67,356.073C258.439,359.329 265.163,361.042 286.701,360.999C308.239,360.956 338.967,371.801 342.354,392.554C345.742,413.308 343.059,429.092 343.059,429.092L203.858,427.563")] []; Elem "path" [("d", "M186.345,78.616C159.558,77.517 155.751,110.263 155.751,110.263C155.751,110.263 153.725,144.304 180.36,153.396C206.995,162.489 176.333,191.707 176.333,191.707C176.333,191.707 130.871,226.478 126.73,263.082C122.589,299.686 142.646,308.011 151.128,313.853C159.61,319.695 176.291,329.772 178.873,335.888C181.456,342.003 187.443,352.817 177.675,356.073C167.906,359.329 161.182,361.042 139.644,360.999C118.106,360.956 87.378,371.801 83.99,392.554C80.603,413.308 83.285,429.092 83.285,429.092L222.486,427.563")] []].
(** designs/common/rectangle_with_center_hole.hfd:1: a rectangle with another one in its middle *)
Definition rectWithHole (w h hw hh : f) (cursor : Pt FNum) : res (path FNum) :=
  path1 (Group [] [draw [offsetT Larger o35] [("move", at_ [("to", pt 0 0)] [] []); ("rectangle", nums [("width", w); ("height", h)])];
                   rectangle [offsetT Smaller o35; MoveT testOps (F (div w (fz 2)) (div h (fz 2))) AMiddleMiddle] hw hh] cursor).
(** designs/chess/pawn.hfd:1-75, the drawing, the layers and the parts *)
Definition pawnDrawing : res (path FNum) :=
  PartRender testOps [] [draw [ScaleT testOps (mkScale (N := FNum) (fz 1) (fz 1) (pt 0 0) (pt 0 0) (fz 0) (flt 28 (-1)))] [("svg", at_ [] [] [("svg", svgText pawnSvg)])]] (pt 0 0).
(** a layer: a rectangle as wide as the drawing with the hole for the stem *)
Definition pawnLayer (a b : Pt FNum) (_ : Z) : res (path FNum) := let w := Num.sub (px b) (px a) in rectWithHole w w t2 t2 (pt 0 0).
(** no splitter *)
Definition noSplit : splitSpec (N := FNum) := mkSplit false None (fz 0) (fz 0) (fz 0) None None (fun _ _ => Err) (fun _ _ => Err) 3.
(** components/lathe.go: what is put into the variables lathe_pawn__total_height and lathe_pawn__top_width *)
Definition pawnLathe : res (list (path FNum * f * f) * f * f * f * Z) :=
  bind pawnDrawing (fun p => bind (TrimWhitespace testOps p) (fun q => Lathe testOps 3 1000 3 pawnLayer q t2 (fz 0) (fz 0))).
(** the first *)
Definition pawnHeight : f := match pawnLathe return f with Ok q => snd (fst (fst (fst q))) | _ => fz 0 end.
(** the second *)
Definition pawnTop : f := match pawnLathe return f with Ok q => snd (fst (fst q)) | _ => fz 0 end.
(** designs/chess/pawn.hfd:1-75 *)
Definition pawnHfd : design FNum :=
  plain 20 12
    [mkPartDef "ba6774b602fc9076" 1 (fun _ => pawnDrawing) (fun _ => "pwn") (fun _ => "$BOTTOM_MIDDLE")
       [mkPT "lathe" (fun _ => noSplit) (fun _ => mkLathe (N := FNum) t2 (fz 0) (fz 0) 3 pawnLayer)];
     onePart "e7ffc7b8ad041d52" (fun _ => PartRender testOps [] [rectangle [] t2 (Num.sub (n := FNum) pawnHeight t2)] (pt 0 0));
     onePart "ae46c824021414b1" (fun _ => PartRender testOps [] [rectangle [] pawnTop pawnTop] (pt 0 0))].
(** designs_rendered/pawn_000.svg:1-64 *)
Goal sheet0 pawnHfd =
"<?xml version=""1.0""?>
	<!-- Generated by github.com/dustismo/heavyfishdesign -->
	<svg width=""20.000in"" height=""12.000in"" viewBox=""0.000 0.000 20.000 12.000""
    	xmlns=""http://www.w3.org/2000/svg""
		xmlns:xlink=""http://www.w3.org/1999/xlink"">
	<g transform=""translate(0.100 0.100)"">
<path id=""ba6774b602fc9076"" d=""M 0.898 0.898 L 0.898 -0.004 L -0.004 -0.004 L -0.004 0.898 L 0.898 0.898 M 0.546 0.542 M 0.546 0.542 L 0.349 0.542 L 0.349 0.349 L 0.542 0.349 L 0.542 0.546"" style=""fill:none;stroke:black;stroke-width:0.012"" />
<text x=""0.447"" y=""0.898"" style=""font: 0.118pt serif; fill: blue"">pwn:0</text>
</g>
<g transform=""translate(0.100 1.202)"">
<path id=""ba6774b602fc9076"" d=""M -0.004 -0.004 L -0.004 0.883 L 0.883 0.883 L 0.883 -0.004 L -0.004 -0.004 M 0.538 0.534 M 0.538 0.534 L 0.341 0.534 L 0.341 0.341 L 0.534 0.341 L 0.534 0.538"" style=""fill:none;stroke:black;stroke-width:0.012"" />
<text x=""0.440"" y=""0.883"" style=""font: 0.118pt serif; fill: blue"">pwn:1</text>
</g>
<g transform=""translate(0.100 2.288)"">
<path id=""ba6774b602fc9076"" d=""M 0.514 0.514 L 0.514 -0.004 L -0.004 -0.004 L -0.004 0.514 L 0.514 0.514 M 0.159 0.159 M 0.159 0.159 L 0.352 0.159 L 0.352 0.352 L 0.159 0.352 L 0.159 0.159"" style=""fill:none;stroke:black;stroke-width:0.012"" />
<text x=""0.255"" y=""0.514"" style=""font: 0.118pt serif; fill: blue"">pwn:2</text>
</g>
<g transform=""translate(0.100 3.006)"">
<path id=""ba6774b602fc9076"" d=""M 0.425 0.425 L 0.425 -0.004 L -0.004 -0.004 L -0.004 0.425 L 0.425 0.425 M 0.309 0.306 M 0.309 0.306 L 0.113 0.306 L 0.113 0.113 L 0.306 0.113 L 0.306 0.309"" style=""fill:none;stroke:black;stroke-width:0.012"" />
<text x=""0.211"" y=""0.425"" style=""font: 0.118pt serif; fill: blue"">pwn:3</text>
</g>
<g transform=""translate(0.100 3.634)"">
<path id=""ba6774b602fc9076"" d=""M 0.811 0.811 L 0.811 -0.004 L -0.004 -0.004 L -0.004 0.811 L 0.811 0.811 M 0.306 0.309 M 0.306 0.309 L 0.502 0.309 L 0.502 0.502 L 0.309 0.502 L 0.309 0.306"" style=""fill:none;stroke:black;stroke-width:0.012"" />
<text x=""0.404"" y=""0.811"" style=""font: 0.118pt serif; fill: blue"">pwn:4</text>
</g>
<g transform=""translate(1.202 0.100)"">
<path id=""ba6774b602fc9076"" d=""M 1.155 1.155 L 1.155 -0.004 L -0.004 -0.004 L -0.004 1.155 L 1.155 1.155 M 0.479 0.479 M 0.479 0.479 L 0.672 0.479 L 0.672 0.672 L 0.479 0.672 L 0.479 0.479"" style=""fill:none;stroke:black;stroke-width:0.012"" />
<text x=""0.576"" y=""1.155"" style=""font: 0.118pt serif; fill: blue"">pwn:5</text>
</g>
<g transform=""translate(2.560 0.100)"">
<path id=""ba6774b602fc9076"" d=""M 1.354 1.354 L 1.354 -0.004 L -0.004 -0.004 L -0.004 1.354 L 1.354 1.354 M 0.579 0.579 M 0.579 0.579 L 0.772 0.579 L 0.772 0.772 L 0.579 0.772 L 0.579 0.579"" style=""fill:none;stroke:black;stroke-width:0.012"" />
<text x=""0.675"" y=""1.354"" style=""font: 0.118pt serif; fill: blue"">pwn:6</text>
</g>
<g transform=""translate(4.118 0.100)"">
<path id=""ba6774b602fc9076"" d=""M 1.389 1.389 L 1.389 -0.004 L -0.004 -0.004 L -0.004 1.389 L 1.389 1.389 M 0.596 0.596 M 0.596 0.596 L 0.789 0.596 L 0.789 0.789 L 0.596 0.789 L 0.596 0.596"" style=""fill:none;stroke:black;stroke-width:0.012"" />
<text x=""0.693"" y=""1.389"" style=""font: 0.118pt serif; fill: blue"">pwn:7</text>
</g>
<g transform=""translate(2.560 1.658)"">
<path id=""ba6774b602fc9076"" d=""M -0.004 -0.004 L -0.004 1.211 L 1.211 1.211 L 1.211 -0.004 L -0.004 -0.004 M 0.702 0.698 M 0.702 0.698 L 0.505 0.698 L 0.505 0.505 L 0.698 0.505 L 0.698 0.702"" style=""fill:none;stroke:black;stroke-width:0.012"" />
<text x=""0.604"" y=""1.211"" style=""font: 0.118pt serif; fill: blue"">pwn:8</text>
</g>
<g transform=""translate(0.100 4.649)"">
<path id=""ba6774b602fc9076"" d=""M -0.004 -0.004 L -0.004 0.651 L 0.651 0.651 L 0.651 -0.004 L -0.004 -0.004 M 0.422 0.418 M 0.422 0.418 L 0.225 0.418 L 0.225 0.225 L 0.418 0.225 L 0.418 0.422"" style=""fill:none;stroke:black;stroke-width:0.012"" />
<text x=""0.324"" y=""0.651"" style=""font: 0.118pt serif; fill: blue"">pwn:9</text>
</g>
<g transform=""translate(0.100 5.503)"">
<path id=""ba6774b602fc9076"" d=""M -0.004 -0.004 L -0.004 0.514 L 0.514 0.514 L 0.514 -0.004 L -0.004 -0.004 M 0.353 0.350 M 0.353 0.350 L 0.157 0.350 L 0.157 0.157 L 0.350 0.157 L 0.350 0.353"" style=""fill:none;stroke:black;stroke-width:0.012"" />
<text x=""0.255"" y=""0.514"" style=""font: 0.118pt serif; fill: blue"">pwn:10</text>
</g>
<g transform=""translate(5.710 0.100)"">
<path id=""ba6774b602fc9076"" d=""M 1.956 1.956 L 1.956 -0.004 L -0.004 -0.004 L -0.004 1.956 L 1.956 1.956 M 1.073 1.073 M 1.073 1.073 L 0.880 1.073 L 0.880 0.880 L 1.073 0.880 L 1.073 1.073"" style=""fill:none;stroke:black;stroke-width:0.012"" />
<text x=""0.976"" y=""1.956"" style=""font: 0.118pt serif; fill: blue"">pwn:11</text>
</g>
<g transform=""translate(7.870 0.100)"">
<path id=""ba6774b602fc9076"" d=""M 2.089 2.089 L 2.089 -0.004 L -0.004 -0.004 L -0.004 2.089 L 2.089 2.089 M 0.946 0.946 M 0.946 0.946 L 1.139 0.946 L 1.139 1.139 L 0.946 1.139 L 0.946 0.946"" style=""fill:none;stroke:black;stroke-width:0.012"" />
<text x=""1.043"" y=""2.089"" style=""font: 0.118pt serif; fill: blue"">pwn:12</text>
</g>
<g transform=""translate(0.100 6.221)"">
<path id=""e7ffc7b8ad041d52"" d=""M 0.000 0.000 L 0.200 0.000 L 0.200 2.400 L 0.000 2.400 L 0.000 0.000"" style=""fill:none;stroke:black;stroke-width:0.012"" />
</g>
<g transform=""translate(0.100 8.821)"">
<path id=""ae46c824021414b1"" d=""M 0.000 0.000 L 0.895 0.000 L 0.895 0.895 L 0.000 0.895 L 0.000 0.000"" style=""fill:none;stroke:black;stroke-width:0.012"" />
</g>
</svg>
".
Proof. vm_compute. reflexivity. Abort.
