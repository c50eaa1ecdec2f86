(** The design part_split: finger joints, offsets and the splitter, see TestsDesigns.v. *)
From Coq Require Import String List ZArith Bool Arith.
From Coq.Floats Require Import SpecFloat.
From Verif Require Import Num FloatNum PathModel DrawModel SegOps TransformsModel SvgParse Bezier GeomTransforms OffsetModel Components DrawComp UnitsModel BinPack PlanSet SvgWrite Output Deliver PartSplit RenderDoc DynModel SvgElement TestMath TestsDesigns.
Import ListNotations.
Local Open Scope string_scope.
(** no lathe *)
Definition noLathe : latheSpec FNum := mkLathe (N := FNum) t2 (fz 0) (fz 0) 3 (fun _ _ _ => Err).
(** designs/component_examples/part_split.hfd:1-84 *)
Definition part_splitHfd : design FNum :=
  plain 18 11
    [mkPartDef "box_bottom" 1 (fun _ => PartRender testOps [joinT true; offsetT Larger o35]
        [socket (flt 3 (-1)) t2 t2 (pt 0 0) (pt 8 0); socket (flt 3 (-1)) t2 t2 (pt 8 0) (pt 8 8);
         socket (flt 3 (-1)) t2 t2 (pt 8 8) (pt 0 8); socket (flt 3 (-1)) t2 t2 (pt 0 8) (pt 0 0)] (pt 0 0)) (fun _ => "") (fun _ => "")
       [mkPT "splitter" (fun _ => mkSplit true None (fz 5) (fz 5) (fz 0) None None (fun a b => edgeLine a b (pt 0 0)) (fun a b => edgeLine a b (pt 0 0)) 3) (fun _ => noLathe)]].
(** designs_rendered/part_split_000.svg:1-18 *)
Goal sheet0 part_splitHfd =
"<?xml version=""1.0""?>
	<!-- Generated by github.com/dustismo/heavyfishdesign -->
	<svg width=""18.000in"" height=""11.000in"" viewBox=""0.000 0.000 18.000 11.000""
    	xmlns=""http://www.w3.org/2000/svg""
		xmlns:xlink=""http://www.w3.org/1999/xlink"">
	<g transform=""translate(0.100 0.100)"">
<path id=""box_bottom"" d=""M 3.804 4.004 L 3.804 3.857 L 4.004 3.857 L 4.004 3.753 L 4.004 3.650 L 3.804 3.650 L 3.804 3.357 L 4.004 3.357 L 4.004 3.253 L 4.004 3.150 L 3.804 3.150 L 3.804 2.857 L 4.004 2.857 L 4.004 2.753 L 4.004 2.650 L 3.804 2.650 L 3.804 2.357 L 4.004 2.357 L 4.004 2.253 L 4.004 2.150 L 3.804 2.150 L 3.804 1.857 L 4.004 1.857 L 4.004 1.754 L 4.004 1.650 L 3.804 1.650 L 3.804 1.357 L 4.004 1.357 L 4.004 1.254 L 4.004 1.150 L 3.804 1.150 L 3.804 0.857 L 4.004 0.857 L 4.004 0.753 L 4.004 0.650 L 3.804 0.650 L 3.804 0.357 L 4.004 0.357 L 4.004 0.254 L 4.004 0.000 L 3.750 0.000 L 3.647 0.000 L 3.647 0.200 L 3.354 0.200 L 3.354 0.000 L 3.250 0.000 L 3.147 0.000 L 3.147 0.200 L 2.854 0.200 L 2.854 0.000 L 2.750 0.000 L 2.647 0.000 L 2.647 0.200 L 2.354 0.200 L 2.354 0.000 L 2.250 0.000 L 2.147 0.000 L 2.147 0.200 L 1.854 0.200 L 1.854 0.000 L 1.750 0.000 L 1.647 0.000 L 1.647 0.200 L 1.354 0.200 L 1.354 0.000 L 1.250 0.000 L 1.147 0.000 L 1.147 0.200 L 0.854 0.200 L 0.854 0.000 L 0.750 0.000 L 0.647 0.000 L 0.647 0.200 L 0.354 0.200 L 0.354 0.000 L 0.250 0.000 L 0.147 0.000 L 0.147 0.200 L 0.000 0.200 M 0.000 4.004 L 0.000 0.000 M 4.004 4.004 M 4.004 4.004 M 4.004 4.004 L 0.000 4.004"" style=""fill:none;stroke:black;stroke-width:0.012"" />
</g>
<g transform=""translate(0.100 4.304)"">
<path id=""box_bottom"" d=""M 0.000 3.803 L 0.147 3.803 L 0.147 4.004 L 0.250 4.004 L 0.354 4.004 L 0.354 3.803 L 0.647 3.803 L 0.647 4.004 L 0.750 4.004 L 0.854 4.004 L 0.854 3.803 L 1.147 3.803 L 1.147 4.004 L 1.250 4.004 L 1.354 4.004 L 1.354 3.803 L 1.647 3.803 L 1.647 4.004 L 1.750 4.004 L 1.854 4.004 L 1.854 3.803 L 2.147 3.803 L 2.147 4.004 L 2.250 4.004 L 2.354 4.004 L 2.354 3.803 L 2.647 3.803 L 2.647 4.004 L 2.750 4.004 L 2.854 4.004 L 2.854 3.803 L 3.147 3.803 L 3.147 4.004 L 3.250 4.004 L 3.354 4.004 L 3.354 3.803 L 3.647 3.803 L 3.647 4.004 L 3.750 4.004 L 4.004 4.004 L 4.004 3.750 L 4.004 3.646 L 3.804 3.646 L 3.804 3.354 L 4.004 3.354 L 4.004 3.250 L 4.004 3.146 L 3.804 3.146 L 3.804 2.854 L 4.004 2.854 L 4.004 2.750 L 4.004 2.646 L 3.804 2.646 L 3.804 2.354 L 4.004 2.354 L 4.004 2.250 L 4.004 2.146 L 3.804 2.146 L 3.804 1.854 L 4.004 1.854 L 4.004 1.750 L 4.004 1.646 L 3.804 1.646 L 3.804 1.354 L 4.004 1.354 L 4.004 1.250 L 4.004 1.146 L 3.804 1.146 L 3.804 0.854 L 4.004 0.854 L 4.004 0.750 L 4.004 0.646 L 3.804 0.646 L 3.804 0.354 L 4.004 0.354 L 4.004 0.250 L 4.004 0.146 L 3.804 0.146 L 3.804 0.000 M 0.000 4.004 L 0.000 0.000 M 4.004 0.000 M 4.004 0.000 M 4.004 0.000 L 0.000 0.000"" style=""fill:none;stroke:black;stroke-width:0.012"" />
</g>
<g transform=""translate(4.304 0.100)"">
<path id=""box_bottom"" d=""M 4.004 0.200 L 3.857 0.200 L 3.857 0.000 L 3.754 0.000 L 3.650 0.000 L 3.650 0.200 L 3.357 0.200 L 3.357 0.000 L 3.254 0.000 L 3.150 0.000 L 3.150 0.200 L 2.857 0.200 L 2.857 0.000 L 2.754 0.000 L 2.650 0.000 L 2.650 0.200 L 2.357 0.200 L 2.357 0.000 L 2.254 0.000 L 2.150 0.000 L 2.150 0.200 L 1.857 0.200 L 1.857 0.000 L 1.754 0.000 L 1.650 0.000 L 1.650 0.200 L 1.357 0.200 L 1.357 0.000 L 1.254 0.000 L 1.150 0.000 L 1.150 0.200 L 0.857 0.200 L 0.857 0.000 L 0.754 0.000 L 0.650 0.000 L 0.650 0.200 L 0.357 0.200 L 0.357 0.000 L 0.254 0.000 L 0.000 0.000 L 0.000 0.254 L 0.000 0.357 L 0.200 0.357 L 0.200 0.650 L 0.000 0.650 L 0.000 0.754 L 0.000 0.857 L 0.200 0.857 L 0.200 1.150 L 0.000 1.150 L 0.000 1.254 L 0.000 1.357 L 0.200 1.357 L 0.200 1.650 L 0.000 1.650 L 0.000 1.754 L 0.000 1.857 L 0.200 1.857 L 0.200 2.150 L 0.000 2.150 L 0.000 2.254 L 0.000 2.357 L 0.200 2.357 L 0.200 2.650 L 0.000 2.650 L 0.000 2.754 L 0.000 2.857 L 0.200 2.857 L 0.200 3.150 L 0.000 3.150 L 0.000 3.254 L 0.000 3.357 L 0.200 3.357 L 0.200 3.650 L 0.000 3.650 L 0.000 3.754 L 0.000 3.857 L 0.200 3.857 L 0.200 4.004 M 4.004 4.004 L 4.004 0.000 M 4.004 4.004 M 4.004 4.004 M 4.004 4.004 L 0.000 4.004"" style=""fill:none;stroke:black;stroke-width:0.012"" />
</g>
<g transform=""translate(4.304 4.304)"">
<path id=""box_bottom"" d=""M 3.857 4.004 L 3.857 3.803 L 4.004 3.803 M 0.200 0.000 L 0.200 0.146 L 0.000 0.146 L 0.000 0.250 L 0.000 0.354 L 0.200 0.354 L 0.200 0.646 L 0.000 0.646 L 0.000 0.750 L 0.000 0.854 L 0.200 0.854 L 0.200 1.146 L 0.000 1.146 L 0.000 1.250 L 0.000 1.354 L 0.200 1.354 L 0.200 1.646 L 0.000 1.646 L 0.000 1.750 L 0.000 1.854 L 0.200 1.854 L 0.200 2.146 L 0.000 2.146 L 0.000 2.250 L 0.000 2.354 L 0.200 2.354 L 0.200 2.646 L 0.000 2.646 L 0.000 2.750 L 0.000 2.854 L 0.200 2.854 L 0.200 3.146 L 0.000 3.146 L 0.000 3.250 L 0.000 3.354 L 0.200 3.354 L 0.200 3.646 L 0.000 3.646 L 0.000 3.750 L 0.000 4.004 L 0.254 4.004 L 0.357 4.004 L 0.357 3.803 L 0.650 3.803 L 0.650 4.004 L 0.754 4.004 L 0.857 4.004 L 0.857 3.803 L 1.150 3.803 L 1.150 4.004 L 1.254 4.004 L 1.357 4.004 L 1.357 3.803 L 1.650 3.803 L 1.650 4.004 L 1.754 4.004 L 1.857 4.004 L 1.857 3.803 L 2.150 3.803 L 2.150 4.004 L 2.254 4.004 L 2.357 4.004 L 2.357 3.803 L 2.650 3.803 L 2.650 4.004 L 2.754 4.004 L 2.857 4.004 L 2.857 3.803 L 3.150 3.803 L 3.150 4.004 L 3.254 4.004 L 3.357 4.004 L 3.357 3.803 L 3.650 3.803 L 3.650 4.004 L 3.754 4.004 L 3.857 4.004 M 4.004 4.004 L 4.004 0.000 M 4.004 0.000 M 4.004 0.000 M 4.004 0.000 L 0.000 0.000"" style=""fill:none;stroke:black;stroke-width:0.012"" />
</g>
</svg>
".
Proof. vm_compute. reflexivity. Abort.
