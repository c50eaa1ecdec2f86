(** Model of the text of a sheet: the writing half of dom/svg_renderer.go, with the layout half in PlanSet.v.  The writer never fails. *)
From Coq Require Import String Ascii List ZArith Bool.
From Verif Require Import Num PathModel SegOps GeomTransforms AttrText UnitsModel BinPack PlanSet.
Import ListNotations.
Local Open Scope string_scope.

Section Write.
Context {N : Num}.
Notation F := (T N).
Variable co : CurveOps N.

(** the fields of a RenderedPart (dom/part.go:18-29) that are written: the id of the part, the path, the text and position of the label *)
Record info := mkInfo { i_id : string; i_path : path N; i_label : string; i_at : string }.
(** dom/svg_renderer.go:45-75 [SVGDocument], the fields that are written *)
Record svgdoc := mkDoc { d_width : F; d_height : F; d_units : Units; d_size : bool; d_precision : nat; d_cut : string; d_labels : string; d_renderables : list (renderable N info) }.

Definition q1 : string := String "034" "".    (* a quote *)
Definition nl : string := String "010" "".    (* a line end *)
Definition tb : string := String "009" "".    (* a tab *)
(** name="value" *)
Definition at_ (k v : string) : string := k ++ "=" ++ q1 ++ v ++ q1.

(** dom/svg_renderer.go:254-256 [writeSVG] *)
Definition line (s : string) : string := s ++ nl.

(** dom/svg_renderer.go:85-131 [render]: what is written, and whether there was no error *)
Definition render (d : svgdoc) (r : renderable N info) : string * bool :=
  let i := fst (fst (r_part r)) in
  let g := line ("<g " ++ at_ "transform" (transformText r) ++ ">") in
  let p := line ("<path " ++ at_ "id" (i_id i) ++ " " ++ at_ "d" (SvgString (i_path i) (d_precision d)) ++ " " ++ at_ "style" (d_cut d) ++ " />") in
  if String.eqb (i_label i) "" then (g ++ p ++ line "</g>", true)
  else match PointPathAttributeText co (i_at i) (i_path i) with
       | Ok q => (g ++ p ++ line ("<text " ++ at_ "x" (fmt 3 (px q)) ++ " " ++ at_ "y" (fmt 3 (py q)) ++ " " ++ at_ "style" (d_labels d) ++ ">" ++ i_label i ++ "</text>") ++ line "</g>", true)
       | _ => (g ++ p, false)
       end.

(** dom/svg_renderer.go:178-193 [start] *)
Definition start (d : svgdoc) : string :=
  let size := if d_size d then at_ "width" (fmt 3 (d_width d) ++ u_abv (d_units d)) ++ " " ++ at_ "height" (fmt 3 (d_height d) ++ u_abv (d_units d)) else "" in
  "<?xml " ++ at_ "version" "1.0" ++ "?>" ++ nl ++ tb ++ "<!-- Generated by github.com/dustismo/heavyfishdesign -->" ++ nl ++ tb ++
  "<svg " ++ size ++ " " ++ at_ "viewBox" ("0.000 0.000 " ++ fmt 3 (d_width d) ++ " " ++ fmt 3 (d_height d)) ++ nl ++
  "    " ++ tb ++ at_ "xmlns" "http://www.w3.org/2000/svg" ++ nl ++ tb ++ tb ++ at_ "xmlns:xlink" "http://www.w3.org/1999/xlink" ++ ">" ++ nl ++ tb.
(** dom/svg_renderer.go:195-198 [end] *)
Definition end_ : string := line "</svg>".
(** dom/svg_renderer.go:201-207 [WriteSVG]: errors are not looked at *)
Definition WriteSVG (d : svgdoc) : string := start d ++ String.concat "" (map (fun r => fst (render d r)) (d_renderables d)) ++ end_.

(** dom/svg_renderer.go:135-161 [NewSVGDocument], dom/planset.go:30-44: .3 is 3/10 *)
Definition NewSVGDocument (w h : F) (u : Units) (rs : list (renderable N info)) : svgdoc :=
  mkDoc w h u true 3 ("fill:none;stroke:black;stroke-width:" ++ fmt 3 (FromMM u (div (ofZ 3) (ofZ 10) : F))) ("font: " ++ fmt 3 (FromMM u (ofZ 3 : F)) ++ "pt serif; fill: blue") rs.
End Write.
Arguments info N : clear implicits.
Arguments svgdoc N : clear implicits.
