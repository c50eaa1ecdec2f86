(** Model of a design from its rendered parts to the files: layout (PlanSet.v), text of the sheets (SvgWrite.v) and saving (Output.v) one after the other. *)
From Coq Require Import String Ascii List NArith Bool.
From Verif Require Import Num PathModel SegOps UnitsModel BinPack PlanSet SvgWrite Output.
Import ListNotations.
Local Open Scope string_scope.

Section Deliver.
Context {N : Num}.
Variable co : CurveOps N.

(** main.go:315-334 [save], the texts: dom/planset.go:75-102 [Init] with the attributes of dom/planset.go:30-44 given, then WriteSVG
    (dom/svg_renderer.go:201-207) of every sheet.  Every sheet has the size and the units of the design. *)
Definition SheetTexts (w h p : T N) (u : Units) (parts : list (rpart N (info N))) : res (list string) :=
  bind (Init 3 w h p parts) (fun ds => Ok (map (fun d => WriteSVG co (NewSVGDocument w h u (s_renderables d))) ds)).
(** main.go:66-77, 315-334: the disk after a design is rendered and saved under the name [saveFile]; an error of Init writes nothing *)
Definition Deliver (w h p : T N) (u : Units) (parts : list (rpart N (info N))) (saveFile : string) (d : disk) : res disk :=
  bind (SheetTexts w h p u parts) (fun ts => Ok (save d saveFile ts)).
End Deliver.
