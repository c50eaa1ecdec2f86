(** Model of path/attributes.go, the texts: reading and writing the attributes of a path (GeomTransforms.v computes them). *)
From Coq Require Import String Ascii List ZArith Bool.
From Verif Require Import Num PathModel DrawModel SegOps Bezier GeomTransforms SvgParse DynModel SvgElement.
Import ListNotations.
Local Open Scope string_scope.

Section Text.
Context {N : Num}.
Notation P := (Pt N).
Variable co : CurveOps N.

(** path/attributes.go:96-111 [parsePoint]; dynmap.ToFloat64 trims each coordinate (dynmap/typecast.go:75-77) *)
Definition parsePoint (s : string) : option P :=
  match splitComma s with
  | [a; b] => match ToFloat64 (trim a), ToFloat64 (trim b) with Some x, Some y => Some (NewPoint x y) | _, _ => None end
  | _ => None
  end.

(** path/attributes.go:14-41: the names, in the cases of the switch of path/attributes.go:131-177 *)
Definition attrNamed (s : string) : attr N :=
  if String.eqb s "$ORIGIN" then AOrigin else if String.eqb s "$WIDTH" then AWidth else if String.eqb s "$HEIGHT" then AHeight
  else if String.eqb s "$START_POSITION" then AStartPosition else if String.eqb s "$END_POSITION" then AEndPosition
  else if String.eqb s "$START_POINT" then AStartPoint else if String.eqb s "$END_POINT" then AEndPoint
  else if String.eqb s "$TOP_LEFT" then ATopLeft else if String.eqb s "$TOP_RIGHT" then ATopRight else if String.eqb s "$TOP_MIDDLE" then ATopMiddle
  else if String.eqb s "$BOTTOM_RIGHT" then ABottomRight else if String.eqb s "$BOTTOM_LEFT" then ABottomLeft else if String.eqb s "$BOTTOM_MIDDLE" then ABottomMiddle
  else if String.eqb s "$MIDDLE_MIDDLE" then AMiddleMiddle else if String.eqb s "$MIDDLE_LEFT" then AMiddleLeft else if String.eqb s "$MIDDLE_RIGHT" then AMiddleRight
  else AUnknown.

(** path/attributes.go:180-189: the field after the first dot *)
Definition subNamed (ws : list string) : sub :=
  match ws with [] => NoSub | w :: _ => if String.eqb w "X" then SubX else if String.eqb w "Y" then SubY else SubOther end.

(** path/attributes.go:113-198 [PathAttribute] on the text *)
Definition PathAttributeText (s : string) (p : path N) : res (aval N) :=
  match parsePoint s with
  | Some q => Ok (VPoint q)
  | None => match splitDots s with [] => Err | w :: ws => PathAttribute co (attrNamed w) (subNamed ws) p end
  end.
(** path/attributes.go:82-94 [PointPathAttribute] *)
Definition PointPathAttributeText (s : string) (p : path N) : res P :=
  bind (PathAttributeText s p) (fun v => match v with VPoint q => Ok q | VNum _ => Err end).

(** path/attributes.go:44-62 [enumAttr] *)
Definition enumAttr : list string :=
  ["$TOP_LEFT"; "$TOP_RIGHT"; "$TOP_MIDDLE"; "$BOTTOM_LEFT"; "$BOTTOM_RIGHT"; "$BOTTOM_MIDDLE"; "$MIDDLE_LEFT"; "$MIDDLE_RIGHT"; "$MIDDLE_MIDDLE";
   "$START_POINT"; "$END_POINT"; "$START_POSITION"; "$END_POSITION"; "$WIDTH"; "$HEIGHT"; "$ORIGIN"; "$CURSOR"].
(** strings.Contains(str, ",") *)
Fixpoint hasComma (s : string) : bool := match s with "" => false | String c r => Ascii.eqb c "," || hasComma r end.
(** path/attributes.go:69-80 [ToPathAttr]; None is the error *)
Definition ToPathAttr (s : string) : option string :=
  if hasComma s then match parsePoint s with Some _ => Some s | None => None end
  else if existsb (String.eqb s) enumAttr then Some s else None.

(** path/attributes.go:65-67 [ToPathAttrFromPoint] *)
Definition ToPathAttrFromPoint (prec : nat) (c : P) : string := fmt prec (px c) ++ "," ++ fmt prec (py c).
End Text.
