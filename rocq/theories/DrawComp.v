(** Model of dom/draw_component.go: the draw component, a list of commands with attributes.
    The attributes of a command are functions from names to values found (dom/param_lookup.go; the search and the evaluation of expressions are in
    ParamModel.v). *)
From Coq Require Import String List ZArith Bool.
From Verif Require Import Num PathModel DrawModel SegOps TransformsModel Bezier GeomTransforms SvgParse Components.
Import ListNotations.
Local Open Scope string_scope.

Record attrs (N : Num) : Type := mkAttrs {
  at_point : string -> option (Pt N);
  at_float : string -> option (T N);
  at_text : string -> option string;
  at_bool : string -> option bool }.
Arguments at_point {N}. Arguments at_float {N}. Arguments at_text {N}. Arguments at_bool {N}. Arguments mkAttrs {N}.

Section DrawComp.
Context {N : Num}.
Notation P := (Pt N).
Variable co : CurveOps N.
Variable tr : Trig N.

(** "x, found := attr...; if !found return an error" *)
Definition need {A B} (o : option A) (f : A -> res B) : res B := match o with Some a => f a | None => Err end.
(** path/draw.go:272-281 [SvgPath] *)
Definition SvgPath (d : path N) (svg : string) : res (path N) := bind (ParsePathFromSvg svg) (fun p => Ok (AddSegments d p)).

(** dom/draw_component.go:100-302: one command.  The order of the lookups does not matter, as each failure is just an error. *)
Definition drawCommand (name : string) (a : attrs N) (d : path N) : res (path N) :=
  let point k f := need (at_point a k) f in
  let num k f := need (at_float a k) f in
  let svg f := need (at_text a "svg") (fun s => point "to" (fun to => bind (ParsePathFromSvg s) (fun p => f p to (match at_bool a "reverse" with Some b => b | None => false end)))) in
  if String.eqb name "move" then point "to" (fun to => Ok (MoveTo d to))
  else if String.eqb name "rel_move" then point "to" (fun to => Ok (RelMoveTo d to))
  else if String.eqb name "line_by_angle" then num "length" (fun l => num "angle" (fun an => Ok (LineByAngle tr d l an)))
  else if String.eqb name "line" then point "to" (fun to => Ok (LineTo d to))
  else if String.eqb name "rel_line" then point "to" (fun to => Ok (RelLineTo d to))
  else if String.eqb name "curve" then point "to" (fun to => point "ctrl_start" (fun cs => point "ctrl_end" (fun ce => Ok (CurveTo d cs ce to))))
  else if String.eqb name "rel_curve" then point "to" (fun to => point "ctrl_start" (fun cs => point "ctrl_end" (fun ce => Ok (RelCurveTo d cs ce to))))
  else if String.eqb name "smooth_curve" then point "to" (fun to => point "ctrl_end" (fun ce => Ok (SmoothCurveTo d ce to)))
  else if String.eqb name "rel_smooth_curve" then point "to" (fun to => point "ctrl_end" (fun ce => Ok (RelSmoothCurveTo d ce to)))
  else if String.eqb name "circle" then num "radius" (fun r => Ok (Circle d r))
  else if String.eqb name "rectangle" then num "width" (fun w => num "height" (fun h => Ok (Rect d w h)))
  else if String.eqb name "round_corner" then num "radius" (fun r => point "to" (fun to => point "corner" (fun c => Ok (RoundedCornerTo tr d to c r))))
  else if String.eqb name "rel_round_corner" then num "radius" (fun r => point "to" (fun to => point "corner" (fun c => Ok (RelRoundedCornerTo tr d to c r))))
  else if String.eqb name "svg" then need (at_text a "svg") (SvgPath d)
  else if String.eqb name "svg_scale_to" then svg (fun p to rev => svgScaleTo co d p to rev)
  else if String.eqb name "rel_svg_scale_to" then svg (fun p to rev => svgScaleTo co d p (ToAbsPosition d to) rev)
  else if String.eqb name "svg_connect_to" then svg (fun p to rev => svgRotateScaleTo co tr d p to rev)
  else if String.eqb name "rel_svg_connect_to" then svg (fun p to rev => svgRotateScaleTo co tr d p (ToAbsPosition d to) rev)
  else Err.

Fixpoint drawCommands (cs : list (string * attrs N)) (d : path N) : res (path N) :=
  match cs with
  | [] => Ok d
  | (name, a) :: r => bind (drawCommand name a d) (drawCommands r)
  end.

(** dom/draw_component.go:92-307 [DrawComponent.Render] *)
Definition DrawRender (ts : list (path N -> res (path N))) (cs : list (string * attrs N)) (cursor : P) : res (path N * P) :=
  bind (drawCommands cs (MoveTo NewDraw cursor)) (HandleTransforms ts).
End DrawComp.
