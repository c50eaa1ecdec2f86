(** Model of dom/transform_factories.go, of the transforms made from documents (dom/app_context.go:188-229, parser/parser.go:28-41) and of
    dom/models.go HandleTransforms as a whole.
    The attributes of a transform are functions from names to the values found (dom/param_lookup.go, see ParamModel.v), as in DrawComp.v. *)
From Coq Require Import String List ZArith Bool.
From Verif Require Import Num PathModel DrawModel SegOps TransformsModel OffsetModel Bezier GeomTransforms SvgParse AttrText Components DrawComp.
Import ListNotations.
Local Open Scope string_scope.

Section Factories.
Context {N : Num}.
Notation F := (T N).
Notation P := (Pt N).
Variable co : CurveOps N.
Variable tr : Trig N.
Variable dop : Z.
(** fuel of the loops of join, offset and slice, spare capacity of a slice, see [JoinT] *)
Variable fuel : nat.
Variable roomy : bool.
(** int(f), for numbers that are not negative (dom/param_lookup.go:294-300) *)
Variable toInt : F -> nat.
(** AppContext().Precision() is path.DefaultPrecision (dom/app_context.go:65, path/path.go:12) *)
Definition appPrecision : nat := 3.

(** dom/param_lookup.go:286-292 [MustInt] *)
Definition mustInt (a : attrs N) (k : string) (d : nat) : nat := match at_float a k with Some f => toInt f | None => d end.
(** dom/param_lookup.go:94-100, 302-308 [MustPoint], [MustFloat64] *)
Definition mustPoint (a : attrs N) (k : string) (d : P) : P := match at_point a k with Some p => p | None => d end.
Definition mustFloat (a : attrs N) (k : string) (d : F) : F := match at_float a k with Some f => f | None => d end.
(** dom/param_lookup.go:219-225 [MustString] *)
Definition mustText (a : attrs N) (k : string) (d : string) : string := match at_text a k with Some s => s | None => d end.
(** dom/param_lookup.go:227-246 [MustHandle], [Handle] with default path.TopLeft; the handle as GeomTransforms.v uses it *)
Definition mustHandle (a : attrs N) (k : string) : attr N :=
  match at_text a k with
  | None => ATopLeft
  | Some s => match ToPathAttr (N := N) s with
              | None => ATopLeft
              | Some s => match parsePoint s with Some q => APoint q | None => attrNamed s end
              end
  end.

(** The CreateTransform of each factory; the type is the one its TransformTypes returns. *)
(** dom/transform_factories.go:34-44 *)
Definition createCleanup (a : attrs N) : res (path N -> res (path N)) := Ok (fun p => Ok (Cleanup (mustInt a "precision" appPrecision) p)).
(** dom/transform_factories.go:49-66 *)
Definition createRotate (a : attrs N) := need (at_float a "degrees") (fun d => Ok (fun p => RotateT co tr d (mustHandle a "axis") p)).
(** dom/transform_factories.go:71-81 *)
Definition createReorder (a : attrs N) : res (path N -> res (path N)) := Ok (fun p => Reorder (mustInt a "precision" 3) p).
(** dom/transform_factories.go:86-93 *)
Definition createReverse (a : attrs N) : res (path N -> res (path N)) := Ok (fun p => Ok (PathReverse p)).
(** dom/transform_factories.go:98-110; close_path is read from the map itself, here [at_bool] *)
Definition createJoin (a : attrs N) : res (path N -> res (path N)) :=
  Ok (fun p => JoinT co dop fuel roomy (match at_bool a "close_path" with Some b => b | None => false end) (mustInt a "precision" 3) p).
(** dom/transform_factories.go:115-144 *)
Definition sizeOf (a : attrs N) : sizeShouldBe :=
  match at_text a "size_should_be" with
  | Some s => if String.eqb s "smaller" then Smaller else if String.eqb s "larger" then Larger else Unknown
  | None => Unknown
  end.
Definition createOffset (a : attrs N) := need (at_float a "distance") (fun d => Ok (fun p => OffsetT co dop fuel roomy fuel (sizeOf a) (mustInt a "precision" 3) d p)).
(** dom/transform_factories.go:149-167 *)
Definition createMove (a : attrs N) := need (at_point a "to") (fun to => Ok (fun p => MoveT co to (mustHandle a "handle") p)).
(** dom/transform_factories.go:172-181 *)
Definition createTrim (a : attrs N) : res (path N -> res (path N)) := Ok (fun p => TrimWhitespace co p).
(** dom/transform_factories.go:187-201 *)
Definition createSlice (a : attrs N) := need (at_float a "y") (fun y => Ok (fun p => HSlice co dop fuel y appPrecision p)).
(** dom/transform_factories.go:207-231 *)
Definition createScale (a : attrs N) : res (path N -> res (path N)) :=
  Ok (fun p => ScaleT co (mkScale (mustFloat a "scale_x" (ofZ 1)) (mustFloat a "scale_y" (ofZ 1)) (mustPoint a "start_point" (NewPoint zero zero)) (mustPoint a "end_point" (NewPoint zero zero))
                                  (mustFloat a "width" zero) (mustFloat a "height" zero)) p).
(** dom/transform_factories.go:237-253; the handle of the transform stays empty, that is $TOP_LEFT *)
Definition createMirror (a : attrs N) : res (path N -> res (path N)) :=
  Ok (fun p => MirrorT co (negb (String.eqb (mustText a "axis" "horizontal") "vertical")) ATopLeft p).
(** dom/transform_factories.go:259-272 *)
Definition createRotateScale (a : attrs N) : res (path N -> res (path N)) :=
  Ok (fun p => RotateScaleT co tr (mustPoint a "start_point" (NewPoint zero zero)) (mustPoint a "end_point" (NewPoint zero zero)) p).
(** dom/transform_factories.go:278-321 *)
Definition createMatrix (a : attrs N) : res (path N -> res (path N)) :=
  need (at_float a "a") (fun ma => need (at_float a "b") (fun mb => need (at_float a "c") (fun mc =>
  need (at_float a "d") (fun md => need (at_float a "e") (fun me => need (at_float a "f") (fun mf => Ok (fun p => Ok (MatrixT (mkMatrix ma mb mc md me mf) p)))))))).

(** parser/parser.go:28-41: the factories that are registered, by type (dom/app_context.go:89-91, 102-109) *)
Definition registered : list (string * (attrs N -> res (path N -> res (path N)))) :=
  [("cleanup", createCleanup); ("rotate", createRotate); ("reverse", createReverse); ("join", createJoin); ("offset", createOffset); ("move", createMove);
   ("trim", createTrim); ("matrix", createMatrix); ("mirror", createMirror); ("scale", createScale); ("slice", createSlice); ("rotate_scale", createRotateScale)].

(** dom/app_context.go:197-204 [MakeTransform] *)
Definition MakeTransform (name : string) (a : attrs N) : res (path N -> res (path N)) :=
  match find (fun e => String.eqb name (fst e)) registered with Some e => snd e a | None => Err end.
(** dom/app_context.go:219-229 [MakeTransforms]; a transform is its type ("unknown" if there is none) and its attributes *)
Definition MakeTransforms (l : list (string * attrs N)) : res (list (path N -> res (path N))) := each (fun e => MakeTransform (fst e) (snd e)) l.

(** dom/models.go:226-247 [HandleTransforms], the transforms made first *)
Definition ComponentTransforms (l : list (string * attrs N)) (p : path N) : res (path N * P) := bind (MakeTransforms l) (fun ts => HandleTransforms ts p).
End Factories.
