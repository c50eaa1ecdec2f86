(** Model of the sheet layout: dom/planset.go and the layout half of dom/svg_renderer.go. *)
From Coq Require Import String List ZArith Bool.
From Verif Require Import Num PathModel BinPack.
Import ListNotations.
Local Open Scope num_scope.

Section PlanSet.
Context {N : Num}.
Context {O : Type}.         (* identity of a rendered part *)
Notation F := (T N).

(** the fields of RenderedPart (dom/part.go) that layout looks at: the part, Width, Height *)
Definition rpart := (O * F * F)%type.

(** dom/svg_renderer.go:36-42 [docRenderable] without the segment operators *)
Record renderable := mkRenderable { r_part : rpart; r_pos : Pt N; r_rot : bool }.

(** dom/svg_renderer.go:45-75 [SVGDocument]: Padding, layoutContainer (its X, Y, Width, Height are those of its root
    bin) and renderables.  Width/Height, Units and styles only reach the text header and are left out. *)
Record sheet := mkSheet { s_padding : F; s_container : bin N O; s_renderables : list renderable }.

(** dom/planset.go:30-44 [createSvgDoc], dom/svg_renderer.go:135-161 [NewSVGDocument]; material_width,
    material_height and doc_padding are the parameters [w], [h], [p] *)
Definition newSheet (w h p : F) : sheet := mkSheet p (NewContainer zero zero w h) [].

(** dom/svg_renderer.go:211-252 [SVGDocument.Add] *)
Definition addToSheet (fuel : nat) (d : sheet) (q : rpart) : res (bool * sheet) :=
  let '(o, w, h) := q in
  if leb h zero || leb w zero then Err
  else if isnan w || isnan h then Err
  else
    bind (InsertWithPadding fuel (s_container d) o w h (s_padding d)) (fun '(ans, c') =>
      match ans with
      | Some (r, rot) => Ok (true, mkSheet (s_padding d) c' (s_renderables d ++ [mkRenderable q (NewPoint (rx r) (ry r)) rot]))
      | None =>
          if IsEmpty c' then
            let r := binRect c' in
            Ok (true, mkSheet (s_padding d) (NewSingleObjectContainer o (rx r) (ry r) (rw r) (rh r))
                        (s_renderables d ++ [mkRenderable q (NewPoint (rx r) (ry r)) false]))
          else Ok (false, mkSheet (s_padding d) c' (s_renderables d))
      end).

(** dom/planset.go:50-60, the loop of [addPart] over the existing sheets: the first sheet that takes the part *)
Fixpoint addLoop (fuel : nat) (ds : list sheet) (q : rpart) : res (bool * list sheet) :=
  match ds with
  | [] => Ok (false, [])
  | d :: rest =>
      bind (addToSheet fuel d q) (fun '(ok, d') =>
        if ok then Ok (true, d' :: rest)
        else bind (addLoop fuel rest q) (fun '(ok', rest') => Ok (ok', d' :: rest')))
  end.

(** dom/planset.go:50-73 [addPart] *)
Definition addPart (fuel : nat) (w h p : F) (ds : list sheet) (q : rpart) : res (bool * list sheet) :=
  bind (addLoop fuel ds q) (fun '(ok, ds') =>
    if ok then Ok (true, ds')
    else bind (addToSheet fuel (newSheet w h p) q) (fun '(ok2, d) =>
      if ok2 then Ok (true, ds' ++ [d]) else Ok (false, ds'))).

(** dom/planset.go:75-102 [Init] after rendering: the rendered parts, in order, are the argument.  An error of addPart
    or a part that was not added ends Init with an error. *)
Fixpoint addAll (fuel : nat) (w h p : F) (ds : list sheet) (qs : list rpart) : res (list sheet) :=
  match qs with
  | [] => Ok ds
  | q :: rest => bind (addPart fuel w h p ds q) (fun '(ok, ds') => if ok then addAll fuel w h p ds' rest else Err)
  end.
Definition Init (fuel : nat) (w h p : F) (qs : list rpart) : res (list sheet) :=
  addAll fuel w h p [newSheet w h p] qs.

(** ** the transform written for a placed part *)
(** one entry of an SVG transform attribute, numbers as printed with %.3f *)
Inductive svgop :=
| OpRotate90 (cx cy : ftext)      (* rotate(90 cx cy) *)
| OpTranslate (tx ty : ftext).    (* translate(tx ty) *)

(** dom/svg_renderer.go:85-98, the transforms of [docRenderable.render] *)
Definition drawTransforms (d : renderable) : list svgop :=
  let '(_, _, h) := r_part d in
  let ty := py (r_pos d) in
  if r_rot d
  then let tx := px (r_pos d) + h in [OpRotate90 (fmtd 3 tx) (fmtd 3 ty); OpTranslate (fmtd 3 tx) (fmtd 3 ty)]
  else let tx := px (r_pos d) in [OpTranslate (fmtd 3 tx) (fmtd 3 ty)].

(** dom/svg_renderer.go:94, 97, 99: the text *)
Definition opText (o : svgop) : string :=
  match o with
  | OpRotate90 a b => "rotate(90 " ++ render 3 a ++ " " ++ render 3 b ++ ")"
  | OpTranslate a b => "translate(" ++ render 3 a ++ " " ++ render 3 b ++ ")"
  end%string.
Definition transformText (d : renderable) : string := String.concat " " (map opText (drawTransforms d)).

End PlanSet.
Arguments renderable N O : clear implicits.
Arguments sheet N O : clear implicits.
Arguments rpart N O : clear implicits.
