(** C01 (continued): what each drawing call draws. *)
From Coq Require Import String List ZArith Reals Lra.
From Verif Require Import Num RealNum RealTrig PathModel DrawModel PathSpec PathProofs GeomSpec GeomProofs SegOps Bezier RootsProofs SvgText BezierProofs Components DrawComp CompProofs Prop_C58 Prop_C70.
Import ListNotations.
Local Open Scope R_scope.
Local Open Scope list_scope.

(** what a call asks for, in the words of C70: [here p] is where the pen is *)
Inductive asksFor (p : path RNum) : @drawop RNum -> instr -> Prop :=
| AMove x y : asksFor p (OMoveTo (pnt x y)) (IMove false x y)
| ARelMove x y : asksFor p (ORelMoveTo (pnt x y)) (IMove true x y)
| ALine x y : asksFor p (OLineTo (pnt x y)) (ILine false x y)
| ARelLine x y : asksFor p (ORelLineTo (pnt x y)) (ILine true x y)
| AHLine x : asksFor p (OHLineTo (Fin x : T RNum)) (ILine false x (Y (here p)))
| AVLine y : asksFor p (OVLineTo (Fin y : T RNum)) (ILine false (X (here p)) y)
| ARelHLine x : asksFor p (ORelHLineTo (Fin x : T RNum)) (ILine true x 0)
| ARelVLine y : asksFor p (ORelVLineTo (Fin y : T RNum)) (ILine true 0 y)
| ACurve x1 y1 x2 y2 x y : asksFor p (OCurveTo (pnt x1 y1) (pnt x2 y2) (pnt x y)) (ICurve false x1 y1 x2 y2 x y)
| ARelCurve x1 y1 x2 y2 x y : asksFor p (ORelCurveTo (pnt x1 y1) (pnt x2 y2) (pnt x y)) (ICurve true x1 y1 x2 y2 x y)
| ASmooth x2 y2 x y : asksFor p (OSmoothCurveTo (pnt x2 y2) (pnt x y)) (ISmooth false x2 y2 x y)
| ARelSmooth x2 y2 x y : asksFor p (ORelSmoothCurveTo (pnt x2 y2) (pnt x y)) (ISmooth true x2 y2 x y)
| AAngle len angle : asksFor p (OLineByAngle (Fin len : T RNum) (Fin angle : T RNum)) (IAngle len angle)
| ARect w h : asksFor p (ORect (Fin w : T RNum) (Fin h : T RNum)) (IRect w h)
| ACircle r : asksFor p (OCircle (Fin r : T RNum)) (ICircle r).

(** Each of these calls adds exactly the strokes it asks for, in exact arithmetic: see [traces] in C70. *)
Theorem C01_strokes (d : path RNum) o i : d <> [] -> Forall finiteSeg d -> asksFor d o i -> drawstep RTrig d o = traces d i.
Proof.
  intros ND F A. pose proof (here_finite d F) as FH. pose (co := BezierOps RTrig RBMath 0). pose proof (here_pos d) as HP.
  pose (at2 := fun (to c1 c2 : Pt RNum) (u v : T RNum) => mkAttrs (fun k => if String.eqb k "to" then Some to else if String.eqb k "ctrl_start" then Some c1 else if String.eqb k "ctrl_end" then Some c2 else None)
    (fun k => if String.eqb k "length" then Some u else if String.eqb k "angle" then Some v else if String.eqb k "width" then Some u else if String.eqb k "height" then Some v else if String.eqb k "radius" then Some u else None) (fun _ => None) (fun _ => None)).
  assert (Go : forall to c1 c2 u v (q : path RNum), carries (at2 to c1 c2 u v) i -> drawCommand co RTrig (spelled i) (at2 to c1 c2 u v) d = Ok q -> q = traces d i).
  { intros to c1 c2 u v q C E. destruct (command_traces co (spelled i) (at2 to c1 c2 u v) i d ND F (conj eq_refl C)) as [E' _]. congruence. }
  assert (Z : pnt 0 0 = pnt 0 0) by reflexivity.
  destruct A as [x y|x y|x y|x y|x|y|x|y|x1 y1 x2 y2 x y|x1 y1 x2 y2 x y|x2 y2 x y|x2 y2 x y|len angle|w h|r]; cbn [drawstep].
  all: try (unfold HLineTo, VLineTo; rewrite HP, ?(py_fin _ FH), ?(px_fin _ FH), NewPoint_fin).
  all: try (unfold RelHLineTo, RelVLineTo; change (@zero RNum) with (Fin 0 : T RNum); rewrite NewPoint_fin).
  1-8: match goal with |- context [pnt ?a ?b] => apply (Go (pnt a b) (pnt 0 0) (pnt 0 0) (Fin 0) (Fin 0)); reflexivity end.
  1-2: apply (Go (pnt x y) (pnt x1 y1) (pnt x2 y2) (Fin 0) (Fin 0)); [repeat split|reflexivity].
  1-2: apply (Go (pnt x y) (pnt 0 0) (pnt x2 y2) (Fin 0) (Fin 0)); [repeat split|reflexivity].
  - apply (Go (pnt 0 0) (pnt 0 0) (pnt 0 0) (Fin len) (Fin angle)); [repeat split|reflexivity].
  - apply (Go (pnt 0 0) (pnt 0 0) (pnt 0 0) (Fin w) (Fin h)); [repeat split|reflexivity].
  - apply (Go (pnt 0 0) (pnt 0 0) (pnt 0 0) (Fin r) (Fin 0)); [repeat split|reflexivity].
Qed.
Print Assumptions C01_strokes.

(** a rectangle 10 wide and 5 high, drawn from (1,2) *)
Example C01_strokes_ex : drawstep RTrig [Move (pnt 0 0) (pnt 1 2)] (ORect (Fin 10 : T RNum) (Fin 5 : T RNum)) =
  [Move (pnt 0 0) (pnt 1 2); Line (pnt 1 2) (pnt 11 2); Line (pnt 11 2) (pnt 11 7); Line (pnt 11 7) (pnt 1 7); Line (pnt 1 7) (pnt 1 2)].
Proof.
  rewrite (C01_strokes [Move (pnt 0 0) (pnt 1 2)] (ORect (Fin 10 : T RNum) (Fin 5 : T RNum)) (IRect 10 5)); [|discriminate|repeat constructor|constructor].
  unfold traces. cbn [here rev app send]. rewrite pnt_X, pnt_Y. replace (1 + 10) with 11 by lra. replace (2 + 5) with 7 by lra. reflexivity.
Qed.
