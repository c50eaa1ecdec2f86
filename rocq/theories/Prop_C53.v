(** C53: smooth curves continue the curve before them. *)
From Coq Require Import List ZArith Bool Reals Lra Psatz.
From Verif Require Import Num FloatNum RealNum PathModel DrawModel PathSpec PathProofs GeomSpec BezierProofs Prop_C39 Prop_C52 Witness.
Import ListNotations.
Local Open Scope R_scope.

(** After a curve, a smooth curve starts where the curve ended and with the velocity the curve ended with. *)
Theorem C53_smooth (d0 : path RNum) s cs e ce c2 p : finitePt e -> finitePt ce -> exists c1,
  SmoothCurveTo (d0 ++ [Curve s cs e ce]) c2 p = d0 ++ [Curve s cs e ce; Curve e c1 p c2] /\ finitePt c1 /\
  (exists v, derivable_pt_lim (cubic (X s) (X cs) (X ce) (X e)) 1 v /\ derivable_pt_lim (cubic (X e) (X c1) (X c2) (X p)) 0 v) /\
  (exists v, derivable_pt_lim (cubic (Y s) (Y cs) (Y ce) (Y e)) 1 v /\ derivable_pt_lim (cubic (Y e) (Y c1) (Y c2) (Y p)) 0 v).
Proof.
  intros F1 F2. unfold SmoothCurveTo, CurveTo. rewrite pen_CurrentPosition, pen_end. cbn [send].
  rewrite Tail_snoc, (px_fin _ F1), (py_fin _ F1), (px_fin _ F2), (py_fin _ F2). fin. rewrite NewPoint_fin, <- app_assoc. eexists. split; [reflexivity|]. split; [reflexivity|]. rewrite pnt_X, pnt_Y.
  split; [exists (3 * (X e - X ce))|exists (3 * (Y e - Y ce))]; split.
  all: match goal with |- derivable_pt_lim _ ?t ?v => match goal with |- derivable_pt_lim (cubic ?a ?b ?c ?d) _ _ =>
         replace v with (dquad (3 * (b - a)) (3 * (c - b)) (3 * (d - c)) t) by (unfold dquad; ring); apply cubic_derivable end end.
Qed.
Print Assumptions C53_smooth.
(** that is, the end of the curve is halfway between its second control point and the new first one *)
Theorem C53_mirrored (d0 : path RNum) s cs e ce c2 p : finitePt e -> finitePt ce -> exists c1,
  SmoothCurveTo (d0 ++ [Curve s cs e ce]) c2 p = d0 ++ [Curve s cs e ce; Curve e c1 p c2] /\ (X c1 + X ce) / 2 = X e /\ (Y c1 + Y ce) / 2 = Y e.
Proof.
  intros F1 F2. unfold SmoothCurveTo, CurveTo. rewrite pen_CurrentPosition, pen_end. cbn [send].
  rewrite Tail_snoc, (px_fin _ F1), (py_fin _ F1), (px_fin _ F2), (py_fin _ F2). fin. rewrite NewPoint_fin, <- app_assoc. eexists. split; [reflexivity|]. rewrite pnt_X, pnt_Y. split; field.
Qed.
Print Assumptions C53_mirrored.
(** After a move or a line, and at the start, the first control point is the current position. *)
Theorem C53_no_curve_before (d : path RNum) c2 p : finitePt (pen d) -> (d = [] \/ exists d0 g, d = d0 ++ [g] /\ match g with Curve _ _ _ _ => False | _ => True end) ->
  SmoothCurveTo d c2 p = d ++ [Curve (pen d) (pen d) p c2].
Proof.
  intros F H. unfold SmoothCurveTo, CurveTo. rewrite pen_CurrentPosition, (px_fin _ F), (py_fin _ F). rewrite NewPoint_fin, <- (pnt_eta _ F). destruct H as [->|(d0 & g & -> & H)]; [reflexivity|].
  rewrite Tail_snoc. destruct g; [reflexivity|reflexivity|destruct H].
Qed.
Print Assumptions C53_no_curve_before.
(** The relative form is the same with both arguments counted from the current position. *)
Theorem C53_relative (d : path RNum) a b x y : finitePt (pen d) ->
  RelSmoothCurveTo d (pnt a b) (pnt x y) = SmoothCurveTo d (pnt (X (pen d) + a) (Y (pen d) + b)) (pnt (X (pen d) + x) (Y (pen d) + y)).
Proof. intros F. unfold RelSmoothCurveTo. rewrite !abs_fin by auto. reflexivity. Qed.
Print Assumptions C53_relative.

Example C53_example : SmoothCurveTo [Move (pnt 0 0) (pnt 1 1); Curve (pnt 1 1) (pnt 1 2) (pnt 3 3) (pnt 2 3)] (pnt 5 4) (pnt 5 5) =
  [Move (pnt 0 0) (pnt 1 1); Curve (pnt 1 1) (pnt 1 2) (pnt 3 3) (pnt 2 3); Curve (pnt 3 3) (pnt 4 3) (pnt 5 5) (pnt 5 4)] /\ finitePt (pnt 3 3).
Proof.
  split; [|reflexivity]. destruct (C53_mirrored [Move (pnt 0 0) (pnt 1 1)] (pnt 1 1) (pnt 1 2) (pnt 3 3) (pnt 2 3) (pnt 5 4) (pnt 5 5) eq_refl eq_refl) as (c1 & E & E1 & E2).
  destruct (C53_smooth [Move (pnt 0 0) (pnt 1 1)] (pnt 1 1) (pnt 1 2) (pnt 3 3) (pnt 2 3) (pnt 5 4) (pnt 5 5) eq_refl eq_refl) as (c1' & E' & F' & _).
  cbn [app] in E, E'. rewrite E in E'. rewrite E. injection E' as <-. rewrite !pnt_X in E1. rewrite !pnt_Y in E2. assert (C : c1 = pnt 4 3) by (rewrite F'; unfold pnt; do 2 f_equal; lra). rewrite C. reflexivity.
Qed.
