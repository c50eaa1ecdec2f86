(** C39: quadratic curves are converted without changing shape. *)
From Coq Require Import List ZArith Bool Reals Lra Psatz.
From Verif Require Import Num FloatNum RealNum PathModel DrawModel PathSpec GeomSpec BezierProofs Witness.
Import ListNotations.
Local Open Scope R_scope.

(** the quadratic Bezier polynomial *)
Definition quad (a b c t : R) : R := (1 - t) ^ 2 * a + 2 * (1 - t) * t * b + t ^ 2 * c.

(** where the pen is after drawing d *)
Definition pen (d : path RNum) : Pt RNum := match rev d with [] => pnt 0 0 | g :: _ => send g end.
Lemma pen_CurrentPosition d : CurrentPosition d = pen d.
Proof.
  unfold pen. destruct d as [|g r] using rev_ind; [apply NewPoint_fin|]. rewrite rev_unit.
  unfold CurrentPosition. destruct r; cbn [app]; [reflexivity|]. f_equal. rewrite app_comm_cons, last_last. auto.
Qed.

(** QCurveTo appends one curve from the pen to p whose X follows the quadratic curve exactly; its Y is off by
    2 (1-t)^2 t (pen.Y - pen.X). *)
Theorem C39_traced (d : path RNum) c p : finitePt (pen d) -> finitePt c -> finitePt p ->
  exists cs ce, QCurveTo d c p = d ++ [Curve (pen d) cs p ce] /\
  forall t,
    cubic (X (pen d)) (X cs) (X ce) (X p) t = quad (X (pen d)) (X c) (X p) t /\
    cubic (Y (pen d)) (Y cs) (Y ce) (Y p) t =
      quad (Y (pen d)) (Y c) (Y p) t + 2 * (1 - t) ^ 2 * t * (Y (pen d) - X (pen d)).
Proof.
  intros F1 F2 F3. unfold QCurveTo, CurveTo, two_thirds. rewrite pen_CurrentPosition.
  rewrite (px_fin _ F1), (py_fin _ F1), (px_fin _ F2), (py_fin _ F2), (px_fin _ F3), (py_fin _ F3). fin. rewrite fdiv by lra. fin. rewrite !NewPoint_fin.
  do 2 eexists. split; [reflexivity|]. intros t. rewrite !pnt_X, !pnt_Y. unfold cubic, quad. split; field.
Qed.
Print Assumptions C39_traced.

(** Full claim: the curve traces the quadratic curve.  Proved when the pen is on the diagonal X = Y (for instance at the
    origin); otherwise false. *)
Theorem C39_same_shape_partial (d : path RNum) c p : finitePt (pen d) -> finitePt c -> finitePt p -> X (pen d) = Y (pen d) ->
  exists g, QCurveTo d c p = d ++ [g] /\ visible g /\
  forall x y, onSeg g x y <-> exists t, 0 <= t <= 1 /\ x = quad (X (pen d)) (X c) (X p) t /\ y = quad (Y (pen d)) (Y c) (Y p) t.
Proof.
  intros F1 F2 F3 E. destruct (C39_traced d c p F1 F2 F3) as (cs & ce & EQ & T). eexists. split; [exact EQ|]. split; [reflexivity|].
  intros x y. unfold onSeg. split; intros (t & Ht & -> & ->); exists t; split; auto; destruct (T t) as [T1 T2]; rewrite T1, T2, E; split; ring.
Qed.
Print Assumptions C39_same_shape_partial.

(** Finding: from any pen position off the diagonal the curve leaves the quadratic curve at every interior parameter. *)
Theorem C39_shape_refuted (d : path RNum) c p : finitePt (pen d) -> finitePt c -> finitePt p -> X (pen d) <> Y (pen d) ->
  exists cs ce, QCurveTo d c p = d ++ [Curve (pen d) cs p ce] /\
  forall t, 0 < t < 1 -> cubic (Y (pen d)) (Y cs) (Y ce) (Y p) t <> quad (Y (pen d)) (Y c) (Y p) t.
Proof.
  intros F1 F2 F3 N. destruct (C39_traced d c p F1 F2 F3) as (cs & ce & EQ & T). exists cs, ce. split; [auto|].
  intros t Ht E. destruct (T t) as [_ T2]. rewrite T2 in E.
  assert (Z : 2 * (1 - t) ^ 2 * t * (Y (pen d) - X (pen d)) = 0) by lra.
  assert (0 < 2 * (1 - t) ^ 2 * t) by (apply Rmult_lt_0_compat; [apply Rmult_lt_0_compat; [lra|apply pow_lt; lra]|lra]).
  apply Rmult_integral in Z. destruct Z; lra.
Qed.
Print Assumptions C39_shape_refuted.

(** the relative form is the same curve with both arguments displaced by the pen *)
Theorem C39_relative (d : path RNum) c p : finitePt (pen d) -> finitePt c -> finitePt p ->
  RelQCurveTo d c p = QCurveTo d (pnt (X (pen d) + X c) (Y (pen d) + Y c)) (pnt (X (pen d) + X p) (Y (pen d) + Y p)).
Proof.
  intros F1 F2 F3. unfold RelQCurveTo, ToAbsPosition. rewrite pen_CurrentPosition.
  rewrite (px_fin _ F1), (py_fin _ F1), (px_fin _ F2), (py_fin _ F2), (px_fin _ F3), (py_fin _ F3). fin. rewrite !NewPoint_fin. reflexivity.
Qed.
Print Assumptions C39_relative.

(** from (3, 0), in binary64: the first control point should be (3, 2) and is (3, 0) *)
Example C39_example : QCurveTo [mv 0 0 3 0] (pt 3 3) (pt 0 3) = [mv 0 0 3 0; Curve (pt 3 0) (pt 3 0) (pt 0 3) (pt 2 3)].
Proof. byp. Qed.
Example C39_example_diag : let d := [Move (pnt 0 0) (pnt 2 2)] in finitePt (pen d) /\ X (pen d) = Y (pen d) /\
  let e := [Move (pnt 0 0) (pnt 3 0)] in finitePt (pen e) /\ X (pen e) <> Y (pen e).
Proof. cbn. repeat split. lra. Qed.
