(** C19: matrix transforms compose like SVG matrices. *)
From Coq Require Import List ZArith Bool Reals Lra.
From Verif Require Import Num RealNum FloatNum PathModel SegOps Bezier GeomTransforms PathSpec GeomSpec BezierProofs GeomProofs AffineProofs Witness.
Import ListNotations.
Local Open Scope R_scope.

Definition rmatrix (a b c d e f : R) : matrix RNum := @mkMatrix RNum (Fin a) (Fin b) (Fin c) (Fin d) (Fin e) (Fin f).

Lemma matrix_aff a b c d e f : isAff (matrixPoint (rmatrix a b c d e f)) (mkAff a b c d e f).
Proof.
  intros p F. unfold matrixPoint, rmatrix; cbn [m_a m_b m_c m_d m_e m_f]. rewrite (px_fin _ F), (py_fin _ F). fin. rewrite NewPoint_fin.
  unfold affPt, affX, affY; cbn. unfold pnt. f_equal; f_equal; ring.
Qed.

(** every point (x, y) of every drawn segment goes to (ax + cy + e, bx + dy + f) *)
Theorem C19_matrix_formula a b c d e f (p : list (seg RNum)) : Forall finiteSeg p ->
  drawn (MatrixT (rmatrix a b c d e f) p) =
    map (fun g => TransformPoints g (fun q => pnt (a * X q + c * Y q + e) (b * X q + d * Y q + f))) (drawn p) /\
  (forall x y, inDrawing (MatrixT (rmatrix a b c d e f) p) x y <->
     exists x' y', inDrawing p x' y' /\ x = a * x' + c * y' + e /\ y = b * x' + d * y' + f).
Proof.
  intros F. split.
  - unfold MatrixT. rewrite (mapPoints_drawn _ _ p (matrix_aff a b c d e f) F). reflexivity.
  - intros x y. unfold MatrixT. rewrite (inDrawing_aff _ _ p _ _ (matrix_aff a b c d e f) F). reflexivity.
Qed.

(** two in turn are the one with the product of the 3x3 matrices, whole path *)
Theorem C19_matrix_composes a b c d e f a' b' c' d' e' f' (p : list (seg RNum)) : Forall finiteSeg p ->
  MatrixT (rmatrix a' b' c' d' e' f') (MatrixT (rmatrix a b c d e f) p) =
  MatrixT (rmatrix (a' * a + c' * b) (b' * a + d' * b) (a' * c + c' * d) (b' * c + d' * d) (a' * e + c' * f + e') (b' * e + d' * f + f')) p.
Proof.
  intros F. unfold MatrixT. eapply mapPoints_comp; eauto using matrix_aff.
Qed.

Theorem C19_identity (p : list (seg RNum)) : Forall finiteSeg p ->
  drawn (MatrixT (rmatrix 1 0 0 1 0 0) p) = drawn p /\ ((exists e r, p = Move (pnt 0 0) e :: r) -> MatrixT (rmatrix 1 0 0 1 0 0) p = p).
Proof.
  intros F. unfold MatrixT.
  assert (E : map (affSeg (mkAff 1 0 0 1 0 0)) p = p).
  { rewrite <- (map_id p) at 2. apply map_ext_in. intros g Hg. eapply Forall_forall in F; [|exact Hg]. apply affSeg_id; auto. }
  rewrite (mapPoints_canon _ _ p (matrix_aff 1 0 0 1 0 0) F), E. split; [apply canon_drawn|]. intros (x & r & ->). reflexivity.
Qed.

(** an invertible matrix followed by its inverse restores the drawing *)
Theorem C19_inverse a b c d e f (p : list (seg RNum)) : Forall finiteSeg p -> a * d - b * c <> 0 ->
  let k := a * d - b * c in
  drawn (MatrixT (rmatrix (d / k) (- b / k) (- c / k) (a / k) ((c * f - d * e) / k) ((b * e - a * f) / k)) (MatrixT (rmatrix a b c d e f) p)) = drawn p.
Proof.
  intros F Hk k. rewrite C19_matrix_composes by auto.
  replace (rmatrix _ _ _ _ _ _) with (rmatrix 1 0 0 1 0 0); [apply C19_identity; auto|].
  unfold rmatrix, k. f_equal; f_equal; field; auto.
Qed.

Example C19_example :
  let p := [Move (pt 0 0) (pt 2 1); Line (pt 2 1) (pt 6 9); Curve (pt 6 9) (pt 1 1) (pt 2 2) (pt 3 3)] in
  dpath (MatrixT (@mkMatrix FNum (fz 1) (fz 2) (fz 3) (fz 4) (fz 5) (fz 6)) p) =
  dpath [Move (pt 0 0) (pt 10 14); Line (pt 10 14) (pt 38 54); Curve (pt 38 54) (pt 9 12) (pt 13 18) (pt 17 24)].
Proof. vm_compute. reflexivity. Qed.
Example C19_hypotheses : Forall finiteSeg [Move (pnt 0 0) (pnt 2 1); Line (pnt 2 1) (pnt 6 9)] /\ 1 * 4 - 2 * 3 <> 0.
Proof. split; [repeat constructor|lra]. Qed.
Print Assumptions C19_matrix_composes.
