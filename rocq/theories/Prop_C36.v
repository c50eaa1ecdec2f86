(** C36: the bounding box overlap test is symmetric and exact. *)
From Coq Require Import List ZArith Bool Reals Lra.
From Verif Require Import Num RealNum FloatNum PathModel SegOps Bezier PathSpec GeomSpec BezierProofs Witness.
Import ListNotations.
Local Open Scope R_scope.

Lemma overlaps1_spec l1 h1 l2 h2 :
  @overlaps1 RNum (Fin l1) (Fin h1) (Fin l2) (Fin h2) = true <-> l1 < h2 /\ l2 < h1.
Proof.
  unfold overlaps1, two, geb. fin. rewrite !fdiv by lra. fin. cbn [nabs RNum er_abs]. fin.
  rewrite negb_true_iff, Rleb_false. unfold Rabs. destruct (Rcase_abs _); split; intros; try split; lra.
Qed.

(** (x, y) is strictly inside the rectangle *)
Definition inside (tl br : Pt RNum) (x y : R) : Prop := X tl < x < X br /\ Y tl < y < Y br.

(** for rectangles of positive size: true exactly when some point is strictly inside both *)
Theorem C36_exact (tl1 br1 tl2 br2 : Pt RNum) :
  finitePt tl1 -> finitePt br1 -> finitePt tl2 -> finitePt br2 ->
  X tl1 < X br1 -> Y tl1 < Y br1 -> X tl2 < X br2 -> Y tl2 < Y br2 ->
  (BoundingBoxOverlaps tl1 br1 tl2 br2 = true <-> exists x y, inside tl1 br1 x y /\ inside tl2 br2 x y).
Proof.
  intros F1 F2 F3 F4 A B C D. unfold BoundingBoxOverlaps.
  rewrite !(px_fin _ F1), !(px_fin _ F2), !(px_fin _ F3), !(px_fin _ F4), !(py_fin _ F1), !(py_fin _ F2), !(py_fin _ F3), !(py_fin _ F4).
  rewrite andb_true_iff, !overlaps1_spec. unfold inside. split.
  - intros [[H1 H2] [H3 H4]].
    exists ((Rmax (X tl1) (X tl2) + Rmin (X br1) (X br2)) / 2), ((Rmax (Y tl1) (Y tl2) + Rmin (Y br1) (Y br2)) / 2).
    unfold Rmax, Rmin. repeat destruct (Rle_dec _ _); repeat split; lra.
  - intros (x & y & [H1 H2] & [H3 H4]). repeat split; lra.
Qed.

(** rectangles without area (the box of a horizontal or vertical line) included: true exactly when each begins
    before the other ends in both directions; a box that only touches the other is not an overlap *)
Theorem C36_exact_degenerate (tl1 br1 tl2 br2 : Pt RNum) :
  finitePt tl1 -> finitePt br1 -> finitePt tl2 -> finitePt br2 ->
  (BoundingBoxOverlaps tl1 br1 tl2 br2 = true <-> (X tl1 < X br2 /\ X tl2 < X br1) /\ (Y tl1 < Y br2 /\ Y tl2 < Y br1)).
Proof.
  intros F1 F2 F3 F4. unfold BoundingBoxOverlaps.
  rewrite !(px_fin _ F1), !(px_fin _ F2), !(px_fin _ F3), !(px_fin _ F4), !(py_fin _ F1), !(py_fin _ F2), !(py_fin _ F3), !(py_fin _ F4).
  rewrite andb_true_iff, !overlaps1_spec. tauto.
Qed.

(** the order of the two boxes does not matter *)
Theorem C36_symmetric (tl1 br1 tl2 br2 : Pt RNum) :
  finitePt tl1 -> finitePt br1 -> finitePt tl2 -> finitePt br2 ->
  BoundingBoxOverlaps tl1 br1 tl2 br2 = BoundingBoxOverlaps tl2 br2 tl1 br1.
Proof.
  intros F1 F2 F3 F4. apply eq_true_iff_eq. rewrite !C36_exact_degenerate by auto. tauto.
Qed.

(** two curves whose boxes do not overlap have no common point strictly inside both boxes; in particular curve/curve
    intersection discards only pairs that at most touch along a box side *)
Theorem C36_discarded_curves_at_most_touch (c1 c2 : crv RNum) :
  finiteCrv c1 -> smallCrv c1 -> finiteCrv c2 -> smallCrv c2 -> CurveOverlaps c1 c2 = false ->
  forall x y, onSeg (crvSeg c1) x y -> onSeg (crvSeg c2) x y ->
  exists a b, tightBox (onSeg (crvSeg c1)) a b /\ (x = X a \/ x = X b \/ y = Y a \/ y = Y b).
Proof.
  intros F1 S1 F2 S2 H x y P1 P2. pose proof (BoundingBox_tight c1 F1 S1) as T1. pose proof (BoundingBox_tight c2 F2 S2) as T2.
  unfold CurveOverlaps in H. destruct (BoundingBox c1) as [a b], (BoundingBox c2) as [c d]. cbn [fst snd] in *.
  exists a, b. split; [auto|]. destruct T1 as (Fa & Fb & (Bx & _) & (By & _)). destruct T2 as (Fc & Fd & (Bx' & _) & (By' & _)).
  assert (Hx : X a <= x <= X b) by (apply Bx; exists y; auto). assert (Hy : Y a <= y <= Y b) by (apply By; exists x; auto).
  assert (Hx' : X c <= x <= X d) by (apply Bx'; exists y; auto). assert (Hy' : Y c <= y <= Y d) by (apply By'; exists x; auto).
  destruct (Rle_lt_dec (X d) (X a)); [lra|]. destruct (Rle_lt_dec (X b) (X c)); [lra|].
  destruct (Rle_lt_dec (Y d) (Y a)); [lra|]. destruct (Rle_lt_dec (Y b) (Y c)); [lra|].
  exfalso. assert (BoundingBoxOverlaps a b c d = true) by (apply C36_exact_degenerate; auto). congruence.
Qed.

Example C36_example :
  map (fun q => BoundingBoxOverlaps (pt 0 0) (pt 10 10) (fst q) (snd q))
      [(pt 9 9, pt 20 20); (pt 10 0, pt 20 10); (pt 2 2, pt 3 3); (pt 11 11, pt 12 12)] = [true; false; true; false].
Proof. vm_compute. reflexivity. Qed.
Example C36_hypotheses : X (pnt 0 0) < X (pnt 10 10) /\ inside (pnt 0 0) (pnt 10 10) 9 9 /\ finitePt (pnt 10 10).
Proof. unfold inside. cbn. repeat split; lra. Qed.
Print Assumptions C36_exact.
(** two arches side by side touch at a corner of their boxes *)
Example C36_touch_example : let c1 := mkCrv (N := RNum) (pnt 0 0) (pnt 0 4) (pnt 8 0) (pnt 8 4) in let c2 := mkCrv (N := RNum) (pnt 8 0) (pnt 8 4) (pnt 16 0) (pnt 16 4) in
  finiteCrv c1 /\ smallCrv c1 /\ finiteCrv c2 /\ smallCrv c2 /\ CurveOverlaps c1 c2 = false /\ onSeg (crvSeg c1) 8 0 /\ onSeg (crvSeg c2) 8 0.
Proof.
  cbv zeta. set (c1 := mkCrv _ _ _ _). set (c2 := mkCrv (pnt 8 0) _ _ _).
  assert (F1 : finiteCrv c1) by (repeat split). assert (F2 : finiteCrv c2) by (repeat split).
  assert (S1 : smallCrv c1) by (repeat split; cbn; unfold Rabs; destruct (Rcase_abs _); lra). assert (S2 : smallCrv c2) by (repeat split; cbn; unfold Rabs; destruct (Rcase_abs _); lra).
  repeat (split; [assumption|]). split.
  - pose proof (BoundingBox_tight c1 F1 S1) as T1. pose proof (BoundingBox_tight c2 F2 S2) as T2. unfold CurveOverlaps. destruct (BoundingBox c1) as [a b], (BoundingBox c2) as [c d]. cbn [fst snd] in *.
    destruct T1 as (Fa & Fb & (_ & _ & (y & t & Ht & E & _)) & _). destruct T2 as (Fc & Fd & (_ & (y' & t' & Ht' & E' & _) & _) & _).
    cbn in E, E'. unfold cubic in E, E'. destruct (BoundingBoxOverlaps a b c d) eqn:O; [|reflexivity]. apply C36_exact_degenerate in O; auto. exfalso.
    assert (X b <= 8) by (assert (0 <= t * t <= t) by nra; assert (0 <= t * t * t <= t * t) by nra; nra). assert (8 <= X c) by (assert (0 <= t' * t' <= t') by nra; assert (0 <= t' * t' * t' <= t' * t') by nra; nra). lra.
  - split; [exists 1|exists 0]; (split; [lra|]); cbn; unfold cubic; split; lra.
Qed.
