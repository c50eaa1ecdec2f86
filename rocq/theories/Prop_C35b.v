(** C35, continued: the test for a point in a box. *)
From Coq Require Import List ZArith Bool Reals Lra.
From Verif Require Import Num RealNum FloatNum PathModel SegOps Bezier PathSpec GeomSpec BezierProofs GeomProofs Prop_C35 Witness.
Import ListNotations.
Local Open Scope R_scope.

Lemma inBox_iff tl br x y : finitePt tl -> finitePt br -> PointInBoundingBox tl br (pnt x y) = true <-> X tl <= x <= X br /\ Y tl <= y <= Y br.
Proof.
  intros F1 F2. unfold PointInBoundingBox, geb. rewrite (px_fin _ F1), (px_fin _ F2), (py_fin _ F1), (py_fin _ F2). unfold pnt. cbn [px py]. fin.
  rewrite !andb_true_iff. destruct (Rleb_spec (X tl) x), (Rleb_spec x (X br)), (Rleb_spec (Y tl) y), (Rleb_spec y (Y br)); intuition (try discriminate; try lra).
Qed.
(** Every drawn point passes the test with the box of the drawing, and whatever two corners all drawn points pass it with, these corners pass it with them. *)
Theorem C35_point_in_box tr bm fuel (p : list (seg RNum)) : Forall tame p -> drawn p <> [] ->
  exists tl br, BoundingBoxTrimWhitespace (BezierOps tr bm fuel) p = Ok (tl, br) /\
    (forall x y, inDrawing p x y -> PointInBoundingBox tl br (pnt x y) = true) /\
    (forall tl' br', finitePt tl' -> finitePt br' -> (forall x y, inDrawing p x y -> PointInBoundingBox tl' br' (pnt x y) = true) ->
       PointInBoundingBox tl' br' tl = true /\ PointInBoundingBox tl' br' br = true) /\
    (forall x y, x < X tl \/ X br < x \/ y < Y tl \/ Y br < y -> PointInBoundingBox tl br (pnt x y) = false).
Proof.
  intros HT HD. destruct (BoundingBoxTrimWhitespace_tight _ (BezierOps_boxOk tr bm fuel) p HT HD) as (tl & br & E & F1 & F2 & (BX & (y1 & L1) & (y2 & L2)) & (BY & (x1 & L3) & (x2 & L4))).
  exists tl, br. split; [exact E|]. split; [|split].
  - intros x y D. apply inBox_iff; auto. split; [apply BX; exists y; exact D|apply BY; exists x; exact D].
  - intros tl' br' G1 G2 H. apply H in L1, L2, L3, L4. rewrite inBox_iff in L1, L2, L3, L4 by auto. rewrite (pnt_eta tl F1), (pnt_eta br F2). rewrite !inBox_iff by auto. lra.
  - intros x y H. apply not_true_is_false. rewrite inBox_iff by auto. lra.
Qed.
Print Assumptions C35_point_in_box.
Example C35_point_in_box_example : let p : path RNum := [Move (pnt 0 0) (pnt 1 2); Line (pnt 1 2) (pnt 4 6)] in Forall tame p /\ drawn p <> [] /\
  PointInBoundingBox (pnt 1 2) (pnt 4 6) (pnt 1 6) = true /\ PointInBoundingBox (pnt 1 2) (pnt 4 6) (pnt 5 3) = false.
Proof.
  cbv zeta. split; [repeat constructor|]. split; [discriminate|]. split; [apply inBox_iff; try reflexivity; cbn; lra|].
  apply not_true_is_false. rewrite inBox_iff by reflexivity. cbn. lra.
Qed.
