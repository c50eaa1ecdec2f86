(** Rotation in exact arithmetic is an affine map; the rotate transform turns the drawing about its axis point. *)
From Coq Require Import List ZArith Bool Reals Lra.
From Verif Require Import Num RealNum RealTrig PathModel SegOps Bezier GeomTransforms PathSpec GeomSpec BezierProofs GeomProofs AffineProofs HandleProofs.
Import ListNotations.
Local Open Scope R_scope.

Definition rotA (d : R) : aff :=
  let t := d * PI / 180 in mkAff (cos t) (sin t) (- sin t) (cos t) 0 0.
Definition rotAbout (d cx cy : R) : aff :=
  let t := d * PI / 180 in
  mkAff (cos t) (sin t) (- sin t) (cos t) (cx - cx * cos t + cy * sin t) (cy - cx * sin t - cy * cos t).

Lemma fsin x : nsin RTrig (Fin x) = Fin (sin x). Proof. reflexivity. Qed.
Lemma fcos x : ncos RTrig (Fin x) = Fin (cos x). Proof. reflexivity. Qed.
Lemma fpi : npi RTrig = Fin PI. Proof. reflexivity. Qed.

Lemma rotate_aff d : isAff (Rotate RTrig (Fin d)) (rotA d).
Proof.
  intros p F. unfold Rotate. rewrite fpi. fin. rewrite fdiv by lra. fin. rewrite fsin, fcos.
  rewrite (px_fin _ F), (py_fin _ F). fin. rewrite NewPoint_fin. unfold affPt, affX, affY, rotA; cbn [af_a af_b af_c af_d af_e af_f].
  replace (d * (PI / 180)) with (d * PI / 180) by field. rewrite cos_neg, sin_neg. unfold pnt. f_equal; f_equal; ring.
Qed.

Lemma RotateT_mapPoints co d h (p : list (seg RNum)) q : Forall finiteSeg p -> finitePt q -> PointPathAttribute co h NoSub p = Ok q ->
  RotateT co RTrig (Fin d) h p = Ok (canon (map (affSeg (rotAbout d (X q) (Y q))) p)).
Proof.
  intros F Fq E. unfold RotateT. rewrite E. cbn [bind].
  rewrite (MoveT_shift co _ h p q finitePt_origin Fq E). cbn [bind]. f_equal.
  assert (E0 : @NewPoint RNum zero zero = pnt 0 0) by apply NewPoint_fin. rewrite !E0, !pnt_X, !pnt_Y.
  rewrite (px_fin _ Fq), (py_fin _ Fq).
  assert (F1 : Forall finiteSeg (Shift (Fin (0 - X q) : T RNum) (Fin (0 - Y q)) p)) by (apply Shift_finite; auto).
  rewrite Shift_canon by (eapply mapPoints_finite; [apply rotate_aff|auto]).
  rewrite (mapPoints_canon _ _ _ (rotate_aff d) F1), Shift_canon by auto.
  rewrite (canon_map_canon (rotA d)), canon_map_canon, !map_map.
  f_equal. apply map_ext. intros g. rewrite !affSeg_comp. f_equal. apply aff_ext; cbn; ring.
Qed.

Lemma RotateT_spec co d h (p : list (seg RNum)) q : Forall finiteSeg p -> finitePt q -> PointPathAttribute co h NoSub p = Ok q ->
  exists p', RotateT co RTrig (Fin d) h p = Ok p' /\ drawn p' = map (affSeg (rotAbout d (X q) (Y q))) (drawn p).
Proof.
  intros F Fq E. eexists. split; [apply RotateT_mapPoints; eauto|]. rewrite canon_drawn. apply drawn_map_aff.
Qed.
