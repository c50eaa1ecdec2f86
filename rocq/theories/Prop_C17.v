(** C17: rotation is a rigid motion about the chosen axis. *)
From Coq Require Import List ZArith Bool Reals Lra Lia.
From Verif Require Import Num RealNum FloatNum RealTrig PathModel SegOps Bezier GeomTransforms PathSpec GeomSpec BezierProofs GeomProofs AffineProofs HandleProofs RotateProofs Witness.
Import ListNotations.
Local Open Scope R_scope.

(** squared distance *)
Definition dist2 (a b : Pt RNum) : R := (X a - X b) ^ 2 + (Y a - Y b) ^ 2.

(** a positive angle takes the x axis towards the y axis *)
Theorem C17_rotate_formula d (p : Pt RNum) : finitePt p ->
  Rotate RTrig (Fin d) p =
  pnt (X p * cos (d * PI / 180) - Y p * sin (d * PI / 180)) (X p * sin (d * PI / 180) + Y p * cos (d * PI / 180)).
Proof. intros F. rewrite (rotate_aff d p F). unfold affPt, affX, affY, rotA; cbn. f_equal; ring. Qed.

Lemma sc2 t : sin t ^ 2 = 1 - cos t ^ 2.
Proof. pose proof (sin2_cos2 t) as H. unfold Rsqr in H. lra. Qed.

Theorem C17_rotate_rigid d (p q : Pt RNum) : finitePt p -> finitePt q ->
  dist2 (Rotate RTrig (Fin d) p) (Rotate RTrig (Fin d) q) = dist2 p q.
Proof.
  intros F G. rewrite !C17_rotate_formula by auto. unfold dist2. rewrite !pnt_X, !pnt_Y. set (t := d * PI / 180).
  transitivity (((X p - X q) ^ 2 + (Y p - Y q) ^ 2) * (cos t ^ 2 + sin t ^ 2)); [ring|]. rewrite (sc2 t). ring.
Qed.

Theorem C17_rotate_composes a b (p : Pt RNum) : finitePt p ->
  Rotate RTrig (Fin a) (Rotate RTrig (Fin b) p) = Rotate RTrig (Fin (a + b)) p.
Proof.
  intros F. rewrite !C17_rotate_formula by (rewrite ?C17_rotate_formula; auto; reflexivity). rewrite !pnt_X, !pnt_Y.
  replace ((a + b) * PI / 180) with (a * PI / 180 + b * PI / 180) by field. rewrite cos_plus, sin_plus. f_equal; ring.
Qed.

Lemma turn_Z k : cos (2 * IZR k * PI) = 1 /\ sin (2 * IZR k * PI) = 0.
Proof.
  assert (N0 : forall n, cos (2 * INR n * PI) = 1 /\ sin (2 * INR n * PI) = 0).
  { intros n. pose proof (cos_period 0 n) as C. pose proof (sin_period 0 n) as S. rewrite Rplus_0_l in C, S. rewrite C, S, cos_0, sin_0. auto. }
  destruct (Z_le_gt_dec 0 k) as [H|H].
  - rewrite <- (Z2Nat.id k) by auto. rewrite <- INR_IZR_INZ. apply N0.
  - replace (2 * IZR k * PI) with (- (2 * IZR (- k) * PI)) by (rewrite opp_IZR; ring).
    rewrite <- (Z2Nat.id (- k)) by lia. rewrite <- INR_IZR_INZ, cos_neg, sin_neg. destruct (N0 (Z.to_nat (- k))). lra.
Qed.

Theorem C17_full_turn (k : Z) (p : Pt RNum) : finitePt p -> Rotate RTrig (Fin (IZR k * 360)) p = p.
Proof.
  intros F. rewrite C17_rotate_formula by auto. replace (IZR k * 360 * PI / 180) with (2 * IZR k * PI) by field.
  destruct (turn_Z k) as [-> ->]. symmetry. rewrite (pnt_eta _ F) at 1. f_equal; ring.
Qed.

(** RotateTransform about any handle that exists: there is a motion of the plane that fixes the axis point and preserves all
    distances, it is the turn by d degrees about that point, and every drawn segment is moved by it. *)
Theorem C17_transform_rigid bm fuel d h (p : list (seg RNum)) q :
  Forall tame p -> (forall z, h = APoint z -> finitePt z) -> PointPathAttribute (BezierOps RTrig bm fuel) h NoSub p = Ok q ->
  exists p' (m : Pt RNum -> Pt RNum),
    RotateT (BezierOps RTrig bm fuel) RTrig (Fin d) h p = Ok p' /\
    m q = q /\
    (forall a b, finitePt a -> finitePt b -> dist2 (m a) (m b) = dist2 a b) /\
    (forall a, X (m a) - X q = (X a - X q) * cos (d * PI / 180) - (Y a - Y q) * sin (d * PI / 180) /\
               Y (m a) - Y q = (X a - X q) * sin (d * PI / 180) + (Y a - Y q) * cos (d * PI / 180)) /\
    drawn p' = map (fun g => TransformPoints g m) (drawn p).
Proof.
  intros HT HP E. pose proof (handle_finite _ (BezierOps_boxOk RTrig bm fuel) h p q HT HP E) as Fq.
  pose proof (Forall_tame_finite p HT) as F.
  destruct (RotateT_spec (BezierOps RTrig bm fuel) d h p q F Fq E) as (p' & E' & Ed).
  exists p', (affPt (rotAbout d (X q) (Y q))). split; [exact E'|].
  assert (K : forall a, X (affPt (rotAbout d (X q) (Y q)) a) - X q = (X a - X q) * cos (d * PI / 180) - (Y a - Y q) * sin (d * PI / 180) /\
               Y (affPt (rotAbout d (X q) (Y q)) a) - Y q = (X a - X q) * sin (d * PI / 180) + (Y a - Y q) * cos (d * PI / 180)).
  { intros a. rewrite affPt_X, affPt_Y. unfold affX, affY, rotAbout; cbn. split; ring. }
  split; [|split; [|split; [exact K|exact Ed]]].
  - unfold affPt. symmetry. rewrite (pnt_eta _ Fq) at 1. destruct (K q) as [K1 K2]. rewrite affPt_X in K1. rewrite affPt_Y in K2.
    unfold pnt. f_equal; f_equal; lra.
  - intros a b Fa Fb. unfold dist2. destruct (K a) as [K1 K2], (K b) as [K3 K4].
    set (xa := X (affPt _ a)) in *. set (ya := Y (affPt _ a)) in *. set (xb := X (affPt _ b)) in *. set (yb := Y (affPt _ b)) in *.
    set (t := d * PI / 180) in *.
    replace (xa - xb) with ((X a - X b) * cos t - (Y a - Y b) * sin t) by lra.
    replace (ya - yb) with ((X a - X b) * sin t + (Y a - Y b) * cos t) by lra.
    transitivity (((X a - X b) ^ 2 + (Y a - Y b) ^ 2) * (cos t ^ 2 + sin t ^ 2)); [ring|]. rewrite (sc2 t). ring.
Qed.

(** turning about a fixed point by b and then by a is turning by a + b, whole path; a full turn restores the drawing *)
Theorem C17_transform_composes co a b q (p : list (seg RNum)) : Forall finiteSeg p -> finitePt q ->
  exists p1 p2, RotateT co RTrig (Fin b) (APoint q) p = Ok p1 /\ RotateT co RTrig (Fin a) (APoint q) p1 = Ok p2 /\ RotateT co RTrig (Fin (a + b)) (APoint q) p = Ok p2.
Proof.
  intros F Fq. rewrite !(RotateT_mapPoints co _ (APoint q) p q F Fq eq_refl).
  eexists. eexists. split; [reflexivity|].
  rewrite (RotateT_mapPoints co _ (APoint q) _ q) by (auto; apply canon_finite, map_finite).
  rewrite canon_map_canon, map_map. split; [reflexivity|]. do 2 f_equal. apply map_ext. intros g. rewrite affSeg_comp. f_equal.
  unfold rotAbout. replace ((a + b) * PI / 180) with (a * PI / 180 + b * PI / 180) by field. rewrite cos_plus, sin_plus. apply aff_ext; cbn; ring.
Qed.
Theorem C17_transform_full_turn co (k : Z) q (p : list (seg RNum)) : Forall finiteSeg p -> finitePt q ->
  exists p', RotateT co RTrig (Fin (IZR k * 360)) (APoint q) p = Ok p' /\ drawn p' = drawn p.
Proof.
  intros F Fq. eexists. split; [apply (RotateT_mapPoints co _ (APoint q) p q F Fq eq_refl)|]. rewrite canon_drawn.
  f_equal. rewrite <- (map_id p) at 2. apply map_ext_in. intros g Hg. eapply Forall_forall in F; [|exact Hg].
  rewrite <- (affSeg_id g F) at 2. f_equal. unfold rotAbout, affId.
  replace (IZR k * 360 * PI / 180) with (2 * IZR k * PI) by field. destruct (turn_Z k) as [-> ->]. apply aff_ext; cbn; ring.
Qed.

(** the nine box handles, the given point and (for paths with something drawn) the two end points always exist *)
Theorem C17_handles_exist bm fuel h (p : list (seg RNum)) : Forall tame p -> drawn p <> [] ->
  (exists fx fy, boxFraction h = Some (fx, fy)) \/ (exists z, h = APoint z) \/ In h [AOrigin; AStartPosition; AEndPosition; AStartPoint; AEndPoint] ->
  exists q, PointPathAttribute (BezierOps RTrig bm fuel) h NoSub p = Ok q.
Proof.
  intros HT Hd H. destruct H as [(fx & fy & H)|[(z & ->)|H]].
  - destruct (box_handle _ (BezierOps_boxOk RTrig bm fuel) h fx fy p HT Hd H) as (tl & br & _ & _ & E). eauto.
  - eexists; reflexivity.
  - destruct (BoundingBoxTrimWhitespace_tight _ (BezierOps_boxOk RTrig bm fuel) p HT Hd) as (tl & br & EB & _).
    destruct (TrimMove_nonempty p Hd) as (g & r & Et & _).
    assert (Hp : exists g' r', p = g' :: r') by (destruct p; [exfalso; apply Hd; reflexivity|eauto]). destruct Hp as (g' & r' & ->).
    cbn [In] in H. unfold PointPathAttribute, PathAttribute.
    destruct H as [<-|[<-|[<-|[<-|[<-|[]]]]]]; rewrite EB; cbn [bind]; rewrite ?Et; eexists; reflexivity.
Qed.

Example C17_example : exists p', RotateT (BezierOps RTrig (mkBMath (fun x => x) (fun x _ => x) (fun x => x)) 5) RTrig (Fin 90) (APoint (pnt 1 1))
    [Move (pnt 0 0) (pnt 1 1); Line (pnt 1 1) (pnt 4 2)] = Ok p' /\ drawn p' = [Line (pnt 1 1) (pnt 0 4)].
Proof.
  destruct (C17_transform_rigid (mkBMath (fun x => x) (fun x _ => x) (fun x => x)) 5 90 (APoint (pnt 1 1))
    [Move (pnt 0 0) (pnt 1 1); Line (pnt 1 1) (pnt 4 2)] (pnt 1 1)) as (p' & m & E & _ & _ & K & D).
  - repeat constructor.
  - intros z Ez. injection Ez as <-. reflexivity.
  - reflexivity.
  - exists p'. split; [exact E|]. rewrite D. cbn [drawn map TransformPoints].
    replace (90 * PI / 180) with (PI / 2) in K by field. rewrite cos_PI2, sin_PI2 in K.
    destruct (RotateT_spec (BezierOps RTrig (mkBMath (fun x => x) (fun x _ => x) (fun x => x)) 5) 90 (APoint (pnt 1 1)) [Move (pnt 0 0) (pnt 1 1); Line (pnt 1 1) (pnt 4 2)] (pnt 1 1))
      as (p'' & E'' & D''); [repeat constructor|reflexivity|reflexivity|]. rewrite E in E''. injection E'' as <-.
    rewrite D in D''. cbn [drawn map TransformPoints] in D''. rewrite D''. unfold affSeg. cbn [TransformPoints].
    unfold affPt, affX, affY, rotAbout; cbn [af_a af_b af_c af_d af_e af_f]. rewrite !pnt_X, !pnt_Y.
    replace (90 * PI / 180) with (PI / 2) by field. rewrite cos_PI2, sin_PI2. unfold pnt. do 2 f_equal; f_equal; f_equal; ring.
Qed.
Print Assumptions C17_transform_rigid.

Example C17_hypotheses : let p := [Move (pnt 0 0) (pnt 1 1); Line (pnt 1 1) (pnt 4 2)] in Forall tame p /\ drawn p <> [] /\ (exists fx fy, boxFraction ATopLeft = Some (fx, fy)).
Proof. split; [repeat constructor|]. split; [discriminate|]. do 2 eexists. reflexivity. Qed.
