(** C14: translation transforms are rigid and exact. *)
From Coq Require Import List ZArith Bool Reals Lra.
From Verif Require Import Num RealNum FloatNum PathModel SegOps Bezier GeomTransforms PathSpec GeomSpec BezierProofs GeomProofs AffineProofs HandleProofs Witness.
Import ListNotations.
Local Open Scope R_scope.

(** the segment with every point displaced by (dx, dy) *)
Definition displaced (dx dy : R) (g : seg RNum) : seg RNum :=
  let m q := pnt (X q + dx) (Y q + dy) in
  match g with
  | Move s e => Move (m s) (m e)
  | Line s e => Line (m s) (m e)
  | Curve s cs e ce => Curve (m s) (m cs) (m e) (m ce)
  end.

Lemma displaced_aff dx dy g : affSeg (diag 1 1 dx dy) g = displaced dx dy g.
Proof.
  assert (H : forall q, affPt (diag 1 1 dx dy) q = pnt (X q + dx) (Y q + dy)).
  { intros q. unfold affPt. rewrite diag_X, diag_Y, !Rmult_1_l. auto. }
  destruct g; cbn [affSeg TransformPoints displaced]; rewrite !H; auto.
Qed.

(** every drawn segment keeps its kind and place in the order and is displaced by exactly (dx, dy) *)
Theorem C14_shift_exact dx dy (p : list (seg RNum)) : Forall finiteSeg p ->
  drawn (Shift (Fin dx : T RNum) (Fin dy) p) = map (displaced dx dy) (drawn p) /\
  (forall x y, inDrawing p x y <-> inDrawing (Shift (Fin dx : T RNum) (Fin dy) p) (x + dx) (y + dy)).
Proof.
  intros F. split.
  - rewrite Shift_drawn by auto. apply map_ext. apply displaced_aff.
  - intros x y. unfold Shift. rewrite (inDrawing_aff _ _ p _ _ (shift_aff dx dy) F). split.
    + intros D. exists x, y. rewrite diag_X, diag_Y. split; [auto|split; ring].
    + intros (x' & y' & D & E1 & E2). rewrite diag_X in E1. rewrite diag_Y in E2.
      replace x with x' by lra. replace y with y' by lra. auto.
Qed.

(** two shifts are one shift by the sum, as whole paths *)
Theorem C14_shift_composes dx dy dx' dy' (p : list (seg RNum)) : Forall finiteSeg p ->
  Shift (Fin dx' : T RNum) (Fin dy') (Shift (Fin dx : T RNum) (Fin dy) p) = Shift (Fin (dx + dx') : T RNum) (Fin (dy + dy')) p.
Proof.
  intros F. unfold Shift. apply (mapPoints_comp _ (diag 1 1 dx' dy') _ (diag 1 1 dx dy)); auto using shift_aff.
  replace (affComp (diag 1 1 dx' dy') (diag 1 1 dx dy)) with (diag 1 1 (dx + dx') (dy + dy')) by (apply aff_ext; cbn; ring).
  apply shift_aff.
Qed.

(** shifting back undoes a shift: the drawn segments are the original ones, and so is the whole path
    if it began, as every path built by NewPathFromSegments does, with a move from the origin *)
Theorem C14_shift_undone dx dy (p : list (seg RNum)) : Forall finiteSeg p ->
  let q := Shift (Fin (- dx) : T RNum) (Fin (- dy)) (Shift (Fin dx : T RNum) (Fin dy) p) in
  drawn q = drawn p /\ ((exists e r, p = Move (pnt 0 0) e :: r) -> q = p).
Proof.
  intros F. cbv zeta. rewrite C14_shift_composes by auto. rewrite Shift_canon by auto.
  assert (E : map (affSeg (diag 1 1 (dx + - dx) (dy + - dy))) p = p).
  { rewrite <- (map_id p) at 2. apply map_ext_in. intros g Hg. eapply Forall_forall in F; [|exact Hg].
    rewrite <- (affSeg_id g F) at 2. f_equal. apply aff_ext; cbn; ring. }
  rewrite E, canon_drawn. split; [auto|]. intros (e & r & ->). reflexivity.
Qed.

(** Moving by one of the nine box handles succeeds, displaces the drawing rigidly, and afterwards that handle of the
    drawing's box is exactly the requested point. *)
Theorem C14_move_places_handle tr bm fuel h fx fy (point : Pt RNum) (p : list (seg RNum)) :
  Forall tame p -> drawn p <> [] -> finitePt point -> boxFraction h = Some (fx, fy) ->
  exists p' tl br dx dy, MoveT (BezierOps tr bm fuel) point h p = Ok p' /\
    drawn p' = map (displaced dx dy) (drawn p) /\
    tightBox (inDrawing p') tl br /\
    X tl + fx * (X br - X tl) = X point /\ Y tl + fy * (Y br - Y tl) = Y point.
Proof.
  intros HT Hd Fp H. destruct (box_handle _ (BezierOps_boxOk tr bm fuel) h fx fy p HT Hd H) as (tl & br & T & _ & E).
  pose proof (Forall_tame_finite p HT) as F.
  set (q := boxPoint tl br fx fy) in *.
  rewrite (MoveT_shift _ point h p q Fp (finitePt_pnt _ _) E).
  eexists. eexists. eexists. exists (X point - X q), (Y point - Y q). split; [reflexivity|]. split; [apply C14_shift_exact; auto|].
  split; [apply tightBox_shift; eauto|]. rewrite !pnt_X, !pnt_Y. unfold q, boxPoint. rewrite !pnt_X, !pnt_Y. split; ring.
Qed.

(** The handles $START_POINT and $END_POINT: the first drawn segment starts, resp. the last one ends, at the requested point. *)
Theorem C14_move_places_ends tr bm fuel (point : Pt RNum) (p : list (seg RNum)) :
  Forall tame p -> drawn p <> [] -> finitePt point ->
  (exists p' g r, MoveT (BezierOps tr bm fuel) point AStartPoint p = Ok p' /\ drawn p' = g :: r /\ sstart g = point) /\
  (exists p' g r, MoveT (BezierOps tr bm fuel) point AEndPoint p = Ok p' /\ drawn p' = r ++ [g] /\ send g = point).
Proof.
  intros HT Hd Fp. pose proof (Forall_tame_finite p HT) as F.
  destruct (PathProofs.TrimMove_ends p) as [E|[(g & r & E & V) (i & z & E' & V')]].
  { exfalso. apply Hd. rewrite <- PathProofs.TrimMove_drawn, E. reflexivity. }
  assert (Fg : finiteSeg g). { eapply Forall_forall in F; [exact F|]. apply In_TrimMove. rewrite E. left; auto. }
  assert (Fz : finiteSeg z). { eapply Forall_forall in F; [exact F|]. apply In_TrimMove. rewrite E'. apply in_or_app; simpl; auto. }
  assert (Fs : finitePt (sstart g)) by (destruct g; cbn in *; tauto).
  assert (Fe : finitePt (send z)) by (destruct z; cbn in *; tauto).
  destruct (BoundingBoxTrimWhitespace_tight _ (BezierOps_boxOk tr bm fuel) p HT Hd) as (tl & br & EB & _).
  split.
  - assert (EA : PointPathAttribute (BezierOps tr bm fuel) AStartPoint NoSub p = Ok (sstart g)).
    { unfold PointPathAttribute, PathAttribute. rewrite EB. cbn [bind]. rewrite E. auto. }
    rewrite (MoveT_shift _ point _ p _ Fp Fs EA). eexists. eexists. eexists. split; [reflexivity|].
    rewrite Shift_drawn by auto. rewrite <- PathProofs.TrimMove_drawn, E.
    destruct g; cbn in V; [tauto| |]; (split; [reflexivity|]); cbn [affSeg TransformPoints sstart];
      unfold affPt; rewrite diag_X, diag_Y; cbn [sstart] in Fs; symmetry; rewrite (pnt_eta _ Fp) at 1; f_equal; cbn [sstart]; ring.
  - assert (EA : PointPathAttribute (BezierOps tr bm fuel) AEndPoint NoSub p = Ok (send z)).
    { unfold PointPathAttribute, PathAttribute. rewrite EB. cbn [bind]. rewrite E. rewrite <- E, E', last_last. auto. }
    rewrite (MoveT_shift _ point _ p _ Fp Fe EA). eexists. exists (affSeg (diag 1 1 (X point - X (send z)) (Y point - Y (send z))) z).
    eexists. split; [reflexivity|]. rewrite Shift_drawn by auto. rewrite <- PathProofs.TrimMove_drawn, E', PathProofs.drawn_app, map_app.
    destruct z; cbn in V'; [tauto| |]; (split; [reflexivity|]); cbn [affSeg TransformPoints send];
      unfold affPt; rewrite diag_X, diag_Y; symmetry; rewrite (pnt_eta _ Fp) at 1; f_equal; cbn [send]; ring.
Qed.

(** The handle $START_POSITION is not placed: the new path starts at the origin again, whatever point was requested. *)
Theorem C14_start_position_refuted : exists (p : list (seg RNum)) (point : Pt RNum),
  Forall tame p /\ drawn p <> [] /\ forall tr bm fuel, exists p' g r,
    MoveT (BezierOps tr bm fuel) point AStartPosition p = Ok p' /\ p' = g :: r /\ sstart g <> point.
Proof.
  exists [Move (pnt 0 0) (pnt 1 1); Line (pnt 1 1) (pnt 2 3)], (pnt 10 10).
  assert (HT : Forall tame [Move (pnt 0 0) (pnt 1 1); Line (pnt 1 1) (pnt 2 3)]) by (repeat constructor).
  split; [exact HT|]. split; [discriminate|]. intros tr bm fuel.
  destruct (BoundingBoxTrimWhitespace_tight _ (BezierOps_boxOk tr bm fuel) _ HT) as (tl & br & EB & _); [discriminate|].
  assert (EA : PointPathAttribute (BezierOps tr bm fuel) AStartPosition NoSub [Move (pnt 0 0) (pnt 1 1); Line (pnt 1 1) (pnt 2 3)] = Ok (pnt 0 0)).
  { unfold PointPathAttribute, PathAttribute. rewrite EB. reflexivity. }
  rewrite (MoveT_shift _ (pnt 10 10) _ _ _ (finitePt_pnt _ _) (finitePt_pnt _ _) EA).
  eexists. eexists. eexists. split; [reflexivity|]. rewrite Shift_canon by (apply Forall_tame_finite; auto).
  cbn [map affSeg TransformPoints canon]. split; [reflexivity|]. cbn [sstart]. intros C. injection C as C1 C2. lra.
Qed.

Example C14_example :
  let p := [Move (pt 0 0) (pt 2 1); Line (pt 2 1) (pt 6 9); Move (pt 6 9) (pt 40 40)] in
  (dpath (Shift (fz 3) (fz (-1)) p), dres (MoveT (BezierOps noTrig (mkBMath (fun x => x) (fun x _ => x) (fun x => x)) 5) (pt 0 0) AMiddleRight p))
  = (dpath [Move (pt 0 0) (pt 5 0); Line (pt 5 0) (pt 9 8); Move (pt 9 8) (pt 43 39)],
     dres (Ok [Move (pt 0 0) (pt (-4) (-4)); Line (pt (-4) (-4)) (pt 0 4); Move (pt 0 4) (pt 34 35)])).
Proof. vm_compute. reflexivity. Qed.
Example C14_hypotheses : let p := [Move (pnt 0 0) (pnt 2 1); Line (pnt 2 1) (pnt 6 9)] in
  Forall tame p /\ Forall finiteSeg p /\ drawn p <> [] /\ boxFraction AMiddleRight = Some (1, 1 / 2).
Proof. split; [repeat constructor|]. split; [repeat constructor|]. split; [discriminate|reflexivity]. Qed.
Print Assumptions C14_move_places_handle.
