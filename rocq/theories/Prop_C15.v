(** C15: trimming whitespace puts the drawing at the origin. *)
From Coq Require Import List ZArith Bool Reals Lra.
From Verif Require Import Num RealNum FloatNum PathModel SegOps Bezier GeomTransforms PathSpec GeomSpec BezierProofs GeomProofs AffineProofs HandleProofs Within Witness.
Import ListNotations.
Local Open Scope R_scope.

(** the drawing is displaced rigidly so that its smallest enclosing rectangle keeps its size and has its top-left corner at (0,0) *)
Theorem C15_trim_at_origin tr bm fuel (p : list (seg RNum)) : Forall tame p -> drawn p <> [] ->
  exists p' tl br w h, TrimWhitespace (BezierOps tr bm fuel) p = Ok p' /\
    tightBox (inDrawing p) tl br /\ w = X br - X tl /\ h = Y br - Y tl /\
    tightBox (inDrawing p') (pnt 0 0) (pnt w h) /\
    (forall x y, inDrawing p x y <-> inDrawing p' (x - X tl) (y - Y tl)).
Proof.
  intros HT Hd. destruct (BoundingBoxTrimWhitespace_tight _ (BezierOps_boxOk tr bm fuel) p HT Hd) as (tl & br & E & TB).
  pose proof (Forall_tame_finite p HT) as F. pose proof TB as (F1 & F2 & _).
  unfold TrimWhitespace. rewrite E. cbn [bind]. rewrite (px_fin _ F1), (py_fin _ F1). fin.
  eexists. exists tl, br. eexists. eexists. split; [reflexivity|]. split; [exact TB|]. split; [reflexivity|]. split; [reflexivity|]. split.
  - pose proof (tightBox_shift (- X tl) (- Y tl) p tl br F TB) as G.
    replace (X tl + - X tl) with 0 in G by ring. replace (Y tl + - Y tl) with 0 in G by ring. exact G.
  - intros x y. unfold Shift. rewrite (inDrawing_aff _ _ p _ _ (shift_aff (- X tl) (- Y tl)) F). split.
    + intros D. exists x, y. rewrite diag_X, diag_Y. split; [auto|split; ring].
    + intros (x' & y' & D & E1 & E2). rewrite diag_X in E1. rewrite diag_Y in E2.
      replace x with x' by lra. replace y with y' by lra. auto.
Qed.

(** trimming again changes nothing, whether or not anything is drawn *)
Theorem C15_trim_idempotent tr bm fuel (p : list (seg RNum)) : Forall (within (2 ^ 62)) p ->
  exists p', TrimWhitespace (BezierOps tr bm fuel) p = Ok p' /\ TrimWhitespace (BezierOps tr bm fuel) p' = Ok p'.
Proof.
  intros W. assert (HT : Forall tame p) by (eapply Forall_impl; [|exact W]; intros; eapply within_tame; eauto; lra).
  pose proof (Forall_tame_finite p HT) as F. set (co := BezierOps tr bm fuel).
  assert (Z0 : forall q, Forall finiteSeg q -> canon q = q -> Shift (Fin 0 : T RNum) (Fin 0) q = q).
  { intros q Fq Cq. rewrite Shift_canon by auto. replace (map _ q) with q; [auto|].
    rewrite <- (map_id q) at 1. apply map_ext_in. intros g Hg. eapply Forall_forall in Fq; [|exact Hg].
    rewrite <- (affSeg_id g Fq) at 1. reflexivity. }
  destruct (drawn p) as [|d0 ds] eqn:Ed.
  - assert (O0 : opp (px (@zeroPt RNum)) = Fin 0 /\ opp (py (@zeroPt RNum)) = Fin 0).
    { unfold zeroPt; cbn [px py]; fin; rewrite Ropp_0; auto. }
    destruct O0 as [O1 O2].
    exists (Shift (Fin 0 : T RNum) (Fin 0) p). split.
    + unfold TrimWhitespace. rewrite (BoundingBoxTrimWhitespace_empty co p Ed). cbn [bind]. rewrite O1, O2. reflexivity.
    + unfold TrimWhitespace. rewrite (BoundingBoxTrimWhitespace_empty co).
      * cbn [bind]. rewrite O1, O2. f_equal. apply Z0; [apply Shift_finite; auto|]. rewrite Shift_canon by auto. apply canon_idem.
      * rewrite Shift_drawn by auto. rewrite Ed. reflexivity.
  - assert (Hd : drawn p <> []) by (rewrite Ed; discriminate).
    destruct (BoundingBoxTrimWhitespace_tight co (BezierOps_boxOk tr bm fuel) p HT Hd) as (tl & br & E & TB).
    pose proof TB as (F1 & F2 & (_ & (y0 & (g1 & I1 & _ & O1)) & _) & (_ & (x0 & (g2 & I2 & _ & O2)) & _)).
    assert (B1 : Rabs (X tl) < 2 ^ 62). { eapply Forall_forall in W; [|exact I1]. eapply onSeg_within in O1; eauto. tauto. }
    assert (B2 : Rabs (Y tl) < 2 ^ 62). { eapply Forall_forall in W; [|exact I2]. eapply onSeg_within in O2; eauto. tauto. }
    set (p' := Shift (Fin (- X tl) : T RNum) (Fin (- Y tl)) p).
    exists p'. split.
    + unfold TrimWhitespace. rewrite E. cbn [bind]. rewrite (px_fin _ F1), (py_fin _ F1). reflexivity.
    + assert (W' : Forall (within (2 ^ 63)) p').
      { unfold p'. rewrite Shift_canon by auto. apply within_canon; [lra|]. apply Forall_forall. intros g Hg.
        apply in_map_iff in Hg. destruct Hg as (h & <- & Hh). replace (2 ^ 63) with (2 * 2 ^ 62) by ring.
        eapply Forall_forall in W; [|exact Hh]. apply within_shift; auto; rewrite Rabs_Ropp; auto. }
      assert (HT' : Forall tame p') by (eapply Forall_impl; [|exact W']; intros; eapply within_tame; eauto; lra).
      assert (Hd' : drawn p' <> []). { unfold p'. rewrite Shift_drawn by auto. rewrite Ed. discriminate. }
      destruct (BoundingBoxTrimWhitespace_tight co (BezierOps_boxOk tr bm fuel) p' HT' Hd') as (tl' & br' & E' & T').
      pose proof (tightBox_shift (- X tl) (- Y tl) p tl br F TB) as G. fold p' in G.
      destruct (tightBox_unique _ _ _ _ _ G T') as [<- _].
      unfold TrimWhitespace. rewrite E'. cbn [bind px py pnt]. fin. f_equal.
      replace (- (X tl + - X tl)) with 0 by ring. replace (- (Y tl + - Y tl)) with 0 by ring.
      apply Z0; [apply Shift_finite; auto|]. unfold p'. rewrite Shift_canon by auto. apply canon_idem.
Qed.

Example C15_example :
  let co := BezierOps noTrig (mkBMath (fun x => x) (fun x _ => x) (fun x => x)) 5 in
  let p := [Move (pt 0 0) (pt (-2) 1); Line (pt (-2) 1) (pt 6 9); Move (pt 6 9) (pt 40 40)] in
  dres (TrimWhitespace co p) = dres (Ok [Move (pt 0 0) (pt 0 0); Line (pt 0 0) (pt 8 8); Move (pt 8 8) (pt 42 39)]).
Proof. vm_compute. reflexivity. Qed.
Example C15_hypotheses : let p := [Move (pnt 0 0) (pnt (-2) 1); Line (pnt (-2) 1) (pnt 6 9)] in
  Forall tame p /\ Forall (within (2 ^ 62)) p /\ drawn p <> [].
Proof.
  assert (W : Forall (within (2 ^ 62)) [Move (pnt 0 0) (pnt (-2) 1); Line (pnt (-2) 1) (pnt 6 9)]).
  { repeat constructor; cbn; apply Rabs_def1; lra. }
  cbv zeta. split; [eapply Forall_impl; [|exact W]; intros; eapply within_tame; eauto; lra|]. split; [exact W|discriminate].
Qed.
Print Assumptions C15_trim_idempotent.
