(** C16: scaling to a size reaches that size. *)
From Coq Require Import List ZArith Bool Reals Lra.
From Verif Require Import Num RealNum FloatNum PathModel SegOps Bezier GeomTransforms PathSpec GeomSpec BezierProofs GeomProofs AffineProofs HandleProofs Witness.
Import ListNotations.
Local Open Scope R_scope.

(** the transform asked for a size: explicit factors and end points are given but must not matter *)
Definition sizeSpec (kx ky : R) (a b : Pt RNum) (W H : R) : scaleSpec RNum := @mkScale RNum (Fin kx) (Fin ky) a b (Fin W) (Fin H).

Lemma fabs x : @nabs RNum (Fin x) = Fin (Rabs x). Proof. reflexivity. Qed.

(** the box of the drawing multiplied by factors *)
Lemma scaled_box kx ky (p : list (seg RNum)) tl br : 0 <= kx -> 0 <= ky -> Forall finiteSeg p -> tightBox (inDrawing p) tl br ->
  tightBox (inDrawing (mapPoints (fun q => NewPoint (mul (px q) (Fin kx : T RNum)) (mul (py q) (Fin ky : T RNum))) p))
    (pnt (kx * X tl) (ky * Y tl)) (pnt (kx * X br) (ky * Y br)).
Proof.
  intros H1 H2 F HB. pose proof (tightBox_diag _ _ _ _ _ p tl br (scale_aff kx ky) F HB) as G.
  unfold lowEnd, highEnd in G. destruct (Rle_dec 0 kx); [|lra]. destruct (Rle_dec 0 ky); [|lra]. rewrite !Rplus_0_r in G. exact G.
Qed.

(** a drawing with a box is not empty *)
Lemma box_drawn (p : list (seg RNum)) tl br : tightBox (inDrawing p) tl br -> drawn p <> [].
Proof.
  intros (_ & _ & (_ & (y & D) & _) & _) E. apply inDrawing_drawn in D. destruct D as (g & I & _). rewrite E in I. destruct I.
Qed.

(** Both sizes given: the smallest rectangle around the result is exactly W by H. *)
Theorem C16_both_sizes tr bm fuel kx ky a b W H (p : list (seg RNum)) tl br :
  Forall tame p -> tightBox (inDrawing p) tl br -> X tl < X br -> Y tl < Y br -> 0 < W -> 0 < H ->
  exists p' tl' br', ScaleT (BezierOps tr bm fuel) (sizeSpec kx ky a b W H) p = Ok p' /\
    tightBox (inDrawing p') tl' br' /\ X br' - X tl' = W /\ Y br' - Y tl' = H /\
    map (affSeg (diag (W / (X br - X tl)) (H / (Y br - Y tl)) 0 0)) (drawn p) = drawn p'.
Proof.
  intros HT HB Hw Hh HW HH.
  pose proof (box_drawn _ _ _ HB) as Hd.
  destruct (BoundingBoxTrimWhitespace_tight _ (BezierOps_boxOk tr bm fuel) p HT Hd) as (tl1 & br1 & E & T1).
  destruct (tightBox_unique _ _ _ _ _ HB T1) as [<- <-]. clear T1.
  pose proof (Forall_tame_finite p HT) as F. pose proof HB as (F1 & F2 & _).
  assert (P1 : 0 < W / (X br - X tl)) by (apply Rdiv_lt_0_compat; lra).
  assert (P2 : 0 < H / (Y br - Y tl)) by (apply Rdiv_lt_0_compat; lra).
  assert (ES : scaleFactors (BezierOps tr bm fuel) (sizeSpec kx ky a b W H) p = Ok (Fin (W / (X br - X tl)), Fin (H / (Y br - Y tl)))).
  { unfold scaleFactors, sizeSpec; cbn [sc_w sc_h sc_x sc_y]. unfold gtb. fin.
    destruct (Rltb_spec 0 W); [|lra]. destruct (Rltb_spec 0 H); [|lra]. destruct (Rleb_spec W 0); [lra|]. cbn [orb].
    rewrite E. cbn [bind]. rewrite !(px_fin _ F1), !(px_fin _ F2), !(py_fin _ F1), !(py_fin _ F2). fin. rewrite !fabs, !Rabs_pos_eq by lra.
    rewrite !fdiv by lra. reflexivity. }
  unfold ScaleT. rewrite ES. cbn [bind]. eexists. eexists. eexists. split; [reflexivity|]. split; [apply scaled_box; eauto; lra|].
  rewrite !pnt_X, !pnt_Y. split; [field; lra|]. split; [field; lra|]. symmetry. apply mapPoints_drawn; auto. apply scale_aff.
Qed.

(** Only the width given (any height <= 0): the width is reached and the drawing is multiplied by one factor. *)
Theorem C16_width_keeps_ratio tr bm fuel kx ky a b W H (p : list (seg RNum)) tl br :
  Forall tame p -> tightBox (inDrawing p) tl br -> X tl < X br -> 0 < W -> H <= 0 ->
  exists p' tl' br' k, ScaleT (BezierOps tr bm fuel) (sizeSpec kx ky a b W H) p = Ok p' /\ 0 < k /\
    tightBox (inDrawing p') tl' br' /\ X br' - X tl' = W /\ X br' - X tl' = k * (X br - X tl) /\ Y br' - Y tl' = k * (Y br - Y tl) /\
    map (affSeg (diag k k 0 0)) (drawn p) = drawn p'.
Proof.
  intros HT HB Hw HW HH.
  pose proof (box_drawn _ _ _ HB) as Hd.
  destruct (BoundingBoxTrimWhitespace_tight _ (BezierOps_boxOk tr bm fuel) p HT Hd) as (tl1 & br1 & E & T1).
  destruct (tightBox_unique _ _ _ _ _ HB T1) as [<- <-]. clear T1.
  pose proof (Forall_tame_finite p HT) as F. pose proof HB as (F1 & F2 & _).
  assert (P1 : 0 < W / (X br - X tl)) by (apply Rdiv_lt_0_compat; lra).
  assert (ES : scaleFactors (BezierOps tr bm fuel) (sizeSpec kx ky a b W H) p = Ok (Fin (W / (X br - X tl)), Fin (W / (X br - X tl)))).
  { unfold scaleFactors, sizeSpec; cbn [sc_w sc_h sc_x sc_y]. unfold gtb. fin.
    destruct (Rltb_spec 0 W); [|lra]. destruct (Rltb_spec 0 H); [lra|]. destruct (Rleb_spec W 0); [lra|]. cbn [orb].
    rewrite E. cbn [bind]. rewrite !(px_fin _ F1), !(px_fin _ F2). fin. rewrite !fabs, !Rabs_pos_eq by lra.
    rewrite !fdiv by lra. reflexivity. }
  unfold ScaleT. rewrite ES. cbn [bind]. eexists. eexists. eexists. exists (W / (X br - X tl)).
  split; [reflexivity|]. split; [auto|]. split; [apply scaled_box; eauto; lra|].
  rewrite !pnt_X, !pnt_Y. split; [field; lra|]. split; [ring|]. split; [ring|]. symmetry. apply mapPoints_drawn; auto. apply scale_aff.
Qed.

(** Only the height given: likewise. *)
Theorem C16_height_keeps_ratio tr bm fuel kx ky a b W H (p : list (seg RNum)) tl br :
  Forall tame p -> tightBox (inDrawing p) tl br -> Y tl < Y br -> W <= 0 -> 0 < H ->
  exists p' tl' br' k, ScaleT (BezierOps tr bm fuel) (sizeSpec kx ky a b W H) p = Ok p' /\ 0 < k /\
    tightBox (inDrawing p') tl' br' /\ Y br' - Y tl' = H /\ X br' - X tl' = k * (X br - X tl) /\ Y br' - Y tl' = k * (Y br - Y tl) /\
    map (affSeg (diag k k 0 0)) (drawn p) = drawn p'.
Proof.
  intros HT HB Hh HW HH.
  pose proof (box_drawn _ _ _ HB) as Hd.
  destruct (BoundingBoxTrimWhitespace_tight _ (BezierOps_boxOk tr bm fuel) p HT Hd) as (tl1 & br1 & E & T1).
  destruct (tightBox_unique _ _ _ _ _ HB T1) as [<- <-]. clear T1.
  pose proof (Forall_tame_finite p HT) as F. pose proof HB as (F1 & F2 & _).
  assert (P1 : 0 < H / (Y br - Y tl)) by (apply Rdiv_lt_0_compat; lra).
  assert (ES : scaleFactors (BezierOps tr bm fuel) (sizeSpec kx ky a b W H) p = Ok (Fin (H / (Y br - Y tl)), Fin (H / (Y br - Y tl)))).
  { unfold scaleFactors, sizeSpec; cbn [sc_w sc_h sc_x sc_y]. unfold gtb. fin.
    destruct (Rltb_spec 0 H); [|lra]. destruct (Rltb_spec 0 W); [lra|]. destruct (Rleb_spec W 0); [|lra]. cbn [orb].
    rewrite E. cbn [bind]. rewrite !(py_fin _ F1), !(py_fin _ F2). fin. rewrite !fabs, !Rabs_pos_eq by lra.
    rewrite !fdiv by lra. reflexivity. }
  unfold ScaleT. rewrite ES. cbn [bind]. eexists. eexists. eexists. exists (H / (Y br - Y tl)).
  split; [reflexivity|]. split; [auto|]. split; [apply scaled_box; eauto; lra|].
  rewrite !pnt_X, !pnt_Y. split; [field; lra|]. split; [ring|]. split; [ring|]. symmetry. apply mapPoints_drawn; auto. apply scale_aff.
Qed.

(** Why the quantifier asks for a positive size of the drawing: a vertical line scaled to a width is not finite any more. *)
Theorem C16_positive_needed : exists (p : list (seg RNum)), Forall tame p /\ drawn p <> [] /\
  forall tr bm fuel kx ky a b, exists p', ScaleT (BezierOps tr bm fuel) (sizeSpec kx ky a b 10 0) p = Ok p' /\ ~ Forall finiteSeg p'.
Proof.
  exists [Move (pnt 0 0) (pnt 1 1); Line (pnt 1 1) (pnt 1 3)].
  assert (HT : Forall tame [Move (pnt 0 0) (pnt 1 1); Line (pnt 1 1) (pnt 1 3)]) by (repeat constructor).
  split; [exact HT|]. split; [discriminate|]. intros tr bm fuel kx ky a b.
  destruct (BoundingBoxTrimWhitespace_tight _ (BezierOps_boxOk tr bm fuel) _ HT) as (tl & br & E & TB); [discriminate|].
  assert (EX : X tl = 1 /\ X br = 1).
  { destruct TB as (_ & _ & (_ & (y1 & D1) & (y2 & D2)) & _).
    assert (K : forall x y, inDrawing [Move (pnt 0 0) (pnt 1 1); Line (pnt 1 1) (pnt 1 3)] x y -> x = 1).
    { intros x y (g & [<-|[<-|[]]] & V & (t & Ht & D)); [destruct V|]. destruct D as [-> _]. rewrite !pnt_X. ring. }
    split; eapply K; eauto. }
  destruct EX as [EX1 EX2]. pose proof TB as (F1 & F2 & _).
  unfold ScaleT, scaleFactors, sizeSpec; cbn [sc_w sc_h sc_x sc_y]. unfold gtb. fin.
  destruct (Rltb_spec 0 10); [|lra]. destruct (Rltb_spec 0 0); [lra|]. destruct (Rleb_spec 10 0); [lra|]. cbn [orb].
  rewrite E. cbn [bind]. rewrite !(px_fin _ F1), !(px_fin _ F2), EX1, EX2. fin. rewrite fabs.
  eexists. split; [reflexivity|]. intros C.
  assert (ED : @div RNum (Fin 10) (Fin (Rabs (1 - 1))) = Inf false).
  { cbn. unfold er_div. replace (1 - 1) with 0 by ring. rewrite Rabs_R0. destruct (Reqb_spec 0 0); [|lra].
    destruct (Reqb_spec 10 0); [lra|]. destruct (Rltb_spec 10 0); [lra|]. auto. }
  rewrite ED in C.
  assert (EP : forall y, @NewPoint RNum (mul (Fin 1 : T RNum) (Inf false)) y = @mkPt RNum (Inf false) (norm0 y)).
  { intros y. unfold NewPoint. cbn [mul RNum er_mul]. destruct (Reqb_spec 1 0); [lra|]. destruct (Rltb_spec 1 0); [lra|]. reflexivity. }
  unfold mapPoints in C. cbn [map TransformPoints px py pnt] in C. rewrite !EP in C.
  assert (L : In (Line (@mkPt RNum (Inf false) (norm0 (mul (Fin 1 : T RNum) (Inf false)))) (@mkPt RNum (Inf false) (norm0 (mul (Fin 3 : T RNum) (Inf false))))) 
     (NewPathFromSegments [Move (NewPoint (mul (Fin 0 : T RNum) (Inf false)) (mul (Fin 0 : T RNum) (Inf false))) (@mkPt RNum (Inf false) (norm0 (mul (Fin 1 : T RNum) (Inf false))));
        Line (@mkPt RNum (Inf false) (norm0 (mul (Fin 1 : T RNum) (Inf false)))) (@mkPt RNum (Inf false) (norm0 (mul (Fin 3 : T RNum) (Inf false))))])).
  { unfold NewPathFromSegments. cbn [isMove FixHeadMove]. destruct (_ || _)%bool; right; left; reflexivity. }
  eapply Forall_forall in C; [|exact L]. destruct C as [C _]. unfold finitePt, X, pnt in C. cbn in C. discriminate.
Qed.

Example C16_example :
  let co := BezierOps noTrig (mkBMath (fun x => x) (fun x _ => x) (fun x => x)) 5 in
  let p := [Move (pt 0 0) (pt 2 1); Line (pt 2 1) (pt 6 9); Move (pt 6 9) (pt 40 40)] in
  (dres (ScaleT co (mkScale (fz 7) (fz 7) (pt 0 0) (pt 1 1) (fz 8) (fz 4)) p), dres (ScaleT co (mkScale (fz 0) (fz 0) (pt 0 0) (pt 1 1) (fz 0) (fz 4)) p))
  = (dres (Ok [Move (pt 0 0) (ptm 4000 500); Line (ptm 4000 500) (ptm 12000 4500); Move (ptm 12000 4500) (pt 80 20)]),
     dres (Ok [Move (pt 0 0) (ptm 1000 500); Line (ptm 1000 500) (ptm 3000 4500); Move (ptm 3000 4500) (pt 20 20)])).
Proof. vm_compute. reflexivity. Qed.
Example C16_hypotheses : exists (p : list (seg RNum)) tl br, Forall tame p /\ tightBox (inDrawing p) tl br /\ X tl < X br /\ Y tl < Y br.
Proof.
  exists [Move (pnt 0 0) (pnt 2 1); Line (pnt 2 1) (pnt 6 9)], (pnt 2 1), (pnt 6 9). split; [repeat constructor|].
  split; [|rewrite !pnt_X, !pnt_Y; lra].
  apply (tightBox_ext (onSeg (Line (pnt 2 1) (pnt 6 9)))).
  - intros x y. rewrite inDrawing_drawn. cbn [drawn]. split; [intros O; eexists; split; [left; reflexivity|auto]|intros (g & [<-|[]] & O); auto].
  - pose proof (lineBox_tight (Line (pnt 2 1) (pnt 6 9)) _ _ (or_introl eq_refl) (finitePt_pnt _ _) (finitePt_pnt _ _)) as G.
    rewrite lineBox_fin in G by reflexivity. cbn [fst snd] in G. rewrite !pnt_X, !pnt_Y in G.
    rewrite !Rmin_left, !Rmax_right in G by lra. exact G.
Qed.
Print Assumptions C16_both_sizes.
