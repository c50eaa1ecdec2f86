(** C38: a point at distance d along a line is on the line at that distance. *)
From Coq Require Import String List ZArith NArith Bool Lia Reals Lra Psatz.
From Verif Require Import Num FloatNum RealNum RealTrig PathModel DrawModel SegOps PathSpec GeomSpec BezierProofs LineGeom Witness.
Import ListNotations.
Local Open Scope R_scope.

(** the distance between two points of the plane *)
Definition dist (x1 y1 x2 y2 : R) : R := sqrt ((x2 - x1) ^ 2 + (y2 - y1) ^ 2).

Lemma fatan x : natan RTrig (Fin x) = Fin (atan x). Proof. reflexivity. Qed.
Lemma fsin' x : nsin RTrig (Fin x) = Fin (sin x). Proof. reflexivity. Qed.
Lemma fcos' x : ncos RTrig (Fin x) = Fin (cos x). Proof. reflexivity. Qed.

(** the complete behaviour *)
Lemma PointAtDistance_cases x1 y1 x2 y2 d :
  PointAtDistance RTrig (pnt x1 y1) (pnt x2 y2) (Fin d) =
  if PrecisionEquals (N:=RNum) (Fin x1) (Fin x2) 3 then pnt x1 (y1 + (if Rltb y2 y1 then -1 else 1) * d)
  else if PrecisionEquals (N:=RNum) (Fin y1) (Fin y2) 3 then pnt (x1 + (if Rltb x2 x1 then -1 else 1) * d) y1
  else pnt (d * cos (atan ((y2 - y1) / (x2 - x1))) + x1) (d * sin (atan ((y2 - y1) / (x2 - x1))) + y1).
Proof.
  unfold PointAtDistance, IsVertical, IsHorizontal. cbn [px py pnt]. unfold gtb. fin.
  destruct (PrecisionEquals (Fin x1 : T RNum) _ _) eqn:V.
  - destruct (Rltb y2 y1); fin; rewrite NewPoint_fin; f_equal; ring.
  - destruct (PrecisionEquals (Fin y1 : T RNum) _ _) eqn:H.
    + destruct (Rltb x2 x1); fin; rewrite NewPoint_fin; f_equal; ring.
    + assert (NE : x1 <> x2). { intros ->. change 3%Z with (Z.of_nat 3) in V. rewrite PrecisionProofs.PrecisionEquals_refl in V. discriminate. }
      rewrite Slope_fin by auto. rewrite fatan, fsin', fcos'. fin. rewrite NewPoint_fin. reflexivity.
Qed.

(** whatever the line, the point is at distance |d| from the start *)
Theorem C38_distance x1 y1 x2 y2 d : exists x y,
  PointAtDistance RTrig (pnt x1 y1) (pnt x2 y2) (Fin d) = pnt x y /\ dist x1 y1 x y = Rabs d.
Proof.
  rewrite PointAtDistance_cases. unfold dist.
  destruct (PrecisionEquals _ _ _); [|destruct (PrecisionEquals _ _ _)].
  - do 2 eexists. split; [reflexivity|]. rewrite <- sqrt_Rsqr_abs. f_equal. unfold Rsqr. destruct (Rltb y2 y1); ring.
  - do 2 eexists. split; [reflexivity|]. rewrite <- sqrt_Rsqr_abs. f_equal. unfold Rsqr. destruct (Rltb x2 x1); ring.
  - do 2 eexists. split; [reflexivity|]. rewrite <- sqrt_Rsqr_abs. f_equal. unfold Rsqr.
    set (t := atan _). pose proof (sin2_cos2 t) as E. unfold Rsqr in E. nra.
Qed.
Print Assumptions C38_distance.

Lemma dist_pos x1 y1 x2 y2 : 0 <= dist x1 y1 x2 y2. Proof. apply sqrt_pos. Qed.
Lemma dist_vertical x y1 y2 : dist x y1 x y2 = Rabs (y2 - y1).
Proof. unfold dist. rewrite <- sqrt_Rsqr_abs. f_equal. unfold Rsqr. ring. Qed.
Lemma dist_horizontal x1 x2 y : dist x1 y x2 y = Rabs (x2 - x1).
Proof. unfold dist. rewrite <- sqrt_Rsqr_abs. f_equal. unfold Rsqr. ring. Qed.
(** for a line going right, cos and sin of the slope's angle give the direction *)
Lemma dir_right x1 y1 x2 y2 : x1 < x2 -> let t := atan ((y2 - y1) / (x2 - x1)) in
  dist x1 y1 x2 y2 * cos t = x2 - x1 /\ dist x1 y1 x2 y2 * sin t = y2 - y1.
Proof.
  intros H t. pose proof (Ratan2_spec (x2 - x1) (y2 - y1) ltac:(lra)) as [E1 E2].
  unfold Ratan2 in E1, E2. destruct (Rlt_dec 0 (x2 - x1)); [|lra]. unfold dist.
  replace ((x2 - x1) ^ 2 + (y2 - y1) ^ 2) with ((x2 - x1) * (x2 - x1) + (y2 - y1) * (y2 - y1)) by ring. auto.
Qed.

(** Full claim: for 0 <= d <= length the point lies on the segment.  Proved for vertical and horizontal lines and for lines
    going right that three decimals tell from vertical and horizontal.  False for the other lines ([C38_leftward_refuted]). *)
Theorem C38_on_segment_partial x1 y1 x2 y2 d : 0 <= d <= dist x1 y1 x2 y2 ->
  x1 = x2 \/ (y1 = y2 /\ ~ agree 3 x1 x2) \/ (~ agree 3 x1 x2 /\ ~ agree 3 y1 y2 /\ x1 < x2) ->
  exists x y, PointAtDistance RTrig (pnt x1 y1) (pnt x2 y2) (Fin d) = pnt x y /\ onSeg (Line (pnt x1 y1) (pnt x2 y2)) x y.
Proof.
  intros Hd H. rewrite PointAtDistance_cases. change 3%Z with (Z.of_nat 3). unfold agree in H. unfold onSeg. cbn [X Y val pnt px py].
  destruct H as [->|[[-> H]|(H1 & H2 & H3)]].
  - rewrite PrecisionProofs.PrecisionEquals_refl. do 2 eexists. split; [reflexivity|].
    rewrite dist_vertical in Hd. destruct (Req_dec y1 y2) as [->|N].
    + exists 0. replace (y2 - y2) with 0 in Hd by ring. rewrite Rabs_R0 in Hd. assert (d = 0) by lra. subst d. split; [lra|split; ring].
    + destruct (Rltb_spec y2 y1).
      * rewrite Rabs_left in Hd by lra. exists (d / (y1 - y2)). split; [|split; field; lra].
        split; [apply Rmult_le_pos; [lra|left; apply Rinv_0_lt_compat; lra]|]. apply (Rmult_le_reg_r (y1 - y2)); [lra|]. field_simplify; lra.
      * rewrite Rabs_right in Hd by lra. exists (d / (y2 - y1)). split; [|split; field; lra].
        split; [apply Rmult_le_pos; [lra|left; apply Rinv_0_lt_compat; lra]|]. apply (Rmult_le_reg_r (y2 - y1)); [lra|]. field_simplify; lra.
  - assert (N : x1 <> x2) by (intros Q; apply H; rewrite Q; apply agree_refl).
    destruct (PrecisionEquals (Fin x1 : T RNum) _ _) eqn:E; [tauto|]. rewrite PrecisionProofs.PrecisionEquals_refl.
    do 2 eexists. split; [reflexivity|]. rewrite dist_horizontal in Hd. destruct (Rltb_spec x2 x1).
    + rewrite Rabs_left in Hd by lra. exists (d / (x1 - x2)). split; [|split; field; lra].
      split; [apply Rmult_le_pos; [lra|left; apply Rinv_0_lt_compat; lra]|]. apply (Rmult_le_reg_r (x1 - x2)); [lra|]. field_simplify; lra.
    + rewrite Rabs_right in Hd by lra. exists (d / (x2 - x1)). split; [|split; field; lra].
      split; [apply Rmult_le_pos; [lra|left; apply Rinv_0_lt_compat; lra]|]. apply (Rmult_le_reg_r (x2 - x1)); [lra|]. field_simplify; lra.
  - destruct (PrecisionEquals (Fin x1 : T RNum) _ _) eqn:E; [tauto|]. destruct (PrecisionEquals (Fin y1 : T RNum) _ _) eqn:E'; [tauto|].
    do 2 eexists. split; [reflexivity|]. pose proof (dir_right x1 y1 x2 y2 H3) as [D1 D2]. cbv zeta in D1, D2.
    set (L := dist x1 y1 x2 y2) in *. set (t := atan _) in *.
    assert (0 < L). { destruct (Rle_lt_or_eq_dec 0 L (dist_pos _ _ _ _)) as [P|P]; auto. rewrite <- P in D1. lra. }
    exists (d / L). split.
    { split; [apply Rmult_le_pos; [lra|left; apply Rinv_0_lt_compat; lra]|]. apply (Rmult_le_reg_r L); [lra|]. field_simplify; lra. }
    rewrite <- D1, <- D2. split; field; lra.
Qed.
Print Assumptions C38_on_segment_partial.

(** lines that only look vertical (to three decimals): the point is within 0.001 of the segment in both coordinates *)
Theorem C38_near_vertical x1 y1 x2 y2 d : 0 <= d <= dist x1 y1 x2 y2 -> agree 3 x1 x2 ->
  exists x y x' y', PointAtDistance RTrig (pnt x1 y1) (pnt x2 y2) (Fin d) = pnt x y /\ onSeg (Line (pnt x1 y1) (pnt x2 y2)) x' y' /\
    Rabs (x - x') <= / 1000 /\ Rabs (y - y') <= / 1000.
Proof.
  intros Hd A. rewrite PointAtDistance_cases. change 3%Z with (Z.of_nat 3). unfold agree in A. rewrite A.
  pose proof (agree_close 3 x1 x2 A) as C. replace (/ 10 ^ 3) with (/ 1000) in C by (cbn; field).
  assert (L : dist x1 y1 x2 y2 <= Rabs (x1 - x2) + Rabs (y2 - y1)).
  { unfold dist. apply Rsqr_incr_0_var; [|pose proof (Rabs_pos (x1 - x2)); pose proof (Rabs_pos (y2 - y1)); lra].
    rewrite Rsqr_sqrt by (apply Rplus_le_le_0_compat; apply pow2_ge_0). unfold Rsqr.
    assert (Rabs (x1 - x2) * Rabs (x1 - x2) = (x1 - x2) * (x1 - x2)) by (rewrite <- Rabs_mult; apply Rabs_right, Rle_ge, Rle_0_sqr).
    assert (Rabs (y2 - y1) * Rabs (y2 - y1) = (y2 - y1) * (y2 - y1)) by (rewrite <- Rabs_mult; apply Rabs_right, Rle_ge, Rle_0_sqr).
    pose proof (Rabs_pos (x1 - x2)); pose proof (Rabs_pos (y2 - y1)). nra. }
  unfold onSeg. cbn [X Y val pnt px py].
  set (h := Rabs (y2 - y1)) in *. set (m := if Rltb y2 y1 then -1 else 1).
  assert (Hm : y2 - y1 = m * h) by (unfold m, h; destruct (Rltb_spec y2 y1); [rewrite Rabs_left by lra|rewrite Rabs_right by lra]; ring).
  assert (Mm : m = 1 \/ m = -1) by (unfold m; destruct (Rltb y2 y1); auto).
  assert (Hh : 0 <= h) by apply Rabs_pos.
  do 2 eexists. destruct (Rle_dec d h) as [D|D].
  - destruct (Req_dec h 0) as [Z|Z].
    + exists x1, y1. split; [reflexivity|]. split; [exists 0; split; [lra|split; ring]|]. assert (d = 0) by lra. subst d.
      replace (x1 - x1) with 0 by ring. replace (y1 + m * 0 - y1) with 0 by ring. rewrite Rabs_R0. lra.
    + exists (x1 + d / h * (x2 - x1)), (y1 + m * d). split; [reflexivity|].
      assert (T : 0 <= d / h <= 1).
      { split; [apply Rmult_le_pos; [lra|left; apply Rinv_0_lt_compat; lra]|]. apply (Rmult_le_reg_r h); [lra|]. field_simplify; lra. }
      split; [exists (d / h); split; [auto|split; [ring|rewrite Hm; field; lra]]|].
      replace (x1 - (x1 + d / h * (x2 - x1))) with (d / h * (x1 - x2)) by ring. replace (y1 + m * d - (y1 + m * d)) with 0 by ring.
      rewrite Rabs_mult, Rabs_R0, (Rabs_right (d / h)) by lra. pose proof (Rabs_pos (x1 - x2)). nra.
  - exists x2, y2. split; [reflexivity|]. split; [exists 1; split; [lra|split; ring]|]. split; [lra|].
    replace (y1 + m * d - y2) with (m * (d - h)) by lra. rewrite Rabs_mult. replace (Rabs m) with 1 by (destruct Mm as [->| ->]; [rewrite Rabs_R1|rewrite Rabs_left by lra]; lra).
    rewrite Rabs_right by lra. lra.
Qed.
Print Assumptions C38_near_vertical.

(** Finding: for every line going left that is neither vertical nor horizontal (to three decimals) and every d > 0, the point is on
    the other side of the start and not on the segment. *)
Theorem C38_leftward_refuted x1 y1 x2 y2 d : ~ agree 3 x1 x2 -> ~ agree 3 y1 y2 -> x2 < x1 -> 0 < d ->
  exists x y, PointAtDistance RTrig (pnt x1 y1) (pnt x2 y2) (Fin d) = pnt x y /\ x1 < x /\ ~ onSeg (Line (pnt x1 y1) (pnt x2 y2)) x y.
Proof.
  intros H1 H2 H3 Hd. rewrite PointAtDistance_cases. change 3%Z with (Z.of_nat 3). unfold agree in *.
  destruct (PrecisionEquals (Fin x1 : T RNum) _ _) eqn:E; [tauto|]. destruct (PrecisionEquals (Fin y1 : T RNum) _ _) eqn:E'; [tauto|].
  do 2 eexists. split; [reflexivity|].
  assert (C : 0 < cos (atan ((y2 - y1) / (x2 - x1)))).
  { apply cos_gt_0; pose proof (atan_bound ((y2 - y1) / (x2 - x1))); lra. }
  assert (0 < d * cos (atan ((y2 - y1) / (x2 - x1)))) by (apply Rmult_lt_0_compat; auto).
  split; [lra|]. intros (t & Ht & Ex & _). cbn [X val pnt px] in Ex. nra.
Qed.
Print Assumptions C38_leftward_refuted.

(** a 3-4-5 line to the right, a line down, and a 3-4-5 line to the left *)
Lemma no_agree x y : / 1000 < Rabs (x - y) -> ~ agree 3 x y.
Proof. intros H A. apply agree_close in A. replace (/ 10 ^ 3) with (/ 1000) in A by (cbn; field). lra. Qed.
Example C38_example : 0 <= 2 <= dist 0 0 4 3 /\ ~ agree 3 0 4 /\ ~ agree 3 0 3 /\ ~ agree 3 4 0 /\ ~ agree 3 3 0 /\
  (exists x y, PointAtDistance RTrig (pnt 1 5) (pnt 1 1) (Fin 3) = pnt x y /\ x = 1 /\ y = 2).
Proof.
  split. { unfold dist. replace ((4 - 0) ^ 2 + (3 - 0) ^ 2) with (5 * 5) by ring. rewrite sqrt_square; lra. }
  do 4 (split; [apply no_agree; (rewrite Rabs_left by lra; lra) || (rewrite Rabs_right by lra; lra)|]).
  rewrite PointAtDistance_cases. change 3%Z with (Z.of_nat 3). rewrite PrecisionProofs.PrecisionEquals_refl.
  destruct (Rltb_spec 1 5); [|lra]. do 2 eexists. split; [reflexivity|]. split; ring.
Qed.
(** the points (1,5) and (1,1) agree in their first coordinate *)
Example C38_near_vertical_example : 0 <= 3 <= dist 1 5 1 1 /\ agree 3 1 1.
Proof.
  split; [|apply PrecisionProofs.PrecisionEquals_refl]. unfold dist. replace ((1 - 1) ^ 2 + (1 - 5) ^ 2) with (4 * 4) by ring. rewrite sqrt_square; lra.
Qed.
