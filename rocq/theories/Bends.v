(** Curves that bend gently and one way, in exact arithmetic: how far they turn, and how [reduce] cuts them. *)
From Coq Require Import List ZArith Bool Reals Lra Lia Arith.
From Verif Require Import Num RealNum RealTrig PathModel SegOps Bezier PathSpec GeomSpec BezierProofs RootsProofs ReduceProofs ReduceCuts LineGeom PrecisionProofs Prop_C33 Prop_C03 Prop_C76 LoopCurve Prop_C90 Prop_C91.
Import ListNotations.
Local Open Scope R_scope.

(** *** what is meant *)
(** how fast the speeds of the curve change *)
Definition accX (c : crv RNum) (t : R) : R := 6 * ((1 - t) * (X (c_s c) - 2 * X (c_cs c) + X (c_ce c)) + t * (X (c_cs c) - 2 * X (c_ce c) + X (c_e c))).
Definition accY (c : crv RNum) (t : R) : R := 6 * ((1 - t) * (Y (c_s c) - 2 * Y (c_cs c) + Y (c_ce c)) + t * (Y (c_cs c) - 2 * Y (c_ce c) + Y (c_e c))).
(** the directions at two parameters *)
Definition dotV (c : crv RNum) (s t : R) : R := speedX c s * speedX c t + speedY c s * speedY c t.
Definition crossV (c : crv RNum) (s t : R) : R := speedX c s * speedY c t - speedY c s * speedX c t.
(** the angle between them *)
Definition turned (c : crv RNum) (s t : R) : R := acos (dotV c s t / (sqrt (dotV c s s) * sqrt (dotV c t t))).
(** the curve turns to one side only, up to the parameter 1.01 *)
Definition oneWay (c : crv RNum) : Prop := exists sg, (sg = 1 \/ sg = -1) /\ forall t, 0 <= t <= 101 / 100 -> 0 <= sg * (speedX c t * accY c t - speedY c t * accX c t).
(** the curve never stops, and on no hundredth of its parameters does it turn by fifteen degrees *)
Definition gentle (c : crv RNum) : Prop := forall s t, 0 <= s <= t -> t <= s + 1 / 100 -> t <= 101 / 100 -> 0 < dotV c s s /\ turned c s t < PI / 12.

Lemma speedX_acc c t : derivable_pt_lim (speedX c) t (accX c t).
Proof.
  set (a := 3 * (X (c_cs c) - X (c_s c))). set (b := 3 * (X (c_ce c) - X (c_cs c))). set (d := 3 * (X (c_e c) - X (c_ce c))).
  assert (E : forall z, a + 2 * (b - a) * z + (a - 2 * b + d) * z ^ 2 = speedX c z) by (intros; unfold speedX, dquad; fold a b d; ring).
  assert (D : derivable_pt_lim (fun z => a + 2 * (b - a) * z + (a - 2 * b + d) * z ^ 2) t (0 + 2 * (b - a) * 1 + (a - 2 * b + d) * (INR 2 * t ^ 1))).
  { apply (derivable_pt_lim_plus (fun t => a + 2 * (b - a) * t) (fun t => (a - 2 * b + d) * t ^ 2)). apply (derivable_pt_lim_plus (fun t => a) (fun t => 2 * (b - a) * t)). apply derivable_pt_lim_const.
    apply (derivable_pt_lim_scal (fun t => t)). apply derivable_pt_lim_id. apply (derivable_pt_lim_scal (fun t => t ^ 2)). apply (derivable_pt_lim_pow t 2). }
  replace (accX c t) with (0 + 2 * (b - a) * 1 + (a - 2 * b + d) * (INR 2 * t ^ 1)) by (unfold accX, a, b, d; simpl INR; ring). intros eps He. destruct (D eps He) as [del Hd]. exists del. intros h Hh Hlt. rewrite <- !E. apply Hd; auto.
Qed.
Lemma speedY_acc c t : derivable_pt_lim (speedY c) t (accY c t).
Proof.
  set (a := 3 * (Y (c_cs c) - Y (c_s c))). set (b := 3 * (Y (c_ce c) - Y (c_cs c))). set (d := 3 * (Y (c_e c) - Y (c_ce c))).
  assert (E : forall z, a + 2 * (b - a) * z + (a - 2 * b + d) * z ^ 2 = speedY c z) by (intros; unfold speedY, dquad; fold a b d; ring).
  assert (D : derivable_pt_lim (fun z => a + 2 * (b - a) * z + (a - 2 * b + d) * z ^ 2) t (0 + 2 * (b - a) * 1 + (a - 2 * b + d) * (INR 2 * t ^ 1))).
  { apply (derivable_pt_lim_plus (fun t => a + 2 * (b - a) * t) (fun t => (a - 2 * b + d) * t ^ 2)). apply (derivable_pt_lim_plus (fun t => a) (fun t => 2 * (b - a) * t)). apply derivable_pt_lim_const.
    apply (derivable_pt_lim_scal (fun t => t)). apply derivable_pt_lim_id. apply (derivable_pt_lim_scal (fun t => t ^ 2)). apply (derivable_pt_lim_pow t 2). }
  replace (accY c t) with (0 + 2 * (b - a) * 1 + (a - 2 * b + d) * (INR 2 * t ^ 1)) by (unfold accY, a, b, d; simpl INR; ring). intros eps He. destruct (D eps He) as [del Hd]. exists del. intros h Hh Hlt. rewrite <- !E. apply Hd; auto.
Qed.

(** *** the direction as an angle, seen from a direction [gx, gy] in front of which the curve stays *)
Section Angle.
Variable c : crv RNum.
Variables sg gx gy x z : R.
Hypothesis Hsg : sg = 1 \/ sg = -1.
Hypothesis HK : forall t, x <= t <= z -> 0 <= sg * (speedX c t * accY c t - speedY c t * accX c t).
Hypothesis HG : forall t, x <= t <= z -> 0 < gx * speedX c t + gy * speedY c t.
Hypothesis NS : ~ straight c.
Let D t := gx * speedX c t + gy * speedY c t.
Let E t := gx * speedY c t - gy * speedX c t.
Definition slope (t : R) : R := sg * (gx * speedY c t - gy * speedX c t) / (gx * speedX c t + gy * speedY c t).
Definition psi (t : R) : R := atan (slope t).
Lemma Ssg : sg * sg = 1. Proof. destruct Hsg as [-> | ->]; ring. Qed.
Lemma slope_lim t : x <= t <= z -> derivable_pt_lim slope t (sg * ((gx * gx + gy * gy) * (speedX c t * accY c t - speedY c t * accX c t)) / (D t * D t)).
Proof.
  intros Ht. pose proof (HG t Ht) as P. fold (D t) in P.
  assert (LD : derivable_pt_lim (fun t => gx * speedX c t + gy * speedY c t) t (gx * accX c t + gy * accY c t)).
  { apply (derivable_pt_lim_plus (fun t => gx * speedX c t) (fun t => gy * speedY c t)); [apply (derivable_pt_lim_scal (speedX c)), speedX_acc|apply (derivable_pt_lim_scal (speedY c)), speedY_acc]. }
  assert (LE : derivable_pt_lim (fun t => sg * (gx * speedY c t - gy * speedX c t)) t (sg * (gx * accY c t - gy * accX c t))).
  { apply (derivable_pt_lim_scal (fun t => gx * speedY c t - gy * speedX c t)). apply (derivable_pt_lim_minus (fun t => gx * speedY c t) (fun t => gy * speedX c t)); [apply (derivable_pt_lim_scal (speedY c)), speedY_acc|apply (derivable_pt_lim_scal (speedX c)), speedX_acc]. }
  pose proof (derivable_pt_lim_div _ _ t _ _ LE LD) as L. cbv beta in L. fold (D t) in L. specialize (L ltac:(lra)).
  match type of L with derivable_pt_lim _ _ ?v => replace (sg * ((gx * gx + gy * gy) * (speedX c t * accY c t - speedY c t * accX c t)) / (D t * D t)) with v end; [exact L|].
  unfold Rsqr. f_equal. unfold D. ring.
Qed.
Lemma slope_le s t : x <= s -> s <= t -> t <= z -> slope s <= slope t.
Proof.
  intros H1 H2 H3. destruct (Req_dec s t) as [->|NE]; [lra|]. destruct (MVT_cor2 slope (fun t => sg * ((gx * gx + gy * gy) * (speedX c t * accY c t - speedY c t * accX c t)) / (D t * D t)) s t) as (w & EW & HW); [lra|intros w Hw; apply slope_lim; lra|].
  assert (Hw : x <= w <= z) by lra. pose proof (HK w Hw) as K. pose proof (HG w Hw) as P. fold (D w) in P.
  assert (0 <= sg * ((gx * gx + gy * gy) * (speedX c w * accY c w - speedY c w * accX c w)) / (D w * D w)).
  { unfold Rdiv. apply Rmult_le_pos; [|apply Rlt_le, Rinv_0_lt_compat; nra]. replace (sg * ((gx * gx + gy * gy) * (speedX c w * accY c w - speedY c w * accX c w))) with ((gx * gx + gy * gy) * (sg * (speedX c w * accY c w - speedY c w * accX c w))) by ring. apply Rmult_le_pos; [nra|exact K]. }
  assert (0 <= slope t - slope s) by (rewrite EW; apply Rmult_le_pos; lra). lra.
Qed.
Lemma g_pos t : x <= t <= z -> 0 < gx * gx + gy * gy.
Proof. intros Ht. pose proof (HG t Ht). destruct (Req_dec gx 0) as [E0|]; [destruct (Req_dec gy 0) as [E1|]; [rewrite E0, E1 in H; lra|nra]|nra]. Qed.
Lemma cross_slope s t : x <= s <= z -> x <= t <= z -> sg * crossV c s t * (gx * gx + gy * gy) = D s * D t * (slope t - slope s).
Proof.
  intros Hs Ht. pose proof (HG s Hs) as P. pose proof (HG t Ht) as Q. unfold slope. unfold D. field_simplify; [|lra]. unfold crossV. ring.
Qed.
Lemma dot_slope s t : x <= s <= z -> x <= t <= z -> dotV c s t * (gx * gx + gy * gy) = D s * D t * (1 + slope s * slope t).
Proof.
  intros Hs Ht. pose proof (HG s Hs) as P. pose proof (HG t Ht) as Q.
  assert (ES : forall w, x <= w <= z -> slope w * D w = sg * E w) by (intros w Hw; pose proof (HG w Hw); unfold slope, D, E; field; lra).
  replace (D s * D t * (1 + slope s * slope t)) with (D s * D t + (slope s * D s) * (slope t * D t)) by ring. rewrite !ES by assumption. replace (sg * E s * (sg * E t)) with ((sg * sg) * (E s * E t)) by ring. rewrite Ssg. unfold dotV, D, E. ring.
Qed.
Lemma slope_lt s t : x <= s -> s < t -> t <= z -> slope s < slope t.
Proof.
  intros H1 H2 H3. destruct (Rlt_le_dec (slope s) (slope t)) as [L|G]; [exact L|]. exfalso. apply NS. set (m := (s + t) / 2).
  assert (E1 : crossV c s t = 0 /\ crossV c s m = 0).
  { assert (S1 := slope_le s m ltac:(lra) ltac:(unfold m; lra) ltac:(unfold m; lra)). assert (S2 := slope_le m t ltac:(unfold m; lra) ltac:(unfold m; lra) ltac:(lra)). pose proof (g_pos s ltac:(lra)) as GP.
    assert (forall w, x <= w <= z -> slope w = slope s -> crossV c s w = 0).
    { intros w Hw EW. pose proof (cross_slope s w ltac:(lra) Hw) as K. rewrite EW in K. replace (D s * D w * (slope s - slope s)) with 0 in K by ring. apply Rmult_integral in K. destruct K as [K|K]; [|lra]. apply Rmult_integral in K. destruct K as [K|K]; [|exact K]. pose proof Ssg. nra. }
    split; apply H; unfold m in *; lra. }
  destruct E1 as [ET EM]. assert (E0 : crossV c s s = 0) by (unfold crossV; ring).
  set (p := speedX c s) in *. set (q := speedY c s) in *.
  set (A := p * (3 * (Y (c_cs c) - Y (c_s c))) - q * (3 * (X (c_cs c) - X (c_s c)))). set (B := p * (3 * (Y (c_ce c) - Y (c_cs c))) - q * (3 * (X (c_ce c) - X (c_cs c)))). set (C := p * (3 * (Y (c_e c) - Y (c_ce c))) - q * (3 * (X (c_e c) - X (c_ce c)))).
  assert (QQ : forall w, crossV c s w = A + 2 * (B - A) * w + (A - 2 * B + C) * (w * w)) by (intros w; unfold crossV; fold p q; unfold speedX, speedY, dquad, A, B, C; ring).
  rewrite QQ in ET, EM, E0. set (u := 2 * (B - A)) in *. set (v := A - 2 * B + C) in *.
  assert (F1 : (t - s) * (u + v * (t + s)) = 0) by (apply Rminus_diag_uniq; replace ((t - s) * (u + v * (t + s)) - 0) with ((A + u * t + v * (t * t)) - (A + u * s + v * (s * s))) by ring; rewrite ET, E0; ring).
  assert (F2 : (m - s) * (u + v * (m + s)) = 0) by (apply Rminus_diag_uniq; replace ((m - s) * (u + v * (m + s)) - 0) with ((A + u * m + v * (m * m)) - (A + u * s + v * (s * s))) by ring; rewrite EM, E0; ring).
  apply Rmult_integral in F1. destruct F1 as [F1|F1]; [lra|]. apply Rmult_integral in F2. destruct F2 as [F2|F2]; [unfold m in F2; lra|].
  assert (V0 : v = 0). { assert (v * (t - m) = 0) by lra. apply Rmult_integral in H. destruct H as [H|H]; [exact H|unfold m in H; lra]. }
  assert (U0 : u = 0) by (rewrite V0 in F1; lra). assert (A0 : A = 0) by (rewrite U0, V0 in E0; lra). assert (B0 : B = 0) by (unfold u in U0; lra). assert (C0 : C = 0) by (unfold v in V0; lra).
  exists (- q), p, (p * Y (c_s c) - q * X (c_s c)). split.
  - pose proof (HG s ltac:(lra)) as P. fold p q in P. destruct (Req_dec p 0) as [Z1|]; [left|right; assumption]. intros Z2. assert (q = 0) by lra. rewrite Z1, H in P. lra.
  - intros w. unfold curveX, curveY, cubic. unfold A in A0. unfold B in B0. unfold C in C0.
    replace (- q * _ + p * _) with (p * Y (c_s c) - q * X (c_s c) + (1 - (1 - w) ^ 3) * ((p * (3 * (Y (c_cs c) - Y (c_s c))) - q * (3 * (X (c_cs c) - X (c_s c)))) / 3) + (3 * (1 - w) * w ^ 2 + w ^ 3) * ((p * (3 * (Y (c_ce c) - Y (c_cs c))) - q * (3 * (X (c_ce c) - X (c_cs c)))) / 3) + w ^ 3 * ((p * (3 * (Y (c_e c) - Y (c_ce c))) - q * (3 * (X (c_e c) - X (c_ce c)))) / 3)) by field.
    rewrite A0, B0, C0. field.
Qed.
Lemma psi_lt s t : x <= s -> s < t -> t <= z -> psi s < psi t. Proof. intros. apply atan_increasing, slope_lt; assumption. Qed.
Lemma psi_le s t : x <= s -> s <= t -> t <= z -> psi s <= psi t. Proof. intros H1 H2 H3. destruct (Req_dec s t) as [->|]; [lra|]. apply Rlt_le, psi_lt; lra. Qed.
Lemma len_slope t : x <= t <= z -> sqrt (dotV c t t) = D t * sqrt (1 + slope t * slope t) / sqrt (gx * gx + gy * gy).
Proof.
  intros Ht. pose proof (HG t Ht) as P. fold (D t) in P. pose proof (g_pos t Ht) as GP. pose proof (dot_slope t t Ht Ht) as K.
  replace (dotV c t t) with (D t * D t * ((1 + slope t * slope t) / (gx * gx + gy * gy))) by (apply (Rmult_eq_reg_r (gx * gx + gy * gy)); [rewrite K; field; lra|lra]).
  assert (0 <= slope t * slope t) by nra. rewrite sqrt_mult; [|nra|apply Rmult_le_pos; [lra|apply Rlt_le, Rinv_0_lt_compat, GP]]. rewrite sqrt_square by lra. rewrite sqrt_div by lra. field. apply Rgt_not_eq, sqrt_lt_R0, GP.
Qed.
Lemma psi_cos s t : x <= s <= z -> x <= t <= z -> dotV c s t / (sqrt (dotV c s s) * sqrt (dotV c t t)) = cos (psi t - psi s).
Proof.
  intros Hs Ht. rewrite cos_minus. unfold psi. rewrite !cos_atan, !sin_atan. rewrite (len_slope s Hs), (len_slope t Ht). unfold Rsqr. set (a := slope s). set (b := slope t). pose proof (g_pos s Hs) as GP. pose proof (HG s Hs) as P. pose proof (HG t Ht) as Q. fold (D s) in P. fold (D t) in Q.
  assert (0 < sqrt (1 + a * a)) by (apply sqrt_lt_R0; nra). assert (0 < sqrt (1 + b * b)) by (apply sqrt_lt_R0; nra). assert (SG : 0 < sqrt (gx * gx + gy * gy)) by (apply sqrt_lt_R0; exact GP). assert (SS : sqrt (gx * gx + gy * gy) * sqrt (gx * gx + gy * gy) = gx * gx + gy * gy) by (apply sqrt_sqrt; lra).
  replace (dotV c s t) with (D s * D t * (1 + a * b) / (sqrt (gx * gx + gy * gy) * sqrt (gx * gx + gy * gy))) by (rewrite SS; unfold a, b; rewrite <- (dot_slope s t Hs Ht); field; lra). field. repeat split; lra.
Qed.
Lemma turned_psi s t : x <= s -> s <= t -> t <= z -> turned c s t = psi t - psi s.
Proof.
  intros H1 H2 H3. unfold turned. rewrite psi_cos by lra. apply acos_cos. pose proof (psi_le s t H1 H2 H3). unfold psi in *. pose proof (atan_bound (slope s)). pose proof (atan_bound (slope t)). lra.
Qed.
Lemma cross_pos s t : x <= s -> s < t -> t <= z -> 0 < sg * crossV c s t.
Proof.
  intros H1 H2 H3. pose proof (cross_slope s t ltac:(lra) ltac:(lra)) as K. pose proof (slope_lt s t H1 H2 H3). pose proof (g_pos s ltac:(lra)) as GP. pose proof (HG s ltac:(lra)) as P. pose proof (HG t ltac:(lra)) as Q. fold (D s) in P. fold (D t) in Q.
  assert (0 < D s * D t * (slope t - slope s)) by (apply Rmult_lt_0_compat; [apply Rmult_lt_0_compat; assumption|lra]). rewrite <- K in H0. destruct (Rlt_le_dec 0 (sg * crossV c s t)); [assumption|]. nra.
Qed.
(** the chord turns less than the end, more than the start *)
Lemma chord_start a b : x <= a -> a < b -> b <= z -> 0 < sg * (speedX c a * (curveY c b - curveY c a) - speedY c a * (curveX c b - curveX c a)).
Proof.
  intros H1 H2 H3. set (h := fun t => sg * (speedX c a * curveY c t - speedY c a * curveX c t)). destruct (MVT_cor2 h (fun t => sg * crossV c a t) a b H2) as (w & EW & HW).
  - intros t _. unfold h, crossV. apply (derivable_pt_lim_scal (fun t => speedX c a * curveY c t - speedY c a * curveX c t)). apply (derivable_pt_lim_minus (fun t => speedX c a * curveY c t) (fun t => speedY c a * curveX c t)); [apply (derivable_pt_lim_scal (curveY c)), speedY_lim|apply (derivable_pt_lim_scal (curveX c)), speedX_lim].
  - replace (sg * _) with (h b - h a) by (unfold h; ring). rewrite EW. apply Rmult_lt_0_compat; [apply cross_pos; lra|lra].
Qed.
Lemma chord_end a b : x <= a -> a < b -> b <= z -> 0 < sg * ((curveX c b - curveX c a) * speedY c b - (curveY c b - curveY c a) * speedX c b).
Proof.
  intros H1 H2 H3. set (h := fun t => sg * (speedY c b * curveX c t - speedX c b * curveY c t)). destruct (MVT_cor2 h (fun t => sg * crossV c t b) a b H2) as (w & EW & HW).
  - intros t _. unfold h, crossV. replace (sg * (speedX c t * speedY c b - speedY c t * speedX c b)) with (sg * (speedY c b * speedX c t - speedX c b * speedY c t)) by ring. apply (derivable_pt_lim_scal (fun t => speedY c b * curveX c t - speedX c b * curveY c t)). apply (derivable_pt_lim_minus (fun t => speedY c b * curveX c t) (fun t => speedX c b * curveY c t)); [apply (derivable_pt_lim_scal (curveX c)), speedX_lim|apply (derivable_pt_lim_scal (curveY c)), speedY_lim].
  - replace (sg * _) with (h b - h a) by (unfold h; ring). rewrite EW. apply Rmult_lt_0_compat; [apply cross_pos; lra|lra].
Qed.
End Angle.

(** *** when a section counts as simple *)
Definition part (c d : crv RNum) (a b : R) : Prop := finiteCrv d /\ forall u, curveX d u = curveX c (a + (b - a) * u) /\ curveY d u = curveY c (a + (b - a) * u).
Lemma part_trans c d e a b a' b' : part c d a b -> part d e a' b' -> part c e (a + (b - a) * a') (a + (b - a) * b').
Proof.
  intros (F1 & H1) (F2 & H2). split; [exact F2|]. intros u. destruct (H2 u) as [-> ->]. destruct (H1 (a' + (b' - a') * u)) as [-> ->].
  replace (a + (b - a) * (a' + (b' - a') * u)) with (a + (b - a) * a' + (a + (b - a) * b' - (a + (b - a) * a')) * u) by ring. auto.
Qed.
Lemma part_speed c p a b u : part c p a b -> speedX p u = (b - a) * speedX c (a + (b - a) * u) /\ speedY p u = (b - a) * speedY c (a + (b - a) * u).
Proof.
  intros (_ & H).
  assert (L : forall u, derivable_pt_lim (fun u => a + (b - a) * u) u (b - a)).
  { intros v e He. exists (mkposreal 1 Rlt_0_1). intros h Hh _. replace ((a + (b - a) * (v + h) - (a + (b - a) * v)) / h - (b - a)) with 0 by (field; exact Hh). rewrite Rabs_R0. exact He. }
  split; [apply (uniqueness_limite (curveX p) u); [apply speedX_lim|]|apply (uniqueness_limite (curveY p) u); [apply speedY_lim|]].
  - assert (K : derivable_pt_lim (comp (curveX c) (fun u => a + (b - a) * u)) u (speedX c (a + (b - a) * u) * (b - a))) by (apply derivable_pt_lim_comp; [apply L|apply speedX_lim]).
    intros e He. destruct (K e He) as (dl & Hd). exists dl. intros h Hh Hl. unfold comp in Hd. rewrite !(proj1 (H _)), (Rmult_comm (b - a) (speedX _ _)). apply Hd; assumption.
  - assert (K : derivable_pt_lim (comp (curveY c) (fun u => a + (b - a) * u)) u (speedY c (a + (b - a) * u) * (b - a))) by (apply derivable_pt_lim_comp; [apply L|apply speedY_lim]).
    intros e He. destruct (K e He) as (dl & Hd). exists dl. intros h Hh Hl. unfold comp in Hd. rewrite !(proj2 (H _)), (Rmult_comm (b - a) (speedY _ _)). apply Hd; assumption.
Qed.
Lemma sec_part p t1 t2 : finiteCrv (cv p) -> 0 <= t1 < t2 -> t1 < 1 -> part (cv p) (sec p t1 t2) t1 t2.
Proof.
  intros F H1 H2. assert (HL : forall d t, finiteCrv d -> part d (fst (hullSplit d (Fin t : T RNum))) 0 t /\ part d (snd (hullSplit d (Fin t : T RNum))) t 1).
  { intros d t Fd. pose proof (hullSplit_spec d t Fd) as G. destruct (hullSplit d (Fin t : T RNum)) as [l r]. cbn [fst snd]. destruct G as (Fl & Fr & Gl & Gr). split; split; try assumption. intros u. replace (0 + (t - 0) * u) with (t * u) by ring. apply Gl. }
  unfold splitSectionS. fin. destruct (Reqb_spec t1 0) as [->|N0].
  - cbn [fst]. destruct (splitAtS_cv p t2) as [E _]; [lra|]. rewrite E. apply HL, F.
  - destruct (Reqb_spec t2 1) as [->|N1].
    + cbn [fst]. destruct (splitAtS_cv p t1) as [_ E]; [lra|]. rewrite E. apply HL, F.
    + destruct (Rltb_spec t2 0); [lra|]. assert (EM : @mapRange RNum (Fin t2) (Fin t1) (Fin 1) (Fin 0) (Fin 1) = Fin ((t2 - t1) / (1 - t1))) by (unfold mapRange; fin; rewrite fdiv by lra; fin; f_equal; field; lra). rewrite EM.
      set (u := (t2 - t1) / (1 - t1)). assert (Hu : 0 < u) by (unfold u; apply Rdiv_lt_0_compat; lra).
      destruct (HL (cv p) t1 F) as [_ G]. assert (ER : cv (snd (hullSplitS p (Fin t1 : T RNum))) = snd (hullSplit (cv p) (Fin t1 : T RNum))) by (unfold hullSplitS; destruct (hullSplit (cv p) _); reflexivity).
      destruct (splitAtS_cv (snd (hullSplitS p (Fin t1 : T RNum))) u) as [E' _]; [lra|]. rewrite E', ER. destruct (HL _ u (proj1 G)) as [G' _].
      pose proof (part_trans _ _ _ _ _ _ _ G G') as K. replace (t1 + (1 - t1) * 0) with t1 in K by ring. replace (t1 + (1 - t1) * u) with t2 in K by (unfold u; field; lra). exact K.
Qed.
Lemma simple_turn d : finiteCrv d -> 0 < dotV d 0 0 -> 0 < dotV d 1 1 -> (side1 d < 0 /\ side2 d < 0) \/ (0 < side1 d /\ 0 < side2 d) -> (simple RTrig RBMath d = true <-> turned d 0 1 < PI / 3).
Proof.
  intros F P0 P1 HS. unfold simple. cbv zeta. pose proof F as (F1 & F2 & F3 & F4). rewrite (angle_fin _ _ _ F1 F3 F2), (angle_fin _ _ _ F1 F3 F4). fold (side1 d) (side2 d).
  set (x1 := (X (c_e d) - X (c_s d)) * (X (c_cs d) - X (c_s d)) + _). set (x2 := (X (c_e d) - X (c_s d)) * (X (c_ce d) - X (c_s d)) + _). unfold gtb. fin.
  replace (_ || _) with false.
  2:{ symmetry. apply orb_false_iff. destruct HS as [[A B]|[A B]].
      - apply (Ratan2_below _ x1) in A. apply (Ratan2_below _ x2) in B. split; apply andb_false_iff; [left|right]; apply Rltb_false; lra.
      - apply (Ratan2_above _ x1) in A. apply (Ratan2_above _ x2) in B. split; apply andb_false_iff; [right|left]; apply Rltb_false; lra. }
  pose proof (deriv0 d F) as D0. pose proof (deriv1 d F) as D1. rewrite fzero in D0. rewrite fone in D1. rewrite (normal_fin _ _ _ _ D0 P0), (normal_fin _ _ _ _ D1 P1). cbn [pnt px py]. fin. fold (dotV d 0 0) (dotV d 1 1).
  set (q := sqrt (dotV d 0 0)). set (q' := sqrt (dotV d 1 1)). assert (Hq : 0 < q) by (apply sqrt_lt_R0; exact P0). assert (Hq' : 0 < q') by (apply sqrt_lt_R0; exact P1). 
  replace (- speedY d 0 / q * (- speedY d 1 / q') + speedX d 0 / q * (speedX d 1 / q')) with (dotV d 0 1 / (q * q')) by (unfold dotV; field; lra).
  assert (HB : -1 <= dotV d 0 1 / (q * q') <= 1).
  { assert (HQ : 0 < q * q') by (apply Rmult_lt_0_compat; assumption). assert (QQ : q * q = dotV d 0 0) by (apply sqrt_sqrt; lra). assert (QQ' : q' * q' = dotV d 1 1) by (apply sqrt_sqrt; lra).
    assert (SQ : dotV d 0 1 * dotV d 0 1 <= (q * q') * (q * q')). { replace (q * q' * (q * q')) with ((q * q) * (q' * q')) by ring. rewrite QQ, QQ'. assert (0 <= crossV d 0 1 * crossV d 0 1) by nra. replace (dotV d 0 0 * dotV d 1 1) with (dotV d 0 1 * dotV d 0 1 + crossV d 0 1 * crossV d 0 1) by (unfold dotV, crossV; ring). lra. }
    assert (- (q * q') <= dotV d 0 1 <= q * q') by (split; nra). split; apply (Rmult_le_reg_r (q * q')); try assumption; replace (dotV d 0 1 / (q * q') * (q * q')) with (dotV d 0 1) by (field; lra); lra. }
  cbn [nacos RBMath]. unfold er_acos. replace (Rleb (-1) _ && Rleb _ 1) with true by (symmetry; apply andb_true_intro; split; apply Rleb_true; lra). unfold three. cbn [npi RTrig]. rewrite fofZ, fdiv by lra. cbn [nabs RNum]. unfold er_abs. rewrite (Rabs_right (acos _)) by (apply Rle_ge, acos_bound). fin. unfold turned. fold q q'. apply Rltb_true.
Qed.
Lemma part_turned c d a b : a < b -> part c d a b -> dotV d 0 0 = (b - a) * (b - a) * dotV c a a /\ dotV d 1 1 = (b - a) * (b - a) * dotV c b b /\ turned d 0 1 = turned c a b.
Proof.
  intros L HP. destruct (part_speed _ _ _ _ 0 HP) as [E1 E2]. destruct (part_speed _ _ _ _ 1 HP) as [E3 E4]. replace (a + (b - a) * 0) with a in * by ring. replace (a + (b - a) * 1) with b in * by ring. unfold turned.
  assert (D0 : dotV d 0 0 = (b - a) * (b - a) * dotV c a a) by (unfold dotV; rewrite E1, E2; ring). assert (D1 : dotV d 1 1 = (b - a) * (b - a) * dotV c b b) by (unfold dotV; rewrite E3, E4; ring). split; [exact D0|]. split; [exact D1|]. f_equal.
  assert (D01 : dotV d 0 1 = (b - a) * (b - a) * dotV c a b) by (unfold dotV; rewrite E1, E2, E3, E4; ring). rewrite D0, D1, D01. assert (P : 0 < (b - a) * (b - a)) by nra.
  assert (NN : forall t, 0 <= dotV c t t) by (intros t; unfold dotV; nra). assert (SQ : forall t, sqrt ((b - a) * (b - a) * dotV c t t) = (b - a) * sqrt (dotV c t t)) by (intros t; rewrite sqrt_mult by (try lra; apply NN); rewrite sqrt_square by lra; reflexivity). rewrite !SQ. set (s1 := sqrt (dotV c a a)). set (s2 := sqrt (dotV c b b)).
  destruct (Req_dec (s1 * s2) 0) as [Z|NZ].
  - replace ((b - a) * s1 * ((b - a) * s2)) with ((b - a) * (b - a) * (s1 * s2)) by ring. rewrite Z, Rmult_0_r. unfold Rdiv. rewrite Rinv_0. ring.
  - field. repeat split; try lra; intros ->; apply NZ; ring.
Qed.
Lemma part_sides c d a b : part c d a b -> side1 d = - ((b - a) / 3) * (speedX c a * (curveY c b - curveY c a) - speedY c a * (curveX c b - curveX c a)) /\ side2 d = - ((b - a) / 3) * ((curveX c b - curveX c a) * speedY c b - (curveY c b - curveY c a) * speedX c b).
Proof.
  intros HP. destruct (part_speed _ _ _ _ 0 HP) as [E1 E2]. destruct (part_speed _ _ _ _ 1 HP) as [E3 E4]. destruct (proj2 HP 0) as [K1 K2]. destruct (proj2 HP 1) as [K3 K4]. replace (a + (b - a) * 0) with a in * by ring. replace (a + (b - a) * 1) with b in * by ring.
  destruct (curve_ends d) as (C1 & C2 & C3 & C4). destruct (speed_ends d) as (S1 & S2 & S3 & S4). rewrite S1 in E1. rewrite S2 in E2. rewrite S3 in E3. rewrite S4 in E4. rewrite K1 in C1. rewrite K2 in C2. rewrite K3 in C3. rewrite K4 in C4. unfold side1, side2. rewrite <- C1, <- C2, <- C3, <- C4 in *.
  assert (X (c_cs d) = curveX c a + (b - a) * speedX c a / 3) by lra. assert (Y (c_cs d) = curveY c a + (b - a) * speedY c a / 3) by lra. assert (X (c_ce d) = curveX c b - (b - a) * speedX c b / 3) by lra. assert (Y (c_ce d) = curveY c b - (b - a) * speedY c b / 3) by lra. rewrite H, H0, H1, H2. split; field.
Qed.

(** *** one piece between two places where the curve is level or upright *)
Lemma speedX_cont c : continuity (speedX c). Proof. intros t. apply derivable_continuous_pt. exists (accX c t). apply speedX_acc. Qed.
Lemma speedY_cont c : continuity (speedY c). Proof. intros t. apply derivable_continuous_pt. exists (accY c t). apply speedY_acc. Qed.
Lemma one_sign f x y : continuity f -> x < y -> (forall t, x < t < y -> f t <> 0) -> exists s, (s = 1 \/ s = -1) /\ forall t, x <= t <= y -> 0 <= s * f t.
Proof.
  intros C L H. set (m := (x + y) / 2). assert (Hm : x < m < y) by (unfold m; lra). pose proof (H m Hm) as NM. assert (K : forall t, x <= t <= y -> 0 <= f m * f t).
  { intros t Ht. destruct (Rle_lt_dec 0 (f m * f t)) as [|G]; [assumption|]. exfalso. destruct (Rle_lt_dec m t) as [L1|L1].
    - destruct (IVT_cor f m t C L1 ltac:(lra)) as (w & Hw & E). assert (w <> t) by (intros ->; rewrite E in G; lra). apply (H w); [lra|exact E].
    - destruct (IVT_cor f t m C ltac:(lra) ltac:(lra)) as (w & Hw & E). assert (w <> t) by (intros ->; rewrite E in G; lra). apply (H w); [lra|exact E]. }
  destruct (Rlt_le_dec 0 (f m)) as [P|P].
  - exists 1. split; [auto|]. intros t Ht. specialize (K t Ht). nra.
  - exists (-1). split; [auto|]. intros t Ht. specialize (K t Ht). assert (f m < 0) by lra. nra.
Qed.
Lemma gentle_close c s t : gentle c -> 0 <= s <= t -> t <= s + 1 / 100 -> t <= 101 / 100 -> Rabs (crossV c s t) < dotV c s t.
Proof.
  intros G H1 H2 H3. destruct (G s t H1 H2 H3) as [P HT]. destruct (G t t ltac:(lra) ltac:(lra) H3) as [Q _]. unfold turned in HT. set (q := sqrt (dotV c s s)) in *. set (q' := sqrt (dotV c t t)) in *. assert (Hq : 0 < q) by (apply sqrt_lt_R0; exact P). assert (Hq' : 0 < q') by (apply sqrt_lt_R0; exact Q).
  assert (QQ : q * q = dotV c s s) by (apply sqrt_sqrt; lra). assert (QQ' : q' * q' = dotV c t t) by (apply sqrt_sqrt; lra). assert (HQ : 0 < q * q') by (apply Rmult_lt_0_compat; assumption). set (v := dotV c s t / (q * q')) in *. pose proof PI_RGT_0 as PP.
  assert (ID : dotV c s s * dotV c t t = dotV c s t * dotV c s t + crossV c s t * crossV c s t) by (unfold dotV, crossV; ring).
  assert (EV : dotV c s t = v * (q * q')) by (unfold v; field; lra). assert (E2 : (q * q') * (q * q') = dotV c s t * dotV c s t + crossV c s t * crossV c s t) by (rewrite <- ID, <- QQ, <- QQ'; ring).
  assert (HB : -1 <= v <= 1). { assert (v * v <= 1). { apply (Rmult_le_reg_r ((q * q') * (q * q'))); [nra|]. replace (v * v * (q * q' * (q * q'))) with (dotV c s t * dotV c s t) by (rewrite EV; ring). rewrite E2. nra. } split; nra. }
  assert (HV : cos (PI / 4) < v). { rewrite <- (cos_acos v) by exact HB. pose proof (acos_bound v). apply cos_decreasing_1; lra. } rewrite cos_PI4 in HV. assert (S2 : 0 < sqrt 2) by (apply sqrt_lt_R0; lra). assert (S22 : sqrt 2 * sqrt 2 = 2) by (apply sqrt_sqrt; lra).
  assert (V0 : 0 < 1 / sqrt 2) by (apply Rdiv_lt_0_compat; lra). assert (VV : 1 < 2 * (v * v)). { assert (E : 1 / sqrt 2 * (1 / sqrt 2) = 1 / 2) by (replace (1 / sqrt 2 * (1 / sqrt 2)) with (/ (sqrt 2 * sqrt 2)) by (field; lra); rewrite S22; lra). nra. }
  assert (DP : 0 < dotV c s t) by (rewrite EV; apply Rmult_lt_0_compat; lra).
  assert (crossV c s t * crossV c s t < dotV c s t * dotV c s t). { assert (1 * ((q * q') * (q * q')) < 2 * (v * v) * ((q * q') * (q * q'))) by (apply Rmult_lt_compat_r; [nra|exact VV]). replace (2 * (v * v) * (q * q' * (q * q'))) with (2 * (dotV c s t * dotV c s t)) in H by (rewrite EV; ring). rewrite E2 in H. lra. }
  apply Rabs_def1; nra.
Qed.
Lemma piece_angle c x y sg : gentle c -> 0 <= x -> x < y -> y <= 1 -> (sg = 1 \/ sg = -1) -> (forall t, x < t < y -> speedX c t <> 0 /\ speedY c t <> 0) ->
  exists gx gy, (forall t, x <= t <= y + (y - x) / 100 -> 0 < gx * speedX c t + gy * speedY c t) /\ (forall t, x <= t <= y -> -1 <= slope c sg gx gy t <= 1).
Proof.
  intros G H0 L H1 Hsg HN. destruct (one_sign (speedX c) x y (speedX_cont c) L (fun t Ht => proj1 (HN t Ht))) as (gx & Hgx & SX). destruct (one_sign (speedY c) x y (speedY_cont c) L (fun t Ht => proj2 (HN t Ht))) as (gy & Hgy & SY). exists gx, gy.
  assert (GX : gx * gx = 1) by (destruct Hgx as [-> | ->]; ring). assert (GY : gy * gy = 1) by (destruct Hgy as [-> | ->]; ring).
  assert (IN : forall t, x <= t <= y -> 0 < gx * speedX c t + gy * speedY c t /\ Rabs (gx * speedY c t - gy * speedX c t) <= gx * speedX c t + gy * speedY c t).
  { intros t Ht. specialize (SX t Ht). specialize (SY t Ht). destruct (G t t ltac:(lra) ltac:(lra) ltac:(lra)) as [P _]. unfold dotV in P. set (a := gx * speedX c t) in *. set (b := gy * speedY c t) in *.
    assert (EX : speedX c t = gx * a) by (unfold a; rewrite <- Rmult_assoc, GX; ring). assert (EY : speedY c t = gy * b) by (unfold b; rewrite <- Rmult_assoc, GY; ring). rewrite EX, EY in P |- *. replace (gx * a * (gx * a) + gy * b * (gy * b)) with ((gx * gx) * (a * a) + (gy * gy) * (b * b)) in P by ring. rewrite GX, GY in P. split; [nra|].
    replace (gx * (gy * b) - gy * (gx * a)) with ((gx * gy) * (b - a)) by ring. rewrite Rabs_mult. assert (EG : Rabs (gx * gy) = 1) by (destruct Hgx as [-> | ->], Hgy as [-> | ->]; unfold Rabs; destruct (Rcase_abs _); lra). rewrite EG, Rmult_1_l. unfold Rabs. destruct (Rcase_abs _); lra. }
  split.
  - intros t Ht. destruct (Rle_lt_dec t y) as [LE|GT]; [apply IN; lra|]. destruct (IN y ltac:(lra)) as [P A]. pose proof (gentle_close c y t G ltac:(lra) ltac:(lra) ltac:(lra)) as CL. destruct (G y y ltac:(lra) ltac:(lra) ltac:(lra)) as [Q _].
    assert (ID : (gx * speedX c t + gy * speedY c t) * dotV c y y = (gx * speedX c y + gy * speedY c y) * dotV c y t - (gx * speedY c y - gy * speedX c y) * crossV c y t) by (unfold dotV, crossV; ring).
    set (D := gx * speedX c y + gy * speedY c y) in *. set (E := gx * speedY c y - gy * speedX c y) in *. assert (0 < D * dotV c y t - E * crossV c y t).
    { assert (Rabs (E * crossV c y t) < D * dotV c y t). { rewrite Rabs_mult. pose proof (Rabs_pos E). pose proof (Rabs_pos (crossV c y t)). nra. } pose proof (Rle_abs (E * crossV c y t)). lra. }
    rewrite <- ID in H. destruct (Rlt_le_dec 0 (gx * speedX c t + gy * speedY c t)); [assumption|nra].
  - intros t Ht. destruct (IN t Ht) as [P A]. unfold slope. set (D := gx * speedX c t + gy * speedY c t) in *. set (E := gx * speedY c t - gy * speedX c t) in *. assert (Rabs (sg * E) <= D) by (rewrite Rabs_mult; replace (Rabs sg) with 1 by (destruct Hsg as [-> | ->]; unfold Rabs; destruct (Rcase_abs _); lra); lra).
    pose proof (Rle_abs (sg * E)). pose proof (Rle_abs (- (sg * E))). rewrite Rabs_Ropp in H3. split; apply (Rmult_le_reg_r D); try exact P; replace (sg * E / D * D) with (sg * E) by (field; lra); lra.
Qed.
Lemma turned_pos c s t : 0 <= turned c s t. Proof. apply acos_bound. Qed.
Lemma first_false (f : nat -> bool) n : f 1%nat = true -> f n = false -> (1 <= n)%nat -> exists k, (1 <= k < n)%nat /\ (forall i, (1 <= i <= k)%nat -> f i = true) /\ f (S k) = false.
Proof.
  intros H1 HN L. induction n as [|n IH]; [lia|]. destruct (Nat.eq_dec n 0) as [->|NZ]; [congruence|]. destruct (f n) eqn:E.
  - destruct (existsb (fun i => negb (f i)) (seq 1 n)) eqn:EX.
    + apply existsb_exists in EX. destruct EX as (i & Hi & Fi). apply in_seq in Hi. 
      assert (W : forall m, (1 <= m)%nat -> f m = false -> exists k, (1 <= k < m)%nat /\ (forall i, (1 <= i <= k)%nat -> f i = true) /\ f (S k) = false).
      { induction m as [m IHm] using lt_wf_ind. intros Lm Fm. destruct (existsb (fun i => negb (f i)) (seq 1 (m - 1))) eqn:EM.
        - apply existsb_exists in EM. destruct EM as (j & Hj & Fj). apply in_seq in Hj. apply negb_true_iff in Fj. destruct (IHm j ltac:(lia) ltac:(lia) Fj) as (k & Hk & A & B). exists k. split; [lia|]. auto.
        - assert (m <> 1)%nat by congruence. exists (m - 1)%nat. split; [lia|]. split; [|replace (S (m - 1)) with m by lia; exact Fm]. intros j Hj. destruct (f j) eqn:EJ; [reflexivity|]. assert (existsb (fun i => negb (f i)) (seq 1 (m - 1)) = true); [|congruence]. apply existsb_exists. exists j. split; [apply in_seq; lia|rewrite EJ; reflexivity]. }
      apply W; [lia|exact HN].
    + exists n. split; [lia|]. split; [|exact HN]. intros j Hj. destruct (f j) eqn:EJ; [reflexivity|]. assert (existsb (fun i => negb (f i)) (seq 1 n) = true); [|congruence]. apply existsb_exists. exists j. split; [apply in_seq; lia|rewrite EJ; reflexivity].
  - destruct (IH eq_refl ltac:(lia)) as (k & Hk & A & B). exists k. split; [lia|]. auto.
Qed.
(** the second pass keeps such a piece, or cuts it once; unless it turns by sixty degrees just after its end *)
Lemma pass2_bends fuel c p x y : finiteCrv c -> ~ straight c -> oneWay c -> gentle c -> piece c p x y -> (forall t, x < t < y -> speedX c t <> 0 /\ speedY c t <> 0) ->
  ~ (turned c x y < PI / 3 <= turned c x (y + (y - x) / 100)) -> (103 < fuel)%nat -> exists l, pass2 RTrig RBMath fuel p = Ok (Some l).
Proof.
  intros F NS (sg & Hsg & HK) G (E1 & E2 & H0 & H1 & HS) HN HW Hf. set (z := y + (y - x) / 100) in *. destruct (piece_angle c x y sg G (proj1 H0) (proj2 H0) H1 Hsg HN) as (gx & gy & HG & HB). fold z in HG.
  assert (HZ : y < z <= 101 / 100) by (unfold z; lra). assert (HK' : forall t, x <= t <= z -> 0 <= sg * (speedX c t * accY c t - speedY c t * accX c t)) by (intros t Ht; apply HK; lra).
  set (ps := psi c sg gx gy). set (at_ := fun k => x + (y - x) * (INR k / 100)).
  assert (AT : forall k, (k <= 101)%nat -> x <= at_ k <= z). { intros k Hk. unfold at_, z. assert (0 <= INR k) by apply pos_INR. assert (INR k <= 101) by (replace 101 with (INR 101) by (rewrite INR_IZR_INZ; reflexivity); apply le_INR, Hk). assert (0 <= (y - x) * (INR k / 100)) by (apply Rmult_le_pos; lra). assert ((y - x) * (INR k / 100) <= (y - x) * (101 / 100)) by (apply Rmult_le_compat_l; lra). lra. }
  assert (AL : forall j k, (j < k)%nat -> at_ j < at_ k) by (intros j k Hjk; unfold at_; apply lt_INR in Hjk; assert ((y - x) * (INR j / 100) < (y - x) * (INR k / 100)) by (apply Rmult_lt_compat_l; lra); lra).
  assert (A0 : at_ 0%nat = x) by (unfold at_; cbn; lra). assert (A100 : at_ 100%nat = y) by (unfold at_; rewrite INR_IZR_INZ; cbn; field). assert (A101 : at_ 101%nat = z) by (unfold at_, z; rewrite INR_IZR_INZ; cbn; field).
  assert (SEC : forall j k, (j < k)%nat -> (j < 100)%nat -> (k <= 101)%nat -> (simple RTrig RBMath (sec p (INR j / 100) (INR k / 100)) = true <-> ps (at_ k) - ps (at_ j) < PI / 3)).
  { intros j k Hjk Hj Hk. assert (LJ : INR j / 100 < INR k / 100) by (apply lt_INR in Hjk; lra). assert (L1 : 0 <= INR j / 100 < 1) by (pose proof (pos_INR j); apply lt_INR in Hj; rewrite (INR_IZR_INZ 100) in Hj; cbn in Hj; lra).
    pose proof (sec_part p (INR j / 100) (INR k / 100) (proj1 HS) ltac:(lra) ltac:(lra)) as HP. assert (HP' : part c (cv p) x y) by (destruct HS as (? & _ & ?); split; assumption). pose proof (part_trans _ _ _ _ _ _ _ HP' HP) as HQ. fold (at_ j) (at_ k) in HQ. set (d := sec p _ _) in *. clearbody d.
    pose proof (AL j k Hjk) as LA. pose proof (AT j ltac:(lia)) as TJ. pose proof (AT k Hk) as TK. destruct (part_turned c d _ _ LA HQ) as (D0 & D1 & ET). destruct (part_sides c d _ _ HQ) as [S1 S2].
    assert (PD : forall t, x <= t <= z -> 0 < dotV c t t) by (intros t Ht; apply (G t t); lra).
    rewrite simple_turn; [| |rewrite D0|rewrite D1|].
    - rewrite ET, (turned_psi c sg gx gy x z Hsg HK' HG NS) by lra. reflexivity.
    - apply HQ.
    - apply Rmult_lt_0_compat; [nra|apply PD; lra].
    - apply Rmult_lt_0_compat; [nra|apply PD; lra].
    - pose proof (chord_start c sg gx gy x z Hsg HK' HG NS (at_ j) (at_ k) ltac:(lra) LA ltac:(lra)) as C1. pose proof (chord_end c sg gx gy x z Hsg HK' HG NS (at_ j) (at_ k) ltac:(lra) LA ltac:(lra)) as C2. rewrite S1, S2. set (u := _ - speedY c (at_ j) * _) in *. set (v := _ * speedY c (at_ k) - _) in *.
      destruct Hsg as [-> | ->]; [left|right]; split; nra. }
  assert (STEP : forall j, (j <= 100)%nat -> ps (at_ (S j)) - ps (at_ j) < PI / 12).
  { intros j Hj. pose proof (AT j ltac:(lia)). pose proof (AT (S j) ltac:(lia)). pose proof (AL j (S j) ltac:(lia)). unfold ps. rewrite <- (turned_psi c sg gx gy x z Hsg HK' HG NS) by lra. apply G; [lra| |lra]. unfold at_. rewrite S_INR. lra. }
  assert (MONO : forall j k, (j <= k)%nat -> (k <= 101)%nat -> ps (at_ j) <= ps (at_ k)). { intros j k Hjk Hk. destruct (Nat.eq_dec j k) as [->|NE]; [lra|]. pose proof (AT j ltac:(lia)). pose proof (AT k ltac:(lia)). pose proof (AL j k ltac:(lia)). apply (psi_le c sg gx gy x z Hsg HK' HG NS); lra. }
  assert (QUARTER : ps y - ps x <= PI / 2). { unfold ps, psi. destruct (HB y ltac:(lra)) as [_ B1]. destruct (HB x ltac:(lra)) as [B2 _]. assert (forall a b, a <= b -> atan a <= atan b) by (intros a b [Hab| ->]; [apply Rlt_le, atan_increasing, Hab|lra]). apply H in B1. apply H in B2. replace (-1) with (- (1)) in B2 by ring. rewrite atan_opp in B2. rewrite atan_1 in B1, B2. lra. }
  pose proof PI_RGT_0 as PP. set (f := fun i => simple RTrig RBMath (sec p 0 (INR i / 100))).
  assert (F0 : forall k, (1 <= k <= 101)%nat -> (f k = true <-> ps (at_ k) - ps x < PI / 3)). { intros k Hk. unfold f. rewrite <- A0. replace 0 with (INR 0 / 100) by (cbn; lra). apply SEC; lia. }
  destruct (forallb f (seq 1 101)) eqn:EF.
  - destruct (pass2_whole RTrig RBMath p x y fuel E1 E2 Hf) as (d & ->); [|eauto]. intros i Hi. rewrite forallb_forall in EF. apply EF. apply in_seq. lia.
  - assert (exists n, (1 <= n <= 101)%nat /\ f n = false) as (n & Hn & Fn). { assert (existsb (fun i => negb (f i)) (seq 1 101) = true). { apply not_false_is_true. intros C. assert (forallb f (seq 1 101) = true); [|congruence]. apply forallb_forall. intros i Hi. destruct (f i) eqn:E; [reflexivity|]. assert (existsb (fun i => negb (f i)) (seq 1 101) = true); [|congruence]. apply existsb_exists. exists i. split; [exact Hi|rewrite E; reflexivity]. }
      apply existsb_exists in H. destruct H as (n & Hn & Fn). apply in_seq in Hn. apply negb_true_iff in Fn. exists n. split; [lia|exact Fn]. }
    assert (F1 : f 1%nat = true). { apply F0; [lia|]. pose proof (STEP 0%nat ltac:(lia)) as S0. rewrite A0 in S0. lra. }
    destruct (first_false f n F1 Fn (proj1 Hn)) as (k & Hk & HA & HF).
    assert (G1 : PI / 3 <= ps (at_ (S k)) - ps x). { apply Rnot_lt_le. intros C. apply (proj2 (F0 (S k) ltac:(lia))) in C. congruence. }
    assert (G0 : ps (at_ k) - ps x < PI / 3) by (apply F0; [lia|apply HA; lia]).
    assert (K100 : (k <> 100)%nat). { intros ->. apply HW. rewrite !(turned_psi c sg gx gy x z Hsg HK' HG NS) by lra. fold ps. rewrite <- A100, <- A101. split; assumption. }
    destruct (pass2_once RTrig RBMath p x y k fuel E1 E2 Hf ltac:(lia) (fun i Hi => HA i Hi) HF) as (d & d' & ->); [|eauto].
    intros i Hi Hki. replace (INR k / 100 + INR i / 100) with (INR (k + i) / 100) by (rewrite plus_INR; lra). apply SEC; [lia|lia|lia|]. pose proof (MONO (k + i)%nat 101%nat ltac:(lia) ltac:(lia)) as M. pose proof (STEP 100%nat ltac:(lia)) as S1. pose proof (STEP k ltac:(lia)) as S2. rewrite A100 in S1. lra.
Qed.

(** *** the whole curve *)
(** where a curve may be cut before its turning is looked at: at its ends, where it is level or upright, and where its speed along an axis is least or greatest *)
Definition placed (c : crv RNum) (t : R) : Prop := t = 0 \/ t = 1 \/ speedX c t = 0 \/ speedY c t = 0 \/ (accX c t = 0 /\ exists u, accX c u <> 0) \/ (accY c t = 0 /\ exists u, accY c u <> 0).
(** no part of the curve between such places turns by less than sixty degrees when by as much with a hundredth more *)
Definition clearEnds (c : crv RNum) : Prop := forall x y, 0 <= x < y -> y <= 1 -> placed c x -> placed c y -> (forall t, x < t < y -> speedX c t <> 0 /\ speedY c t <> 0) -> ~ (turned c x y < PI / 3 <= turned c x (y + (y - x) / 100)).

Lemma droots3_sound a b c t : In (Fin t : T RNum) (@droots3 RNum (Fin a) (Fin b) (Fin c)) -> dquad a b c t = 0.
Proof.
  unfold droots3, two. fin. destruct (Reqb_spec (a - 2 * b + c) 0) as [E|E]; cbn [negb].
  - destruct (Reqb_spec b c) as [E'|E']; cbn [negb andb]; [intros []|]. rewrite fdiv by lra. intros [H|[]]. injection H as <-. unfold dquad. apply (Rmult_eq_reg_r ((b - c) * (b - c))); [|nra]. rewrite Rmult_0_l. set (k := (2 * b - c) / (2 * (b - c))). assert (EK : 2 * (k * (b - c)) = 2 * b - c) by (unfold k; field; lra).
    assert (EA : a = 2 * b - c) by lra. subst a. clearbody k.
    replace ((1 - k) ^ 2 * (2 * b - c) + 2 * (1 - k) * k * b + k ^ 2 * c) with ((2 * b - c) - 2 * (k * (b - c))) by ring. rewrite EK. ring.
  - remember (nsqrt (Fin (b * b - a * c) : T RNum)) as S eqn:ES. destruct S as [s|neg|]; [|intros [H|[H|[]]]; destruct neg; cbn in H; discriminate H|intros [H|[H|[]]]; cbn in H; discriminate H].
    assert (SQ : s * s = b * b - a * c). { cbn [nsqrt RNum] in ES. unfold er_sqrt in ES. destruct (Rltb_spec (b * b - a * c) 0); [discriminate|]. injection ES as ->. apply sqrt_sqrt. lra. }
    clear ES. fin. rewrite !fdiv by exact E. set (d := a - 2 * b + c) in *.
    assert (G : forall w, w * w = b * b - a * c -> dquad a b c ((w - (b - a)) / d) = 0).
    { intros w Hw. set (u := (w - (b - a)) / d). assert (EU : d * u = w - (b - a)) by (unfold u; field; exact E). apply (Rmult_eq_reg_l d); [|exact E]. rewrite Rmult_0_r. replace (d * dquad a b c u) with ((d * u) * (d * u) + 2 * (b - a) * (d * u) + a * d) by (unfold dquad, d; ring). rewrite EU. unfold d. replace ((w - (b - a)) * (w - (b - a)) + 2 * (b - a) * (w - (b - a)) + a * (a - 2 * b + c)) with (w * w - (b * b - a * c)) by ring. lra. }
    intros [H|[H|[]]]; injection H as <-.
    + replace (- (- s + (- a + b)) / d) with ((s - (b - a)) / d) by (field; exact E). apply G, SQ.
    + replace (- (- - s + (- a + b)) / d) with ((- s - (b - a)) / d) by (field; exact E). apply G. rewrite <- SQ. ring.
Qed.
Lemma reduceParams_placed c t : finiteCrv c -> In (Fin t : T RNum) (reduceParams c) -> placed c t.
Proof.
  intros F H. unfold reduceParams in H. apply (proj1 (sortF_has _ _)) in H. unfold Float64ArrayDeDup in H.
  assert (IN : In (Fin t : T RNum) (extremaX c) \/ In (Fin t : T RNum) (extremaY c) \/ t = 0 \/ t = 1).
  { destruct (fin_list (extremaX c)) as (lx & Ex & Hx); [intros y Hy; apply (extrema_fin c); auto|]. destruct (fin_list (extremaY c)) as (ly & Ey & Hy); [intros y Hy; apply (extrema_fin c); auto|].
    assert (E : (extremaX c ++ extremaY c ++ [zero; one])%list = map Fin (lx ++ ly ++ [0; 1])%list) by (rewrite Ex, Ey, !map_app; reflexivity). rewrite E in H. change (@nil (T RNum)) with (map Fin []) in H. apply dedup_in in H. destruct H as (u & EU & HU & _). injection EU as <-. rewrite Ex, Ey.
    rewrite !in_app_iff in HU. destruct HU as [HU|[HU|[HU|[HU|[]]]]]; [left; apply in_map, HU|right; left; apply in_map, HU|right; right; left; auto|right; right; right; auto]. }
  destruct F as (F1 & F2 & F3 & F4). unfold placed. destruct IN as [IN|[IN|IN]]; [| |tauto].
  - unfold extremaX, derive2, derive1, dpt, three, two in IN. cbn [px py] in IN. rewrite !(px_fin _ F1), !(px_fin _ F2), !(px_fin _ F3), !(px_fin _ F4) in IN. repeat rewrite ?fofZ, ?fsub, ?fmul in IN. unfold extrema1 in IN. apply filter_In in IN. destruct IN as [IN _]. apply in_app_iff in IN. destruct IN as [IN|IN].
    + apply droots3_sound in IN. right; right; left. exact IN.
    + right; right; right; right; left. unfold droots2 in IN. rewrite feqb in IN. destruct (Reqb_spec (2 * (3 * (X (c_ce c) - X (c_cs c)) - 3 * (X (c_cs c) - X (c_s c)))) (2 * (3 * (X (c_e c) - X (c_ce c)) - 3 * (X (c_ce c) - X (c_cs c))))) as [E|E]; cbn [negb] in IN; [destruct IN|].
      rewrite fsub, fdiv in IN by lra. destruct IN as [IN|[]]. injection IN as <-. split.
      * unfold accX. field. lra.
      * destruct (Req_dec (accX c 0) 0) as [Z|]; [exists 1|exists 0; assumption]. unfold accX in *. lra.
  - unfold extremaY, derive2, derive1, dpt, three, two in IN. cbn [px py] in IN. rewrite !(py_fin _ F1), !(py_fin _ F2), !(py_fin _ F3), !(py_fin _ F4) in IN. repeat rewrite ?fofZ, ?fsub, ?fmul in IN. unfold extrema1 in IN. apply filter_In in IN. destruct IN as [IN _]. apply in_app_iff in IN. destruct IN as [IN|IN].
    + apply droots3_sound in IN. right; right; right; left. exact IN.
    + right; right; right; right; right. unfold droots2 in IN. rewrite feqb in IN. destruct (Reqb_spec (2 * (3 * (Y (c_ce c) - Y (c_cs c)) - 3 * (Y (c_cs c) - Y (c_s c)))) (2 * (3 * (Y (c_e c) - Y (c_ce c)) - 3 * (Y (c_ce c) - Y (c_cs c))))) as [E|E]; cbn [negb] in IN; [destruct IN|].
      rewrite fsub, fdiv in IN by lra. destruct IN as [IN|[]]. injection IN as <-. split.
      * unfold accY. field. lra.
      * destruct (Req_dec (accY c 0) 0) as [Z|]; [exists 1|exists 0; assumption]. unfold accY in *. lra.
Qed.
Lemma splitBetween_pieces c : finiteCrv c -> forall ts t p, incr (t :: ts) -> 0 <= t -> (forall u, In u ts -> u <= 1) -> In p (splitBetween c (Fin t : T RNum) (map Fin ts : list (T RNum))) ->
  exists x y, piece c p x y /\ In x (t :: ts) /\ In y (t :: ts) /\ forall u, In u (t :: ts) -> u <= x \/ y <= u.
Proof.
  intros F. induction ts as [|u ts IH]; intros t p HI H0 H1; [intros []|]. cbn [map splitBetween]. inversion HI as [|? ? HI' HL]; subst. assert (t < u) by (apply HL; left; reflexivity). assert (u <= 1) by (apply H1; left; reflexivity). intros [<-|HP].
  - exists t, u. split.
    + split; [reflexivity|]. split; [reflexivity|]. split; [lra|]. split; [assumption|]. cbn [cv]. apply (splitSection_spec (mkCseg c zero zero)); [exact F|lra|assumption].
    + split; [left; reflexivity|]. split; [right; left; reflexivity|]. intros v [<-|[<-|Hv]]; [lra|lra|]. right. inversion HI' as [|? ? _ HL']; subst. apply HL' in Hv. lra.
  - destruct (IH u p HI' ltac:(lra) (fun v Hv => H1 v (or_intror Hv)) HP) as (x & y & A & B & C & D). exists x, y. split; [exact A|]. split; [right; exact B|]. split; [right; exact C|]. intros v [<-|Hv]; [|apply D, Hv]. left. apply Rlt_le, HL, B.
Qed.
Lemma pass1_pieces c p : finiteCrv c -> In p (pass1 c) -> exists x y, piece c p x y /\ In (Fin x : T RNum) (reduceParams c) /\ In (Fin y : T RNum) (reduceParams c) /\ forall u, In (Fin u : T RNum) (reduceParams c) -> u <= x \/ y <= u.
Proof.
  intros F. unfold pass1. destruct (reduceParams_spec c) as (ts & -> & HI & H0 & H1 & HR). destruct ts as [|t ts]; [destruct H0|]. cbn [map]. intros HP.
  destruct (splitBetween_pieces c F ts t p HI (proj1 (HR t (or_introl eq_refl))) (fun u Hu => proj2 (HR u (or_intror Hu))) HP) as (x & y & A & B & C & D). exists x, y. split; [exact A|].
  change (Fin t :: map Fin ts) with (map Fin (t :: ts)). split; [apply in_map, B|]. split; [apply in_map, C|]. intros u HU. apply D. apply In_map_Fin, HU.
Qed.
Lemma reduce_bends fuel c : finiteCrv c -> ~ straight c -> oneWay c -> gentle c -> clearEnds c -> (103 < fuel)%nat -> exists l, reduce RTrig RBMath fuel c = Ok l /\ l <> [].
Proof.
  intros F NS OW G CE Hf. unfold reduce.
  assert (K : forall ps acc, (forall p, In p ps -> In p (pass1 c)) -> (ps <> [] \/ acc <> []) -> exists l, reduceLoop RTrig RBMath fuel ps acc = Ok l /\ l <> []).
  { induction ps as [|p ps IH]; intros acc HI HN; cbn [reduceLoop]; [exists acc; split; [reflexivity|]; destruct HN; congruence|].
    destruct (pass1_pieces c p F (HI p (or_introl eq_refl))) as (x & y & HP & PX & PY & PU). pose proof HP as (_ & _ & L & L1 & _).
    assert (HS : forall t, x < t < y -> speedX c t <> 0 /\ speedY c t <> 0). { intros t Ht. split; intros E; (destruct (PU t); [apply still_param; auto; lra|lra|lra]). }
    destruct (pass2_bends fuel c p x y F NS OW G HP HS) as (l & E); [apply CE; auto; apply reduceParams_placed; assumption|exact Hf|]. rewrite E. cbn [bind]. apply IH; [intros q Hq; apply HI; right; exact Hq|]. right. destruct (pass2_spec _ _ _ _ _ _ _ _ HP E) as [_ NE]. destruct acc; [exact NE|discriminate]. }
  apply K; [auto|]. left. intros C. pose proof (pass1_covers c F) as PC. rewrite C in PC. inversion PC. lra.
Qed.
