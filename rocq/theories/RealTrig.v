(** The exact-arithmetic instance of [Trig]: the real functions, with Go's results at the infinities and NaN
    (package math: Sin, Cos, Atan, Atan2, Pi).  There is one zero, so Atan2's cases for -0 do not arise. *)
From Coq Require Import ZArith Bool Reals Lra.
From Verif Require Import Num RealNum PathModel SegOps.
Local Open Scope R_scope.

Definition er_sin (a : ER) : ER := match a with Fin x => Fin (sin x) | _ => NaN end.
Definition er_cos (a : ER) : ER := match a with Fin x => Fin (cos x) | _ => NaN end.
Definition er_atan (a : ER) : ER :=
  match a with Fin x => Fin (atan x) | Inf s => Fin (if s then - (PI / 2) else PI / 2) | NaN => NaN end.
Definition Ratan2 (y x : R) : R :=
  if Rlt_dec 0 x then atan (y / x)
  else if Rlt_dec x 0 then (if Rlt_dec y 0 then atan (y / x) - PI else atan (y / x) + PI)
  else if Rlt_dec 0 y then PI / 2 else if Rlt_dec y 0 then - (PI / 2) else 0.
Definition er_atan2 (y x : ER) : ER :=
  match y, x with
  | NaN, _ | _, NaN => NaN
  | Fin y, Fin x => Fin (Ratan2 y x)
  | Fin y, Inf s => Fin (if s then (if Rlt_dec y 0 then - PI else PI) else 0)
  | Inf s, Fin _ => Fin (if s then - (PI / 2) else PI / 2)
  | Inf s, Inf s' => Fin ((if s then -1 else 1) * (if s' then 3 * PI / 4 else PI / 4))
  end.
Definition RTrig : Trig RNum := mkTrig RNum er_sin er_cos er_atan er_atan2 (Fin PI).

(** atan2 is the angle of the vector (x, y) *)
Lemma Ratan2_spec x y : x <> 0 \/ y <> 0 ->
  x = sqrt (x * x + y * y) * cos (Ratan2 y x) /\ y = sqrt (x * x + y * y) * sin (Ratan2 y x).
Proof.
  intros H.
  assert (K : forall x y, 0 < x -> x = sqrt (x * x + y * y) * cos (atan (y / x)) /\ y = sqrt (x * x + y * y) * sin (atan (y / x))).
  { clear. intros x y Hx.
    assert (E : sqrt (x * x + y * y) = x * sqrt (1 + (y / x)²)).
    { replace (x * x + y * y) with (x * x * (1 + (y / x)²)) by (unfold Rsqr; field; lra).
      rewrite sqrt_mult, sqrt_square; try lra; [nra|]. pose proof (Rle_0_sqr (y / x)); lra. }
    assert (P : 0 < sqrt (1 + (y / x)²)) by (apply sqrt_lt_R0; pose proof (Rle_0_sqr (y / x)); lra).
    rewrite E, cos_atan, sin_atan. split; field; lra. }
  unfold Ratan2. destruct (Rlt_dec 0 x); [apply K; auto|]. destruct (Rlt_dec x 0).
  - destruct (K (- x) (- y)) as [K1 K2]; [lra|].
    replace (- y / - x) with (y / x) in K1, K2 by (field; lra).
    replace (- x * - x + - y * - y) with (x * x + y * y) in K1, K2 by ring.
    destruct (Rlt_dec y 0).
    + replace (atan (y / x) - PI) with (- (PI - atan (y / x))) by ring. rewrite cos_neg, sin_neg, cos_minus, sin_minus, cos_PI, sin_PI. lra.
    + rewrite neg_cos, neg_sin. lra.
  - assert (x = 0) by lra. subst x. destruct (Rlt_dec 0 y); [|destruct (Rlt_dec y 0); [|exfalso; destruct H; lra]].
    + rewrite cos_PI2, sin_PI2. replace (0 * 0 + y * y) with (y * y) by ring. rewrite sqrt_square by lra. lra.
    + rewrite cos_neg, sin_neg, cos_PI2, sin_PI2. replace (0 * 0 + y * y) with (- y * - y) by ring. rewrite sqrt_square by lra. lra.
Qed.
