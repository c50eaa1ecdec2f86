(** C94, continued: integers in a document, as numbers. *)
From Coq Require Import String List ZArith Bool Lia Reals Lra.
From Coq.Floats Require Import SpecFloat.
From Flocq Require Import Core.
From Flocq.IEEE754 Require BinarySingleNaN.
From Verif Require Import Num NumLaws FloatNum PrecisionProofs IeeeProofs IeeeArith DynModel ParamModel Prop_C94.
Import BinarySingleNaN.
Local Open Scope R_scope.

Lemma int64_small z : (- 2 ^ 63 <= z < 2 ^ 63)%Z -> Rabs (rnd (IZR z)) < bpow radix2 1024.
Proof.
  intros H. apply Rle_lt_trans with (bpow radix2 63); [|apply bpow_lt; lia].
  apply abs_round_le_generic; [apply fexp64_valid|apply valid_rnd_N| |].
  - apply generic_format_bpow. vm_compute. discriminate.
  - rewrite <- abs_IZR. change (bpow radix2 63) with (IZR (2 ^ 63)). apply IZR_le. lia.
Qed.
Lemma floatOfZ_correct z : (- 2 ^ 63 <= z < 2 ^ 63)%Z -> gofin (floatOfZ z) /\ fval (floatOfZ z) = rnd (IZR z).
Proof.
  intros H. unfold floatOfZ. change 53%Z with f64_prec. change 1024%Z with f64_emax. rewrite binary_normalize_equiv.
  pose proof (binary_normalize_correct f64_prec f64_emax prec_ok emax_ok mode_NE z 0 false) as C. cbv zeta in C.
  assert (E : F2R (Float radix2 z 0) = IZR z) by (unfold F2R; cbn; lra). rewrite E in C.
  rewrite Rlt_bool_true in C by (apply int64_small; exact H). destruct C as (C1 & C2 & _).
  split; [split; [apply go_of_B|rewrite fin_B; exact C2]|rewrite fval_B; exact C1].
Qed.
Lemma rnd_small z : (Z.abs z <= 2 ^ 53)%Z -> rnd (IZR z) = IZR z.
Proof.
  intros H. apply round_generic; [apply valid_rnd_N|].
  assert (G : forall y, (Z.abs y < 2 ^ 53)%Z -> generic_format radix2 fexp64 (IZR y)).
  { intros y Hy. replace (IZR y) with (F2R (Float radix2 y 0)) by (unfold F2R; cbn; lra). apply generic_format_F2R. intros N.
    unfold cexp, SpecFloat.fexp, SpecFloat.emin, f64_prec, f64_emax. pose proof (mag_le_bpow radix2 (F2R (Float radix2 y 0)) 53) as M.
    assert (B : (mag radix2 (F2R (Float radix2 y 0)) <= 53)%Z).
    { apply M; [apply F2R_neq_0; exact N|]. unfold F2R. cbn [Fnum Fexp]. rewrite Rmult_1_r, <- abs_IZR. change (bpow radix2 53) with (IZR (2 ^ 53)). apply IZR_lt. exact Hy. }
    cbn [Fexp Fnum] in *. lia. }
  destruct (Z.eq_dec (Z.abs z) (2 ^ 53)) as [E|N]; [|apply G; lia].
  assert (B : generic_format radix2 fexp64 (bpow radix2 53)) by (apply generic_format_bpow; vm_compute; discriminate).
  change (bpow radix2 53) with (IZR (2 ^ 53)) in B. destruct (Z.abs_eq_or_opp z) as [Q|Q]; rewrite Q in E.
  - rewrite E. exact B.
  - replace z with (- (2 ^ 53))%Z by lia. rewrite opp_IZR. apply generic_format_opp. exact B.
Qed.

(** An integer of 64 bits is read as the nearest number there is, the even one of two, and as itself up to 2^53. *)
Theorem C94_integer L h c z : (- 2 ^ 63 <= z < 2 ^ 63)%Z -> exists x, isNumber L h c (VInt z) x /\ gofin x /\ fval x = rnd (IZR z) /\ ((Z.abs z <= 2 ^ 53)%Z -> fval x = IZR z).
Proof.
  intros H. exists (floatOfZ z). destruct (floatOfZ_correct z H) as [G E]. split; [apply is_plain; [intros s Q; discriminate|constructor]|]. split; [exact G|]. split; [exact E|].
  intros B. rewrite E. apply rnd_small. exact B.
Qed.
(** So sums, differences and products of integers in a document that stay within 2^53 are exact. *)
Theorem C94_integer_arithmetic y z : (Z.abs y <= 2 ^ 53)%Z -> (Z.abs z <= 2 ^ 53)%Z ->
  ((Z.abs (y + z) <= 2 ^ 53)%Z -> fval (@add FNum (floatOfZ y) (floatOfZ z)) = IZR (y + z)) /\
  ((Z.abs (y - z) <= 2 ^ 53)%Z -> fval (@sub FNum (floatOfZ y) (floatOfZ z)) = IZR (y - z)) /\
  ((Z.abs (y * z) <= 2 ^ 53)%Z -> fval (@mul FNum (floatOfZ y) (floatOfZ z)) = IZR (y * z)).
Proof.
  intros Hy Hz. destruct (floatOfZ_correct y ltac:(lia)) as [Gy Ey]. destruct (floatOfZ_correct z ltac:(lia)) as [Gz Ez]. rewrite rnd_small in Ey, Ez by assumption.
  assert (S : forall w, (Z.abs w <= 2 ^ 53)%Z -> Rabs (rnd (IZR w)) < bpow radix2 1024) by (intros w Hw; apply int64_small; lia).
  split; [|split]; intros H.
  - change (@add FNum) with f_add. assert (R : rnd (fval (floatOfZ y) + fval (floatOfZ z)) = IZR (y + z)) by (rewrite Ey, Ez, <- plus_IZR; apply rnd_small; exact H).
    destruct (f_add_correct _ _ Gy Gz) as [_ E]; [rewrite R, <- (rnd_small (y + z)) by exact H; apply S; exact H|]. rewrite E. exact R.
  - change (@sub FNum) with f_sub. assert (R : rnd (fval (floatOfZ y) - fval (floatOfZ z)) = IZR (y - z)) by (rewrite Ey, Ez, <- minus_IZR; apply rnd_small; exact H).
    destruct (f_sub_correct _ _ Gy Gz) as [_ E]; [rewrite R, <- (rnd_small (y - z)) by exact H; apply S; exact H|]. rewrite E. exact R.
  - change (@mul FNum) with f_mul. assert (R : rnd (fval (floatOfZ y) * fval (floatOfZ z)) = IZR (y * z)) by (rewrite Ey, Ez, <- mult_IZR; apply rnd_small; exact H).
    destruct (f_mul_correct _ _ Gy Gz) as [_ E]; [rewrite R, <- (rnd_small (y * z)) by exact H; apply S; exact H|]. rewrite E. exact R.
Qed.
Print Assumptions C94_integer. Print Assumptions C94_integer_arithmetic.
(** 2^53 + 1 is no number of 53 bits; 2^53 + 2 is *)
Example C94_integer_example : (- 2 ^ 63 <= 2 ^ 53 + 1 < 2 ^ 63)%Z /\ floatOfZ (2 ^ 53 + 1) = floatOfZ (2 ^ 53) /\ floatOfZ (2 ^ 53 + 2) <> floatOfZ (2 ^ 53) /\ fval (floatOfZ (-7)) = -7.
Proof.
  split; [lia|]. split; [vm_compute; reflexivity|]. split; [vm_compute; discriminate|].
  destruct (C94_integer sumLang shelf shelfRoot (-7) ltac:(lia)) as (x & _ & _ & _ & E). destruct (floatOfZ_correct (-7) ltac:(lia)) as [_ E2]. rewrite E2. apply rnd_small. vm_compute. discriminate.
Qed.
Example C94_integer_arithmetic_example : fval (@mul FNum (floatOfZ 94906265) (floatOfZ 94906265)) = IZR (94906265 * 94906265).
Proof. apply C94_integer_arithmetic; vm_compute; discriminate. Qed.
