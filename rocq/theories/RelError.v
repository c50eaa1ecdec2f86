(** Relative errors of the binary64 operations of [FNum] (Flocq). *)
From Coq Require Import ZArith NArith Bool Lia Reals Lra.
From Coq.Floats Require Import SpecFloat.
From Flocq Require Import Core Relative.
From Flocq.IEEE754 Require BinarySingleNaN.
From Verif Require Import Num NumLaws FloatNum PrecisionProofs IeeeProofs IeeeArith.
Import BinarySingleNaN.
Local Open Scope R_scope.

Definition u64 : R := / 2 ^ 53.
Lemma u64_bpow : / 2 * bpow radix2 (-53 + 1) = u64.
Proof. unfold u64. change (bpow radix2 (-53 + 1)) with (/ IZR (Z.pow_pos 2 52)). change (2 ^ 53) with (2 * 2 ^ 52). rewrite Rinv_mult. f_equal. f_equal. rewrite (pow_IZR 2 52). reflexivity. Qed.
Lemma rnd_rel x : bpow radix2 (-1022) <= Rabs x -> exists d, Rabs d <= u64 /\ rnd x = x * (1 + d).
Proof.
  intros H. destruct (relative_error_N_FLT_ex radix2 (-1074) 53 (eq_refl : (0 < 53)%Z) (fun z => negb (Z.even z)) x H) as (d & Hd & E).
  exists d. split; [rewrite <- u64_bpow; exact Hd|]. exact E.
Qed.
Lemma u64_small : 0 < u64 <= / 1024.
Proof. unfold u64. split; [apply Rinv_0_lt_compat, pow_lt; lra|]. apply Rinv_le_contravar; [lra|]. simpl. lra. Qed.
Lemma rnd_not_big x : Rabs x <= bpow radix2 1023 -> Rabs (rnd x) < bpow radix2 1024.
Proof.
  intros H. apply Rle_lt_trans with (bpow radix2 1023); [|apply bpow_lt; reflexivity].
  apply abs_round_le_generic; [typeclasses eauto|apply valid_rnd_N| |exact H].
  apply generic_format_bpow. cbn. lia.
Qed.
