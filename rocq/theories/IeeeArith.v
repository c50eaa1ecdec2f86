(** Correctness of the binary64 operations of [FNum] as rounded real operations (Flocq). *)
From Coq Require Import ZArith NArith Bool Lia Reals Lra.
From Coq.Floats Require Import SpecFloat.
From Flocq Require Import Core.
From Flocq.IEEE754 Require BinarySingleNaN.
From Verif Require Import Num NumLaws FloatNum PrecisionProofs IeeeProofs.
Import BinarySingleNaN.
Local Open Scope R_scope.

Notation fexp64 := (SpecFloat.fexp f64_prec f64_emax).
Notation rnd := (round radix2 fexp64 (round_mode mode_NE)).

Global Instance prec_inst : Prec_gt_0 f64_prec := prec_ok.
Global Instance emax_inst : Prec_lt_emax f64_prec f64_emax := emax_ok.
Global Instance fexp64_valid : Valid_exp fexp64 := @fexp_correct f64_prec f64_emax prec_ok.
Global Instance fexp64_mono : Monotone_exp fexp64 := @fexp_monotone f64_prec f64_emax.

Lemma binary_normalize_equiv m e szero :
  SpecFloat.binary_normalize f64_prec f64_emax m e szero
  = B2SF (BinarySingleNaN.binary_normalize f64_prec f64_emax prec_ok emax_ok mode_NE m e szero).
Proof. case m as [ | p | p]; [now simpl| |]; simpl; rewrite B2SF_SF2B; apply binary_round_equiv. Qed.

Notation BF := (binary_float f64_prec f64_emax).

Lemma SFsub_equiv (x y : BF) : SFsub f64_prec f64_emax (B2SF x) (B2SF y) = B2SF (Bminus mode_NE x y).
Proof.
  case x as [sx|sx| |sx mx ex Bx]; case y as [sy|sy| |sy my ey By]; [now (trivial || simpl; case Bool.eqb).. | ].
  simpl. unfold Zminus. rewrite <- cond_Zopp_negb. apply binary_normalize_equiv.
Qed.
Lemma SFadd_equiv (x y : BF) : SFadd f64_prec f64_emax (B2SF x) (B2SF y) = B2SF (Bplus mode_NE x y).
Proof.
  case x as [sx|sx| |sx mx ex Bx]; case y as [sy|sy| |sy my ey By]; [now (trivial || simpl; case Bool.eqb).. | ].
  apply binary_normalize_equiv.
Qed.
Lemma SFmul_equiv (x y : BF) : SFmul f64_prec f64_emax (B2SF x) (B2SF y) = B2SF (Bmult mode_NE x y).
Proof.
  case x as [sx|sx| |sx mx ex Bx]; case y as [sy|sy| |sy my ey By]; [now trivial.. | ].
  simpl. rewrite B2SF_SF2B. apply binary_round_aux_equiv.
Qed.
Lemma SFdiv_equiv (x y : BF) : SFdiv f64_prec f64_emax (B2SF x) (B2SF y) = B2SF (Bdiv mode_NE x y).
Proof.
  case x as [sx|sx| |sx mx ex Bx]; case y as [sy|sy| |sy my ey By]; [now (trivial || simpl; case Bool.eqb).. | ].
  simpl. rewrite B2SF_SF2B. set (melz := SFdiv_core_binary _ _ _ _ _ _). case melz as [[mz ez] lz]. apply binary_round_aux_equiv.
Qed.

(** a finite float64 *)
Definition gofin (x : spec_float) : Prop := go_float x /\ ffinite x = true.

Lemma go_B x (H : go_float x) : x = B2SF (SF2B x H).
Proof. rewrite B2SF_SF2B. reflexivity. Qed.
Lemma go_of_B (b : BF) : go_float (B2SF b).
Proof. apply valid_binary_B2SF. Qed.
Lemma fval_B (b : BF) : fval (B2SF b) = B2R b.
Proof. rewrite fval_SF2R. apply SF2R_B2SF. Qed.
Lemma fin_B (b : BF) : ffinite (B2SF b) = is_finite b.
Proof. destruct b; reflexivity. Qed.
Lemma sign_B (b : BF) : is_nan b = false -> fsign (B2SF b) = Bsign b.
Proof. destruct b; auto. Qed.

Lemma gofin_B x : gofin x -> exists b : BF, x = B2SF b /\ is_finite b = true.
Proof. intros [H Hf]. exists (SF2B x H). split; [apply go_B|]. rewrite <- fin_B, <- go_B. exact Hf. Qed.

Lemma f_sub_correct x y : gofin x -> gofin y -> Rabs (rnd (fval x - fval y)) < bpow radix2 1024 ->
  gofin (f_sub x y) /\ fval (f_sub x y) = rnd (fval x - fval y).
Proof.
  intros Hx Hy Hb. destruct (gofin_B x Hx) as (a & -> & Fa), (gofin_B y Hy) as (b & -> & Fb).
  pose proof (Bminus_correct f64_prec f64_emax prec_inst emax_inst mode_NE a b Fa Fb) as C. rewrite !fval_B in *.
  unfold f_sub. rewrite SFsub_equiv. rewrite Rlt_bool_true in C by exact Hb. destruct C as (C1 & C2 & _).
  split; [split; [apply go_of_B|rewrite fin_B; exact C2]|rewrite fval_B; exact C1].
Qed.
Lemma f_add_correct x y : gofin x -> gofin y -> Rabs (rnd (fval x + fval y)) < bpow radix2 1024 ->
  gofin (f_add x y) /\ fval (f_add x y) = rnd (fval x + fval y).
Proof.
  intros Hx Hy Hb. destruct (gofin_B x Hx) as (a & -> & Fa), (gofin_B y Hy) as (b & -> & Fb).
  pose proof (Bplus_correct f64_prec f64_emax prec_inst emax_inst mode_NE a b Fa Fb) as C. rewrite !fval_B in *.
  unfold f_add. rewrite SFadd_equiv. rewrite Rlt_bool_true in C by exact Hb. destruct C as (C1 & C2 & _).
  split; [split; [apply go_of_B|rewrite fin_B; exact C2]|rewrite fval_B; exact C1].
Qed.
Lemma f_mul_correct x y : gofin x -> gofin y -> Rabs (rnd (fval x * fval y)) < bpow radix2 1024 ->
  gofin (f_mul x y) /\ fval (f_mul x y) = rnd (fval x * fval y).
Proof.
  intros Hx Hy Hb. destruct (gofin_B x Hx) as (a & -> & Fa), (gofin_B y Hy) as (b & -> & Fb).
  pose proof (Bmult_correct f64_prec f64_emax prec_inst emax_inst mode_NE a b) as C. rewrite !fval_B in *.
  unfold f_mul. rewrite SFmul_equiv. rewrite Rlt_bool_true in C by exact Hb. destruct C as (C1 & C2 & _).
  split; [split; [apply go_of_B|rewrite fin_B, C2, Fa, Fb; reflexivity]|rewrite fval_B; exact C1].
Qed.
Lemma f_div_correct x y : gofin x -> gofin y -> fval y <> 0 -> Rabs (rnd (fval x / fval y)) < bpow radix2 1024 ->
  gofin (f_div x y) /\ fval (f_div x y) = rnd (fval x / fval y).
Proof.
  intros Hx Hy Hn Hb. destruct (gofin_B x Hx) as (a & -> & Fa), (gofin_B y Hy) as (b & -> & Fb).
  rewrite !fval_B in *.
  pose proof (Bdiv_correct f64_prec f64_emax prec_inst emax_inst mode_NE a b Hn) as C.
  unfold f_div. rewrite SFdiv_equiv. rewrite Rlt_bool_true in C by exact Hb. destruct C as (C1 & C2 & _).
  split; [split; [apply go_of_B|rewrite fin_B, C2; exact Fa]|rewrite fval_B; exact C1].
Qed.

Lemma f_ltb_correct x y : gofin x -> gofin y -> SFltb x y = Rlt_bool (fval x) (fval y).
Proof.
  intros Hx Hy. destruct (gofin_B x Hx) as (a & -> & Fa), (gofin_B y Hy) as (b & -> & Fb). rewrite !fval_B.
  apply (Bltb_correct f64_prec f64_emax a b Fa Fb).
Qed.

Lemma rnd_format x : gofin x -> rnd (fval x) = fval x.
Proof. intros [H _]. apply round_generic; [apply valid_rnd_N|apply fval_format; exact H]. Qed.

Lemma gofin_zero : gofin (S754_zero false). Proof. split; reflexivity. Qed.
