(** C04: comparison near zero and antisymmetry. *)
From Coq Require Import String List ZArith Bool Reals Lra.
From Coq.Floats Require Import SpecFloat.
From Flocq Require Import Core.
From Verif Require Import Num NumLaws FloatNum RealNum PathModel TextProofs PrecisionProofs IeeeProofs IeeeArith Witness.
Import ListNotations.

(** Finding: values of opposite sign that both round to zero print as "-0.000" and "0.000" and so differ. *)
Theorem C04_near_zero_refuted : exists x y : T FNum,
  rounds_to_zero 3 x /\ rounds_to_zero 3 y /\ PrecisionEquals x y 3 = false.
Proof. exists (S754_finite true 1 (-14)), (S754_finite false 1 (-14)). repeat split; vm_compute; reflexivity. Qed.
Print Assumptions C04_near_zero_refuted.

(** even the two zeros differ *)
Theorem C04_signed_zero_refuted : PrecisionEquals (N:=FNum) (S754_zero true) (S754_zero false) 3 = false /\
  eqb (n:=FNum) (S754_zero true) (S754_zero false) = true.
Proof. split; vm_compute; reflexivity. Qed.
Print Assumptions C04_signed_zero_refuted.

(** What holds: of two finite values below half of 10^-n, those with the same sign bit compare equal, the others never do. *)
Theorem C04_near_zero_partial : forall (x y : T FNum) (n : nat), ffinite x = true -> ffinite y = true ->
  (Rabs (fval x) * 10 ^ n < 1/2)%R -> (Rabs (fval y) * 10 ^ n < 1/2)%R ->
  PrecisionEquals x y (Z.of_nat n) = Bool.eqb (fsign x) (fsign y).
Proof. intros x y n H1 H2 H3 H4. apply rounds_to_zero_equal; apply small_rounds_to_zero; assumption. Qed.
Print Assumptions C04_near_zero_partial.

(** [rounds_to_zero] says what it should: the value is at most half of 10^-n *)
Theorem C04_rounds_to_zero : forall (n : nat) x, rounds_to_zero n x -> ffinite x = true /\ (Rabs (fval x) * 10 ^ n <= 1/2)%R.
Proof. exact rounds_to_zero_small. Qed.
Print Assumptions C04_rounds_to_zero.

(** Finding: comparison is not antisymmetric on NaN, nor on the two zeros: both orders give +1. *)
Theorem C04_antisymmetry_refuted :
  PrecisionCompare (N:=FNum) S754_nan (fz 1) 3 = 1%Z /\ PrecisionCompare (N:=FNum) (fz 1) S754_nan 3 = 1%Z /\
  PrecisionCompare (N:=FNum) (S754_zero true) (S754_zero false) 3 = 1%Z /\
  PrecisionCompare (N:=FNum) (S754_zero false) (S754_zero true) 3 = 1%Z.
Proof. repeat split; vm_compute; reflexivity. Qed.
Print Assumptions C04_antisymmetry_refuted.

(** Those are the only exceptions.  Full claim: for all pairs; missing: NaN and two zeros of opposite sign. *)
Theorem C04_antisymmetry_partial : forall (a b : T FNum) (n : nat), a <> S754_nan -> b <> S754_nan ->
  ~ (exists s, a = S754_zero s /\ b = S754_zero (negb s)) ->
  PrecisionCompare a b (Z.of_nat n) = Z.opp (PrecisionCompare b a (Z.of_nat n)).
Proof. exact PrecisionCompare_antisym_F. Qed.
Print Assumptions C04_antisymmetry_partial.

(** in exact arithmetic comparison is antisymmetric on all reals and infinities *)
Theorem C04_antisymmetry_exact : forall (a b : T RNum) (n : nat), a <> NaN -> b <> NaN ->
  PrecisionCompare a b (Z.of_nat n) = Z.opp (PrecisionCompare b a (Z.of_nat n)).
Proof.
  intros a b n Ha Hb. apply (PrecisionCompare_antisym RNum_ord_laws); [destruct a; auto; congruence|destruct b; auto; congruence|].
  cbn. intros E. assert (a = b) as ->; [|apply PrecisionEquals_refl].
  destruct a, b; cbn in E; try discriminate; [apply Reqb_true in E; congruence|]. apply eqb_prop in E. congruence.
Qed.
Print Assumptions C04_antisymmetry_exact.

(** The sign of the result says which number is the smaller; numbers more than 10^-n apart are told apart. *)
Theorem C04_direction : forall (a b : T FNum) (n : nat), gofin a -> gofin b ->
  (PrecisionCompare a b (Z.of_nat n) = (-1)%Z -> (fval a < fval b)%R) /\ (PrecisionCompare a b (Z.of_nat n) = 1%Z -> (fval b <= fval a)%R) /\
  ((fval a + / 10 ^ n < fval b)%R -> PrecisionCompare a b (Z.of_nat n) = (-1)%Z) /\ ((fval b + / 10 ^ n < fval a)%R -> PrecisionCompare a b (Z.of_nat n) = 1%Z).
Proof.
  intros a b n Ga Gb. pose proof (f_ltb_correct a b Ga Gb) as L. change (SFltb a b) with (@ltb FNum a b) in L.
  assert (D : PrecisionEquals a b (Z.of_nat n) = true -> (Rabs (fval a - fval b) <= / 10 ^ n)%R) by (apply PrecisionEquals_close_F; [apply Ga|apply Gb]).
  assert (P : (0 < / 10 ^ n)%R) by (apply Rinv_0_lt_compat, pow_lt; lra).
  unfold PrecisionCompare. rewrite L. revert D. destruct (PrecisionEquals a b _); intros D.
  - specialize (D eq_refl). assert (B : (- / 10 ^ n <= fval a - fval b <= / 10 ^ n)%R) by (revert D; unfold Rabs; destruct (Rcase_abs _); lra). repeat split; intros; try discriminate; lra.
  - destruct (Rlt_bool_spec (fval a) (fval b)); repeat split; intros; try discriminate; try reflexivity; lra.
Qed.
Print Assumptions C04_direction.
Example C04_direction_example : gofin (fz 1) /\ gofin (fz 2) /\ PrecisionCompare (fz 1) (fz 2) 3 = (-1)%Z /\ PrecisionCompare (fz 2) (fz 1) 3 = 1%Z.
Proof. repeat split. Qed.

Example C04_small_example : (Rabs (fval (S754_finite false 1 (-14))) * 10 ^ 3 < 1/2)%R.
Proof.
  assert (E : (powerRZ 2 (-14) = / 16384)%R) by (unfold powerRZ; change (Pos.to_nat 14) with 14%nat; f_equal; ring).
  unfold fval. rewrite E, Rabs_right; lra.
Qed.
Example C04_example :
  rounds_to_zero 3 (S754_finite false 1 (-14)) /\ rounds_to_zero 3 (S754_finite false 3 (-16)) /\
  PrecisionEquals (N:=FNum) (S754_finite false 1 (-14)) (S754_finite false 3 (-16)) 3 = true /\
  PrecisionCompare (N:=FNum) (fz 1) (fz 2) 3 = (-1)%Z /\ PrecisionCompare (N:=FNum) (fz 2) (fz 1) 3 = 1%Z /\
  PrecisionCompare (N:=FNum) (S754_infinity true) (fz 2) 3 = (-1)%Z /\ PrecisionCompare (N:=FNum) (fz 2) (S754_infinity true) 3 = 1%Z.
Proof. repeat split; vm_compute; reflexivity. Qed.
