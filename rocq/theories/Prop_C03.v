(** C03: equality to a number of decimals is an equivalence relation, and equal values are close. *)
From Coq Require Import String List ZArith Bool Reals Lra.
From Coq.Floats Require Import SpecFloat.
From Verif Require Import Num NumLaws FloatNum RealNum PathModel TextProofs PrecisionProofs Witness.
Import ListNotations.

(** for every float type, so in particular for all binary64 values including NaN and the infinities *)
Theorem C03_equivalence : forall (N : Num) (n : nat),
  (forall a : T N, PrecisionEquals a a (Z.of_nat n) = true) /\
  (forall a b : T N, PrecisionEquals a b (Z.of_nat n) = true -> PrecisionEquals b a (Z.of_nat n) = true) /\
  (forall a b c : T N, PrecisionEquals a b (Z.of_nat n) = true -> PrecisionEquals b c (Z.of_nat n) = true ->
     PrecisionEquals a c (Z.of_nat n) = true).
Proof.
  intros N n. split; [|split].
  - intros a. apply PrecisionEquals_refl.
  - intros a b H. rewrite PrecisionEquals_sym. exact H.
  - intros a b c. apply PrecisionEquals_trans.
Qed.
Print Assumptions C03_equivalence.

Theorem C03_points : forall (N : Num) (n : nat) (p q : Pt N),
  EqualsPrecision p q (Z.of_nat n) = true <->
  PrecisionEquals (px p) (px q) (Z.of_nat n) = true /\ PrecisionEquals (py p) (py q) (Z.of_nat n) = true.
Proof. intros N n p q. apply EqualsPrecision_coord. Qed.
Print Assumptions C03_points.

(** Two finite binary64 values judged equal to [n] decimals denote reals at most 10^-n apart
    ([fval]: the real number denoted). *)
Theorem C03_close_binary64 : forall (x y : T FNum) (n : nat), ffinite x = true -> ffinite y = true ->
  PrecisionEquals x y (Z.of_nat n) = true -> (Rabs (fval x - fval y) <= / 10 ^ n)%R.
Proof. exact PrecisionEquals_close_F. Qed.
Print Assumptions C03_close_binary64.

(** NaN and the infinities equal only themselves *)
Theorem C03_special_binary64 : forall (x y : T FNum) (n : nat), ffinite x = false ->
  PrecisionEquals x y (Z.of_nat n) = true -> x = y.
Proof. exact PrecisionEquals_special_F. Qed.
Print Assumptions C03_special_binary64.

(** the same bound in exact arithmetic *)
Theorem C03_close_exact : forall (x y : R) (n : nat),
  PrecisionEquals (N:=RNum) (Fin x) (Fin y) (Z.of_nat n) = true -> (Rabs (x - y) <= / 10 ^ n)%R.
Proof. exact PrecisionEquals_close_R. Qed.
Print Assumptions C03_close_exact.

(** 1, 1 + 2^-12 and 1 - 2^-12 are equal to three decimals; 1 + 2^-10 = 1.00097.. is not (it prints 1.001) *)
Definition oneup : spec_float := S754_finite false 4097 (-12).
Definition onedn : spec_float := S754_finite false 4095 (-12).
Example C03_example :
  PrecisionEquals (N:=FNum) oneup onedn 3 = true /\ PrecisionEquals (N:=FNum) onedn (fz 1) 3 = true /\
  PrecisionEquals (N:=FNum) oneup (fz 1) 3 = true /\ PrecisionEquals (N:=FNum) (S754_finite false 1025 (-10)) (fz 1) 3 = false /\
  ffinite oneup = true /\ ffinite onedn = true /\
  PrecisionEquals (N:=FNum) S754_nan S754_nan 3 = true /\ EqualsPrecision (@mkPt FNum oneup (fz 2)) (@mkPt FNum onedn (fz 2)) 3 = true.
Proof. repeat split; vm_compute; reflexivity. Qed.
