(** Proofs about PrecisionEquals / PrecisionCompare / EqualsPrecision (C03, C04). *)
From Coq Require Import String List ZArith NArith Bool Lia Reals Lra.
From Coq.Floats Require Import SpecFloat.
From Verif Require Import Num NumLaws FloatNum RealNum PathModel TextProofs.
Import ListNotations.

Section Eq.
Context {N : Num}.
Notation F := (T N).

Lemma PrecisionEquals_refl (a : F) n : PrecisionEquals a a (Z.of_nat n) = true.
Proof. apply PrecisionEquals_same. reflexivity. Qed.
Lemma PrecisionEquals_sym (a b : F) n : PrecisionEquals a b (Z.of_nat n) = PrecisionEquals b a (Z.of_nat n).
Proof. apply bool_ext. rewrite !PrecisionEquals_same. unfold same_dec. split; auto. Qed.
Lemma PrecisionEquals_trans (a b c : F) n : PrecisionEquals a b (Z.of_nat n) = true -> PrecisionEquals b c (Z.of_nat n) = true ->
  PrecisionEquals a c (Z.of_nat n) = true.
Proof. rewrite !PrecisionEquals_same. unfold same_dec. congruence. Qed.

Lemma EqualsPrecision_coord (p q : Pt N) n : EqualsPrecision p q (Z.of_nat n) = true <->
  PrecisionEquals (px p) (px q) (Z.of_nat n) = true /\ PrecisionEquals (py p) (py q) (Z.of_nat n) = true.
Proof. rewrite EqualsPrecision_same, !PrecisionEquals_same. reflexivity. Qed.

Lemma PrecisionCompare_antisym (O : OrdLaws N) (a b : F) n : isnan a = false -> isnan b = false ->
  (eqb a b = true -> PrecisionEquals a b (Z.of_nat n) = true) ->
  PrecisionCompare a b (Z.of_nat n) = Z.opp (PrecisionCompare b a (Z.of_nat n)).
Proof.
  intros Ha Hb He. unfold PrecisionCompare. rewrite (PrecisionEquals_sym b a).
  destruct (PrecisionEquals a b _) eqn:E; [reflexivity|].
  destruct (ltb a b) eqn:E1, (ltb b a) eqn:E2; try reflexivity.
  - pose proof (ltb_irrefl O a). rewrite (ltb_trans O _ _ _ E1 E2) in H. discriminate.
  - pose proof (He (ltb_trich O _ _ Ha Hb E1 E2)) as X. congruence.
Qed.
End Eq.

Local Open Scope R_scope.

(** ** rounding *)
Lemma round_half_even_spec num den : (0 < den)%N ->
  Rabs (IZR (Z.of_N num) / IZR (Z.of_N den) - IZR (Z.of_N (round_half_even num den))) <= 1/2.
Proof.
  intros Hd.
  assert (H : (2 * Z.abs (Z.of_N num - Z.of_N den * Z.of_N (round_half_even num den)) <= Z.of_N den)%Z).
  { unfold round_half_even. pose proof (N.div_mod num den ltac:(lia)) as E. pose proof (N.mod_lt num den ltac:(lia)) as Hr.
    set (q := (num / den)%N) in *. set (r := (num mod den)%N) in *. clearbody q r.
    destruct (N.compare_spec (2 * r) den) as [H|H|H]; [destruct (N.even q)| |]; subst num; nia. }
  assert (Hp : 0 < IZR (Z.of_N den)) by (apply IZR_lt; lia).
  apply IZR_le in H. rewrite mult_IZR, abs_IZR, minus_IZR, mult_IZR in H.
  replace (IZR (Z.of_N num) / IZR (Z.of_N den) - IZR (Z.of_N (round_half_even num den)))
    with ((IZR (Z.of_N num) - IZR (Z.of_N den) * IZR (Z.of_N (round_half_even num den))) / IZR (Z.of_N den)) by (field; lra).
  unfold Rdiv. rewrite Rabs_mult, (Rabs_right (/ _)) by (apply Rle_ge, Rlt_le, Rinv_0_lt_compat; exact Hp).
  apply (Rmult_le_reg_r (IZR (Z.of_N den))); [exact Hp|]. rewrite Rmult_assoc, Rinv_l by lra. lra.
Qed.

Lemma Rround_he_spec y : 0 <= y -> Rabs (y - IZR (Z.of_N (Rround_he y))) <= 1/2.
Proof.
  intros Hy. unfold Rround_he. pose proof (base_Int_part y) as [H1 H2].
  assert (Hf : (0 <= Int_part y)%Z).
  { apply Z.lt_succ_r. apply lt_IZR. rewrite succ_IZR. lra. }
  set (f := Int_part y) in *.
  destruct (Rlt_dec (y - IZR f) (1/2)); [|destruct (Rlt_dec (1/2) (y - IZR f)); [|destruct (Z.even f)]];
    rewrite Z2N.id by lia; rewrite ?plus_IZR; apply Rabs_le; lra.
Qed.

(** ** equal to [n] decimals means close *)
Lemma pow10_pos n : 0 < 10 ^ n. Proof. apply pow_lt. lra. Qed.

Lemma close_of_scaled n a b m : 0 <= a -> 0 <= b ->
  Rabs (a * 10 ^ n - m) <= 1/2 -> Rabs (b * 10 ^ n - m) <= 1/2 -> Rabs (a - b) <= / 10 ^ n.
Proof.
  intros Ha Hb H1 H2. pose proof (pow10_pos n) as Hp.
  apply (Rmult_le_reg_r (10 ^ n)); [exact Hp|]. rewrite Rinv_l by lra.
  rewrite <- (Rabs_right (10 ^ n)) at 1 by lra. rewrite <- Rabs_mult.
  replace ((a - b) * 10 ^ n) with ((a * 10 ^ n - m) - (b * 10 ^ n - m)) by ring.
  apply Rabs_le. revert H1 H2. unfold Rabs. destruct (Rcase_abs _), (Rcase_abs _); lra.
Qed.

Lemma PrecisionEquals_close_R (x y : R) n : PrecisionEquals (N:=RNum) (Fin x) (Fin y) (Z.of_nat n) = true -> Rabs (x - y) <= / 10 ^ n.
Proof.
  rewrite PrecisionEquals_same. unfold same_dec. cbn. intros E. injection E as Es Em.
  pose proof (pow10_pos n) as Hp.
  pose proof (Rround_he_spec (Rabs x * 10 ^ n) ltac:(apply Rmult_le_pos; [apply Rabs_pos|lra])) as H1.
  pose proof (Rround_he_spec (Rabs y * 10 ^ n) ltac:(apply Rmult_le_pos; [apply Rabs_pos|lra])) as H2.
  rewrite Em in H1.
  pose proof (close_of_scaled n _ _ _ (Rabs_pos x) (Rabs_pos y) H1 H2) as H.
  destruct (Rltb_spec x 0) as [Hx|Hx], (Rltb_spec y 0) as [Hy|Hy]; try discriminate.
  - rewrite (Rabs_left x), (Rabs_left y) in H by lra. rewrite <- Rabs_Ropp. replace (- (x - y)) with (- x - - y) by ring. exact H.
  - rewrite (Rabs_right x), (Rabs_right y) in H by lra. exact H.
Qed.

(** the real number a finite binary64 stands for *)
Definition fval (x : spec_float) : R :=
  match x with
  | S754_finite s m e => (if s then -1 else 1) * (IZR (Zpos m) * powerRZ 2 e)
  | _ => 0
  end.
Definition ffinite (x : spec_float) : bool :=
  match x with S754_zero _ => true | S754_finite _ _ _ => true | _ => false end.
Definition fsign (x : spec_float) : bool :=
  match x with S754_zero s => s | S754_finite s _ _ => s | S754_infinity s => s | S754_nan => false end.

Lemma IZR_pow10 n : IZR (Z.of_N (10 ^ N.of_nat n)) = 10 ^ n.
Proof.
  rewrite N2Z.inj_pow, nat_N_Z. rewrite <- pow_IZR. reflexivity.
Qed.
Lemma IZR_pow2 p : IZR (Z.of_N (2 ^ N.pos p)) = powerRZ 2 (Zpos p).
Proof.
  cbn [powerRZ]. replace (N.pos p) with (N.of_nat (Pos.to_nat p)) by (rewrite positive_nat_N; reflexivity).
  rewrite N2Z.inj_pow, nat_N_Z, <- pow_IZR. reflexivity.
Qed.

Lemma f_fmtd_spec n x : ffinite x = true ->
  exists m, f_fmtd n x = FTdec (fsign x) m /\ Rabs (Rabs (fval x) * 10 ^ n - IZR (Z.of_N m)) <= 1/2.
Proof.
  destruct x as [s|s| |s m e]; try discriminate; intros _.
  - exists 0%N. split; [reflexivity|]. cbn. rewrite Rabs_R0, Rmult_0_l, Rminus_0_r, Rabs_R0. lra.
  - assert (Hm : 0 < IZR (Zpos m)) by (apply IZR_lt; lia).
    assert (He : 0 < powerRZ 2 e) by (apply powerRZ_lt; lra).
    assert (Hv : Rabs (fval (S754_finite s m e)) = IZR (Zpos m) * powerRZ 2 e).
    { cbn [fval]. rewrite Rabs_mult, (Rabs_right (IZR _ * _)) by (apply Rle_ge, Rmult_le_pos; lra).
      destruct s; [rewrite Rabs_left by lra|rewrite Rabs_R1]; ring. }
    rewrite Hv. assert (Hnum : forall k, IZR (Z.of_N (N.pos m * 10 ^ N.of_nat n * k)) = IZR (Zpos m) * 10 ^ n * IZR (Z.of_N k)).
    { intros k. rewrite !N2Z.inj_mul, !mult_IZR, IZR_pow10. reflexivity. }
    cbn [f_fmtd fsign]. destruct e as [|p|p].
    + eexists. split; [reflexivity|]. rewrite <- (N.mul_1_r (_ * _)), Hnum. cbn.
      match goal with |- Rabs ?a <= _ => replace a with 0 by ring end. rewrite Rabs_R0. lra.
    + eexists. split; [reflexivity|]. rewrite Hnum, IZR_pow2.
      match goal with |- Rabs ?a <= _ => replace a with 0 by ring end. rewrite Rabs_R0. lra.
    + eexists. split; [reflexivity|].
      assert (Hd : (0 < 2 ^ N.pos p)%N) by (apply N.neq_0_lt_0, N.pow_nonzero; lia).
      pose proof (round_half_even_spec (N.pos m * 10 ^ N.of_nat n) (2 ^ N.pos p) Hd) as H.
      rewrite <- (N.mul_1_r (N.pos m * 10 ^ N.of_nat n)) in H at 1. rewrite Hnum, IZR_pow2 in H. cbn [Z.of_N] in H.
      replace (IZR (Z.pos m) * powerRZ 2 (Z.neg p) * 10 ^ n) with (IZR (Z.pos m) * 10 ^ n * 1 / powerRZ 2 (Z.pos p)); [exact H|].
      cbn [powerRZ]. field. apply pow_nonzero. lra.
Qed.

Lemma fval_sign x : ffinite x = true -> fval x = (if fsign x then -1 else 1) * Rabs (fval x).
Proof.
  destruct x as [s|s| |s m e]; try discriminate; intros _; cbn [fval fsign].
  - rewrite Rabs_R0. ring.
  - assert (Hm : 0 < IZR (Zpos m)) by (apply IZR_lt; lia).
    assert (He : 0 < powerRZ 2 e) by (apply powerRZ_lt; lra).
    assert (Hk : 0 < IZR (Zpos m) * powerRZ 2 e) by (apply Rmult_lt_0_compat; lra).
    rewrite Rabs_mult, (Rabs_right (IZR _ * _)) by lra. destruct s; [rewrite Rabs_left by lra|rewrite Rabs_R1]; ring.
Qed.

Lemma PrecisionEquals_close_F (x y : T FNum) n : ffinite x = true -> ffinite y = true ->
  PrecisionEquals x y (Z.of_nat n) = true -> Rabs (fval x - fval y) <= / 10 ^ n.
Proof.
  intros Hx Hy. rewrite PrecisionEquals_same. unfold same_dec. cbn [fmtd FNum]. intros E.
  destruct (f_fmtd_spec n x Hx) as (m1 & E1 & H1). destruct (f_fmtd_spec n y Hy) as (m2 & E2 & H2).
  rewrite E1, E2 in E. injection E as Es Em. subst m2.
  pose proof (close_of_scaled n _ _ _ (Rabs_pos _) (Rabs_pos _) H1 H2) as H.
  rewrite (fval_sign x Hx), (fval_sign y Hy), <- Es. destruct (fsign x).
  - rewrite <- Rabs_Ropp. match goal with |- Rabs ?a <= _ => replace a with (Rabs (fval x) - Rabs (fval y)) by ring end. exact H.
  - match goal with |- Rabs ?a <= _ => replace a with (Rabs (fval x) - Rabs (fval y)) by ring end. exact H.
Qed.

(** an infinity or NaN is equal, to any precision, only to itself *)
Lemma PrecisionEquals_special_F (x y : T FNum) n : ffinite x = false ->
  PrecisionEquals x y (Z.of_nat n) = true -> x = y.
Proof.
  intros Hx. rewrite PrecisionEquals_same. unfold same_dec. cbn [fmtd FNum].
  destruct (ffinite y) eqn:Hy.
  - destruct (f_fmtd_spec n y Hy) as (m2 & -> & _). destruct x; try discriminate.
  - destruct x; try discriminate; destruct y; try discriminate; cbn; congruence.
Qed.

(** ** C04 on binary64 *)
(** rounds to zero at [n] decimals *)
Definition rounds_to_zero (n : nat) (x : spec_float) : Prop := f_fmtd n x = FTdec (fsign x) 0.

Lemma rounds_to_zero_small n x : rounds_to_zero n x -> ffinite x = true /\ Rabs (fval x) * 10 ^ n <= 1/2.
Proof.
  unfold rounds_to_zero. intros H. destruct (ffinite x) eqn:Hf.
  - split; auto. destruct (f_fmtd_spec n x Hf) as (m & E & Hm). rewrite E in H. injection H as ->. cbn in Hm.
    rewrite Rminus_0_r in Hm. rewrite Rabs_right in Hm; auto.
    apply Rle_ge, Rmult_le_pos; [apply Rabs_pos|pose proof (pow10_pos n); lra].
  - destruct x; discriminate.
Qed.

Lemma small_rounds_to_zero n x : ffinite x = true -> Rabs (fval x) * 10 ^ n < 1/2 -> rounds_to_zero n x.
Proof.
  intros Hf Hs. destruct (f_fmtd_spec n x Hf) as (m & E & Hm). unfold rounds_to_zero. rewrite E. f_equal.
  assert (0 <= Rabs (fval x) * 10 ^ n) by (apply Rmult_le_pos; [apply Rabs_pos|pose proof (pow10_pos n); lra]).
  assert (IZR (Z.of_N m) < 1) as H1.
  { revert Hm. unfold Rabs at 1. destruct (Rcase_abs _); lra. }
  apply lt_IZR in H1. lia.
Qed.

Lemma rounds_to_zero_equal (x y : T FNum) n : rounds_to_zero n x -> rounds_to_zero n y ->
  PrecisionEquals x y (Z.of_nat n) = Bool.eqb (fsign x) (fsign y).
Proof.
  intros H1 H2. apply bool_ext. rewrite PrecisionEquals_same. unfold same_dec. cbn [fmtd FNum]. rewrite H1, H2, eqb_true_iff.
  split; [intros E; injection E; auto|intros ->; reflexivity].
Qed.

Lemma PrecisionCompare_antisym_F (a b : T FNum) n : a <> S754_nan -> b <> S754_nan ->
  ~ (exists s, a = S754_zero s /\ b = S754_zero (negb s)) ->
  PrecisionCompare a b (Z.of_nat n) = Z.opp (PrecisionCompare b a (Z.of_nat n)).
Proof.
  intros Ha Hb Hz. apply (PrecisionCompare_antisym FNum_ord_laws).
  - destruct a; auto; congruence.
  - destruct b; auto; congruence.
  - intros E. apply SFeqb_same in E. destruct E as [[-> _]|(s & s' & E1 & E2)].
    + apply PrecisionEquals_refl.
    + destruct (Bool.bool_dec s s') as [->|Hn]; [subst; apply PrecisionEquals_refl|].
      exfalso. apply Hz. exists s. split; auto. rewrite E2. f_equal. destruct s, s'; auto; congruence.
Qed.
