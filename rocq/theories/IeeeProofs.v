(** Facts about binary64 printing and reading, from the correctness proofs of Flocq. *)
From Coq Require Import String List ZArith NArith Bool Lia Reals Lra.
From Coq.Floats Require Import SpecFloat.
From Flocq Require Import Core.
From Flocq.IEEE754 Require BinarySingleNaN.
From Verif Require Import Num NumLaws FloatNum PrecisionProofs.
Import BinarySingleNaN.
Local Open Scope R_scope.

Local Notation fexp64 := (SpecFloat.fexp f64_prec f64_emax).
Local Notation rnd := (round radix2 fexp64 (round_mode mode_NE)).

Lemma prec_ok : Prec_gt_0 f64_prec. Proof. reflexivity. Qed.
Lemma emax_ok : Prec_lt_emax f64_prec f64_emax. Proof. reflexivity. Qed.

(** a float64 value as Go holds it: NaN, infinity, zero, or a mantissa and exponent in range *)
Definition go_float (x : spec_float) : Prop := valid_binary f64_prec f64_emax x = true.

Lemma round_nearest_even_equiv s m l : round_nearest_even m l = choice_mode mode_NE s m l.
Proof. case l; [reflexivity|intro c]. case c; [|reflexivity..]. now simpl; unfold Round.cond_incr; case Z.even. Qed.

Lemma binary_round_aux_equiv sx mx ex lx :
  SpecFloat.binary_round_aux f64_prec f64_emax sx mx ex lx = BinarySingleNaN.binary_round_aux f64_prec f64_emax mode_NE sx mx ex lx.
Proof.
  unfold SpecFloat.binary_round_aux, BinarySingleNaN.binary_round_aux. set (mrse' := shr_fexp _ _ _ _ _).
  case mrse'; intros mrs' e'; simpl. now rewrite (round_nearest_even_equiv sx).
Qed.

Lemma binary_round_equiv s m e :
  SpecFloat.binary_round f64_prec f64_emax s m e = BinarySingleNaN.binary_round f64_prec f64_emax mode_NE s m e.
Proof.
  unfold SpecFloat.binary_round, BinarySingleNaN.binary_round, shl_align_fexp.
  set (mez := shl_align _ _ _); case mez as [mz ez]. apply binary_round_aux_equiv.
Qed.

Lemma fval_SF2R x : fval x = SF2R radix2 x.
Proof.
  destruct x as [s|s| |s m e]; try reflexivity. unfold fval, SF2R, F2R. cbn [Fnum Fexp].
  rewrite bpow_powerRZ. destruct s; cbn [cond_Zopp]; [change (Z.neg m) with (- Z.pos m)%Z; rewrite opp_IZR|]; change (IZR radix2) with 2; ring.
Qed.
Lemma ffinite_SF x : ffinite x = is_finite_SF x. Proof. destruct x; reflexivity. Qed.
Lemma fsign_SF x : fsign x = sign_SF x. Proof. destruct x; reflexivity. Qed.

Lemma fval_format x : go_float x -> generic_format radix2 fexp64 (fval x).
Proof.
  intros H. rewrite fval_SF2R.
  pose proof (generic_format_B2R f64_prec f64_emax (SF2B x H)) as G. rewrite B2R_SF2B in G. exact G.
Qed.

Lemma fval_bound x : go_float x -> Rabs (fval x) <= bpow radix2 1024 - bpow radix2 971.
Proof.
  intros H. rewrite fval_SF2R.
  pose proof (@abs_B2R_le_emax_minus_prec f64_prec f64_emax prec_ok (SF2B x H)) as G. rewrite B2R_SF2B in G. exact G.
Qed.

(** the decimal (-)m * 10^e as a real *)
Definition dval (neg : bool) (m : N) (e : Z) : R := (if neg then -1 else 1) * IZR (Z.of_N m) * powerRZ 10 e.

Lemma IZR_pow10_pos k : IZR (Zpos (10 ^ k)) = powerRZ 10 (Zpos k).
Proof.
  cbn [powerRZ]. rewrite pow_IZR. f_equal. rewrite positive_nat_Z. apply Pos2Z.inj_pow.
Qed.

(** reading a decimal gives the nearest binary64, ties to even; too large is an error *)
Lemma f_ofdec_correct neg p e :
  if Rlt_bool (Rabs (rnd (dval neg (Npos p) e))) (bpow radix2 1024) then
    exists r, f_ofdec neg (Npos p) e = Some r /\ go_float r /\ ffinite r = true /\ fsign r = neg /\ fval r = rnd (dval neg (Npos p) e)
  else f_ofdec neg (Npos p) e = None.
Proof.
  assert (Main : exists r, f_ofdec neg (N.pos p) e = match r with S754_infinity _ => None | _ => Some r end /\
    go_float r /\
    if Rlt_bool (Rabs (rnd (dval neg (Npos p) e))) (bpow radix2 1024) then
      SF2R radix2 r = rnd (dval neg (Npos p) e) /\ is_finite_SF r = true /\ sign_SF r = neg
    else r = binary_overflow f64_prec f64_emax mode_NE neg).
  { assert (Hpos : forall q, dval neg (Npos p) e = (if neg then -1 else 1) * IZR (Zpos q) ->
      f_ofdec neg (N.pos p) e = match SpecFloat.binary_round f64_prec f64_emax neg q 0 with S754_infinity _ => None | r => Some r end ->
      exists r, f_ofdec neg (N.pos p) e = match r with S754_infinity _ => None | _ => Some r end /\ go_float r /\
        if Rlt_bool (Rabs (rnd (dval neg (Npos p) e))) (bpow radix2 1024) then
          SF2R radix2 r = rnd (dval neg (Npos p) e) /\ is_finite_SF r = true /\ sign_SF r = neg
        else r = binary_overflow f64_prec f64_emax mode_NE neg).
    { intros q Ed Ef. exists (SpecFloat.binary_round f64_prec f64_emax neg q 0).
      rewrite Ef. split; [destruct (SpecFloat.binary_round _ _ _ _ _); reflexivity|].
      rewrite binary_round_equiv.
      pose proof (@binary_round_correct f64_prec f64_emax prec_ok emax_ok mode_NE neg q 0) as H. cbv zeta in H.
      replace (F2R (Float radix2 (cond_Zopp neg (Z.pos q)) 0)) with (dval neg (N.pos p) e) in H; [exact H|].
      rewrite Ed. unfold F2R. cbn [Fnum Fexp bpow]. rewrite Rmult_1_r. destruct neg; cbn [cond_Zopp]; [|ring].
      change (Z.neg q) with (- Z.pos q)%Z. rewrite opp_IZR. ring. }
    destruct e as [|k|k].
    - apply (Hpos p).
      + unfold dval. cbn [powerRZ Z.of_N]. ring.
      + unfold f_ofdec. change (N.pos p * 10 ^ Z.to_N 0)%N with (N.pos (p * 1)). rewrite Pos.mul_1_r.
        destruct neg; unfold SpecFloat.binary_normalize; destruct (SpecFloat.binary_round _ _ _ _ _); reflexivity.
    - apply (Hpos (p * 10 ^ k)%positive).
      + unfold dval. cbn [Z.of_N]. rewrite Pos2Z.inj_mul, mult_IZR, IZR_pow10_pos. ring.
      + unfold f_ofdec. change (Z.to_N (Z.pos k)) with (N.pos k). change (N.pos p * 10 ^ N.pos k)%N with (N.pos (p * 10 ^ k)).
        destruct neg; unfold SpecFloat.binary_normalize; destruct (SpecFloat.binary_round _ _ _ _ _); reflexivity.
    - exists (SFdiv f64_prec f64_emax (S754_finite neg p 0) (S754_finite false (10 ^ k) 0)).
      split; [unfold f_ofdec; destruct (SFdiv _ _ _ _); reflexivity|].
      pose proof (@Bdiv_correct_aux f64_prec f64_emax prec_ok emax_ok mode_NE neg p 0 false (10 ^ k)%positive 0) as H.
      cbv zeta in H. unfold SFdiv. destruct (SFdiv_core_binary _ _ _ _ _ _) as [[mz ez] lz].
      rewrite binary_round_aux_equiv.
      replace (F2R (Float radix2 (cond_Zopp neg (Z.pos p)) 0) / F2R (Float radix2 (cond_Zopp false (Z.pos (10 ^ k))) 0))
        with (dval neg (N.pos p) (Z.neg k)) in H; [rewrite xorb_false_r in *; exact H|].
      unfold dval, F2R. cbn [Fnum Fexp bpow cond_Zopp]. rewrite !Rmult_1_r, IZR_pow10_pos. cbn [powerRZ Z.of_N].
      unfold Rdiv. f_equal. destruct neg; cbn [cond_Zopp]; [|ring]. change (Z.neg p) with (- Z.pos p)%Z. rewrite opp_IZR. ring. }
  destruct Main as (r & E & Hv & H). destruct (Rlt_bool _ _).
  - destruct H as (H1 & H2 & H3). exists r. rewrite ffinite_SF, fsign_SF, fval_SF2R. repeat split; auto.
    rewrite E. destruct r; auto; discriminate.
  - rewrite E, H. reflexivity.
Qed.

(** ** round half to even, as a relation *)
Definition rhe (v : R) (m : N) : Prop :=
  Rabs (v - IZR (Z.of_N m)) < 1/2 \/ (Rabs (v - IZR (Z.of_N m)) = 1/2 /\ N.even m = true).

Lemma rhe_unique v m m' : rhe v m -> rhe v m' -> m = m'.
Proof.
  intros H H'. destruct (N.eq_dec m m') as [E|Hn]; auto. exfalso.
  assert (Hd : 1 <= Rabs (IZR (Z.of_N m) - IZR (Z.of_N m'))).
  { rewrite <- minus_IZR, <- abs_IZR. apply IZR_le. lia. }
  assert (Hs : Rabs (v - IZR (Z.of_N m)) + Rabs (v - IZR (Z.of_N m')) >= 1).
  { apply Rle_ge. eapply Rle_trans; [exact Hd|].
    replace (IZR (Z.of_N m) - IZR (Z.of_N m')) with (- (v - IZR (Z.of_N m)) + (v - IZR (Z.of_N m'))) by ring.
    eapply Rle_trans; [apply Rabs_triang|]. rewrite Rabs_Ropp. lra. }
  destruct H as [H|[H He]], H' as [H'|[H' He']]; try lra.
  assert (Hx : Rabs (IZR (Z.of_N m) - IZR (Z.of_N m')) <= 1).
  { replace (IZR (Z.of_N m) - IZR (Z.of_N m')) with (- (v - IZR (Z.of_N m)) + (v - IZR (Z.of_N m'))) by ring.
    eapply Rle_trans; [apply Rabs_triang|]. rewrite Rabs_Ropp. lra. }
  rewrite <- minus_IZR, <- abs_IZR in Hx. apply le_IZR in Hx.
  apply N.even_spec in He as [a ->]. apply N.even_spec in He' as [b ->]. lia.
Qed.

Lemma rhe_closer v v' m : rhe v m -> Rabs (v' - IZR (Z.of_N m)) <= Rabs (v - IZR (Z.of_N m)) -> rhe v' m.
Proof.
  intros [H|[H He]] Hc; [left; lra|].
  destruct (Rle_lt_or_eq_dec _ _ Hc) as [L|E]; [left; lra|right; split; [lra|assumption]].
Qed.

Lemma rhe_half v m : rhe v m -> Rabs (v - IZR (Z.of_N m)) <= 1/2.
Proof. intros [H|[H _]]; lra. Qed.

Lemma round_half_even_rhe num den : (0 < den)%N -> rhe (IZR (Z.of_N num) / IZR (Z.of_N den)) (round_half_even num den).
Proof.
  intros Hd.
  assert (H : (2 * Z.abs (Z.of_N num - Z.of_N den * Z.of_N (round_half_even num den)) < Z.of_N den)%Z \/
              (2 * Z.abs (Z.of_N num - Z.of_N den * Z.of_N (round_half_even num den)) = Z.of_N den)%Z /\ N.even (round_half_even num den) = true).
  { unfold round_half_even. pose proof (N.div_mod num den ltac:(lia)) as E. pose proof (N.mod_lt num den ltac:(lia)) as Hr.
    set (q := (num / den)%N) in *. set (r := (num mod den)%N) in *. clearbody q r.
    destruct (N.compare_spec (2 * r) den) as [H|H|H]; [destruct (N.even q) eqn:Eq| |]; subst num.
    - right. split; [nia|assumption].
    - right. split; [nia|]. rewrite N.even_add, Eq. reflexivity.
    - left. nia.
    - left. nia. }
  assert (Hp : 0 < IZR (Z.of_N den)) by (apply IZR_lt; lia).
  assert (EQ : Rabs (IZR (Z.of_N num) / IZR (Z.of_N den) - IZR (Z.of_N (round_half_even num den))) * IZR (Z.of_N den) =
    Rabs (IZR (Z.of_N num) - IZR (Z.of_N den) * IZR (Z.of_N (round_half_even num den)))).
  { rewrite <- (Rabs_right (IZR (Z.of_N den))) at 2 by lra. rewrite <- Rabs_mult. f_equal. field. lra. }
  destruct H as [H|[H He]].
  - left. apply IZR_lt in H. rewrite mult_IZR, abs_IZR, minus_IZR, mult_IZR in H.
    apply (Rmult_lt_reg_r (IZR (Z.of_N den))); [exact Hp|]. lra.
  - right. split; [|assumption]. apply (f_equal IZR) in H. rewrite mult_IZR, abs_IZR, minus_IZR, mult_IZR in H.
    apply (Rmult_eq_reg_r (IZR (Z.of_N den))); lra.
Qed.

Lemma rhe_exact m : rhe (IZR (Z.of_N m)) m.
Proof. left. unfold Rminus. rewrite Rplus_opp_r, Rabs_R0. lra. Qed.

Lemma f_fmtd_rhe n x : ffinite x = true ->
  exists m, f_fmtd n x = FTdec (fsign x) m /\ rhe (Rabs (fval x) * 10 ^ n) m.
Proof.
  destruct x as [s|s| |s m e]; try discriminate; intros _.
  - exists 0%N. split; [reflexivity|]. cbn [fval]. rewrite Rabs_R0, Rmult_0_l. apply (rhe_exact 0).
  - assert (Hm : 0 < IZR (Zpos m)) by (apply IZR_lt; lia).
    assert (He : 0 < powerRZ 2 e) by (apply powerRZ_lt; lra).
    assert (Hv : Rabs (fval (S754_finite s m e)) = IZR (Zpos m) * powerRZ 2 e).
    { cbn [fval]. rewrite Rabs_mult, (Rabs_right (IZR _ * _)) by (apply Rle_ge, Rmult_le_pos; lra).
      destruct s; [rewrite Rabs_left by lra|rewrite Rabs_R1]; ring. }
    rewrite Hv. assert (Hnum : forall k, IZR (Z.of_N (N.pos m * 10 ^ N.of_nat n * k)) = IZR (Zpos m) * 10 ^ n * IZR (Z.of_N k)).
    { intros k. rewrite !N2Z.inj_mul, !mult_IZR, IZR_pow10. reflexivity. }
    unfold f_fmtd, fsign. destruct e as [|p|p].
    + eexists. split; [reflexivity|].
      replace (IZR (Z.pos m) * powerRZ 2 0 * 10 ^ n) with (IZR (Z.of_N (N.pos m * 10 ^ N.of_nat n))); [apply rhe_exact|].
      rewrite <- (N.mul_1_r (_ * _)), Hnum. cbn [powerRZ Z.of_N]. ring.
    + eexists. split; [reflexivity|].
      replace (IZR (Z.pos m) * powerRZ 2 (Z.pos p) * 10 ^ n) with (IZR (Z.of_N (N.pos m * 10 ^ N.of_nat n * 2 ^ N.pos p))); [apply rhe_exact|].
      rewrite Hnum, IZR_pow2. ring.
    + eexists. split; [reflexivity|].
      assert (Hd : (0 < 2 ^ N.pos p)%N) by (apply N.neq_0_lt_0, N.pow_nonzero; lia).
      pose proof (round_half_even_rhe (N.pos m * 10 ^ N.of_nat n) (2 ^ N.pos p) Hd) as H.
      rewrite <- (N.mul_1_r (N.pos m * 10 ^ N.of_nat n)) in H at 1. rewrite Hnum, IZR_pow2 in H. cbn [Z.of_N] in H.
      replace (IZR (Z.pos m) * powerRZ 2 (Z.neg p) * 10 ^ n) with (IZR (Z.pos m) * 10 ^ n * 1 / powerRZ 2 (Z.pos p)); [exact H|].
      cbn [powerRZ]. field. apply pow_nonzero. lra.
Qed.

(** Printing to [n] decimals and reading back gives a float that prints the same. *)
Lemma print_read n x s m : go_float x -> f_fmtd n x = FTdec s m ->
  exists y, f_ofdec s m (- Z.of_nat n) = Some y /\ go_float y /\ ffinite y = true /\ f_fmtd n y = FTdec s m.
Proof.
  intros Hx Hf.
  assert (Hfin : ffinite x = true) by (destruct x; try discriminate; reflexivity).
  destruct (f_fmtd_rhe n x Hfin) as (m0 & E & HR). rewrite Hf in E. injection E as Es <-.
  destruct m as [|p].
  { exists (S754_zero s). repeat split; reflexivity. }
  assert (Hp10 : 0 < 10 ^ n) by (apply pow_lt; lra).
  set (d := dval s (N.pos p) (- Z.of_nat n)).
  assert (Hpow : powerRZ 10 (- Z.of_nat n) = / 10 ^ n).
  { destruct n as [|n']; [cbn; lra|]. change (- Z.of_nat (S n'))%Z with (Z.neg (Pos.of_succ_nat n')). cbn [powerRZ]. rewrite SuccNat2Pos.id_succ. reflexivity. }
  set (sg := if s then -1 else 1).
  assert (Hd : d = sg * (IZR (Zpos p) / 10 ^ n)).
  { unfold d, dval. rewrite Hpow. cbn [Z.of_N]. unfold Rdiv, sg. ring. }
  assert (Hsg : Rabs sg = 1) by (unfold sg; destruct s; [rewrite Rabs_left; lra|apply Rabs_R1]).
  assert (Hxv : fval x = sg * Rabs (fval x)) by (unfold sg; rewrite Es; apply fval_sign; exact Hfin).
  assert (Hmp : 0 < IZR (Zpos p)) by (apply IZR_lt; lia).
  (* distance from x to the decimal *)
  assert (Hxd : Rabs (fval x - d) * 10 ^ n = Rabs (Rabs (fval x) * 10 ^ n - IZR (Zpos p))).
  { rewrite Hxv, Hd at 1. rewrite <- (Rabs_right (10 ^ n)) at 2 by lra. rewrite <- Rabs_mult.
    replace ((sg * Rabs (fval x) - sg * (IZR (Zpos p) / 10 ^ n)) * 10 ^ n) with (sg * (Rabs (fval x) * 10 ^ n - IZR (Zpos p))) by (field; lra).
    rewrite Rabs_mult, Hsg, Rmult_1_l. reflexivity. }
  assert (Hxd' : Rabs (fval x - d) <= 1/2).
  { pose proof (rhe_half _ _ HR) as H. cbn [Z.of_N] in H. rewrite <- Hxd in H.
    assert (1 <= 10 ^ n) by (apply pow_R1_Rle; lra). pose proof (Rabs_pos (fval x - d)). nra. }
  (* nearest *)
  assert (HN : Rabs (rnd d - d) <= Rabs (fval x - d)).
  { pose proof (@round_N_pt radix2 fexp64 (@fexp_correct f64_prec f64_emax prec_ok) (fun z => negb (Z.even z)) d) as [_ H]. apply (H (fval x)). apply fval_format. exact Hx. }
  assert (Hb : Rabs (rnd d) < bpow radix2 1024).
  { pose proof (fval_bound x Hx) as B. assert (1 < bpow radix2 971) by (change 1 with (bpow radix2 0); apply bpow_lt; lia).
    replace (rnd d) with (fval x + ((rnd d - d) - (fval x - d))) by ring.
    eapply Rle_lt_trans; [apply Rabs_triang|]. unfold Rminus at 1.
    pose proof (Rabs_triang (rnd d - d) (- (fval x - d))) as T. rewrite Rabs_Ropp in T.
    replace (rnd d - d + - (fval x - d)) with (rnd d - d - (fval x - d)) in T by ring.
    replace (rnd d - d + - (fval x - d)) with (rnd d - d - (fval x - d)) by ring. lra. }
  pose proof (f_ofdec_correct s p (- Z.of_nat n)) as C. fold d in C. rewrite Rlt_bool_true in C by exact Hb.
  destruct C as (y & Ey & Hv & Hfy & Hsy & Hvy). exists y. repeat split; auto.
  destruct (f_fmtd_rhe n y Hfy) as (m' & Em & HR'). rewrite Em, Hsy. f_equal.
  apply (rhe_unique (Rabs (fval y) * 10 ^ n)); [exact HR'|].
  apply (rhe_closer (Rabs (fval x) * 10 ^ n)); [exact HR|]. cbn [Z.of_N].
  rewrite <- Hxd.
  assert (Hyv : fval y = sg * Rabs (fval y)) by (unfold sg; rewrite <- Hsy; apply fval_sign; exact Hfy).
  assert (Hyd : Rabs (fval y - d) * 10 ^ n = Rabs (Rabs (fval y) * 10 ^ n - IZR (Zpos p))).
  { rewrite Hyv, Hd at 1. rewrite <- (Rabs_right (10 ^ n)) at 2 by lra. rewrite <- Rabs_mult.
    replace ((sg * Rabs (fval y) - sg * (IZR (Zpos p) / 10 ^ n)) * 10 ^ n) with (sg * (Rabs (fval y) * 10 ^ n - IZR (Zpos p))) by (field; lra).
    rewrite Rabs_mult, Hsg, Rmult_1_l. reflexivity. }
  rewrite <- Hyd. apply Rmult_le_compat_r; [lra|]. rewrite Hvy. exact HN.
Qed.
