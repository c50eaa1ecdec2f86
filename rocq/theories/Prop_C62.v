(** C62: copies around a circle. *)
From Coq Require Import List ZArith Bool Reals Lra Lia.
From Verif Require Import Num RealNum RealTrig PathModel DrawModel SegOps TransformsModel SvgParse Bezier GeomTransforms PathSpec GeomSpec PathProofs PrecisionProofs SvgProofs BezierProofs GeomProofs AffineProofs HandleProofs RotateProofs Prop_C14 Prop_C38 Prop_C50 Prop_C54 Components CompProofs Prop_C60 Prop_C61.
Import ListNotations.
Local Open Scope R_scope.

(** the point k n-ths of a full turn around the circle, from straight up (y grows downwards) and turning to the right *)
Definition onCircle (cx cy rho n k : R) : Pt RNum := pnt (cx + rho * sin (2 * PI * k / n)) (cy - rho * cos (2 * PI * k / n)).
(** a number with at most [prec] decimals *)
Definition decimals (prec : nat) (x : R) : Prop := exists z : Z, x * 10 ^ prec = IZR z.

Lemma Rround_he_int z : (0 <= z)%Z -> Rround_he (IZR z) = Z.to_N z.
Proof.
  intros H. assert (0 <= IZR z) by (apply (IZR_le 0); exact H). pose proof (Rround_he_spec (IZR z) H0) as B. rewrite <- minus_IZR, <- abs_IZR in B. assert (B' : (Z.abs (z - Z.of_N (Rround_he (IZR z))) < 1)%Z) by (apply lt_IZR; lra). lia.
Qed.
Lemma readback_decimals prec x : decimals prec x -> readback (N := RNum) prec (Fin x) = Some (Fin x).
Proof.
  intros (z & Hz). assert (P10 : 0 < 10 ^ prec) by (apply pow_lt; lra). unfold readback. cbn [fmtd RNum er_fmtd ofdec]. unfold er_ofdec. do 2 f_equal.
  assert (E : Rabs x * 10 ^ prec = IZR (Z.abs z)) by (rewrite <- (Rabs_pos_eq (10 ^ prec)) by lra; rewrite <- Rabs_mult, Hz, abs_IZR; reflexivity).
  rewrite E, Rround_he_int by lia. replace (Z.of_N (Z.to_N (Z.abs z))) with (Z.abs z) by lia. rewrite <- E.
  assert (G : powerRZ 10 (- Z.of_nat prec) = / 10 ^ prec) by (destruct prec; [cbn; field|]; cbn [Z.of_nat Z.opp powerRZ]; rewrite SuccNat2Pos.id_succ; reflexivity). rewrite G. transitivity ((if Rltb x 0 then -1 else 1) * Rabs x); [field; lra|].
  destruct (Rltb_spec x 0); [rewrite Rabs_left by lra; ring|rewrite Rabs_pos_eq by lra; ring].
Qed.
Lemma pointAttr_decimals prec cx cy : decimals prec cx -> decimals prec cy -> pointAttr prec (pnt cx cy) = APoint (pnt cx cy).
Proof. intros Hx Hy. unfold pointAttr. cbn [px py pnt]. rewrite !ToFloat64_fmt, !readback_decimals by assumption. rewrite NewPoint_fin. reflexivity. Qed.

Lemma rotAbout_motion d cx cy q : affPt (rotAbout d cx cy) q = motion (cos (d * PI / 180)) (sin (d * PI / 180)) (cx - cx * cos (d * PI / 180) + cy * sin (d * PI / 180)) (cy - cx * sin (d * PI / 180) - cy * cos (d * PI / 180)) q.
Proof. unfold affPt, affX, affY, motion, rotAbout. cbn. unfold pnt. f_equal; f_equal; ring. Qed.

Section Around.
Variables (bm : BMath RNum) (fuel prec : nat) (n : nat) (rho cx cy : R) (f : R -> path RNum).
Hypotheses (Hn : (0 < n)%nat) (Hr : 0 < rho).
Let co := BezierOps RTrig bm fuel.
Let len := 2 * rho * sin (PI / INR n).
Let S := onCircle cx cy rho (INR n) (-1 / 2).
Lemma INRn : 1 <= INR n. Proof. apply (le_INR 1). lia. Qed.
Lemma sin_n : 0 <= sin (PI / INR n).
Proof.
  pose proof INRn. pose proof PI_RGT_0. apply sin_ge_0; [apply Rlt_le, Rdiv_lt_0_compat; lra|]. apply (Rmult_le_reg_r (INR n)); [lra|]. unfold Rdiv. rewrite Rmult_assoc, Rinv_l by lra. nra.
Qed.
Lemma start_fin : send (NewLineSegmentAngle RTrig (pnt cx cy) (Fin rho : T RNum) (Fin (- (360 / INR n / 2) - 90))) = S.
Proof.
  pose proof INRn. unfold NewLineSegmentAngle, DegreesToRadians. cbn [send px py pnt npi RTrig]. fin. rewrite fdiv by lra. fin. cbn [nsin ncos RTrig er_sin er_cos]. fin. rewrite NewPoint_fin. unfold S, onCircle.
  replace (PI / 180 * (- (360 / INR n / 2) - 90)) with (2 * PI * (-1 / 2) / INR n - PI / 2) by (field; lra). rewrite sin_minus, cos_minus, sin_PI2, cos_PI2. unfold pnt. f_equal; f_equal; ring.
Qed.
Lemma end_fin : send (NewLineSegmentAngle RTrig (pnt cx cy) (Fin rho : T RNum) (Fin (360 / INR n / 2 - 90))) = onCircle cx cy rho (INR n) (1 / 2).
Proof.
  pose proof INRn. unfold NewLineSegmentAngle, DegreesToRadians. cbn [send px py pnt npi RTrig]. fin. rewrite fdiv by lra. fin. cbn [nsin ncos RTrig er_sin er_cos]. fin. rewrite NewPoint_fin. unfold onCircle.
  replace (PI / 180 * (360 / INR n / 2 - 90)) with (2 * PI * (1 / 2) / INR n - PI / 2) by (field; lra). rewrite sin_minus, cos_minus, sin_PI2, cos_PI2. unfold pnt. f_equal; f_equal; ring.
Qed.
Lemma half k : 2 * PI * (k / 2) / INR n = k * (PI / INR n). Proof. pose proof INRn. field. lra. Qed.
Lemma length_n : LineLength S (onCircle cx cy rho (INR n) (1 / 2)) = Fin len.
Proof.
  unfold S, onCircle. rewrite !half. replace (-1 * (PI / INR n)) with (- (PI / INR n)) by ring. rewrite Rmult_1_l, sin_neg, cos_neg, length_fin. unfold dist. f_equal.
  replace ((cx + rho * sin (PI / INR n) - (cx + rho * - sin (PI / INR n))) ^ 2 + (cy - rho * cos (PI / INR n) - (cy - rho * cos (PI / INR n))) ^ 2) with (len * len) by (unfold len; ring).
  apply sqrt_square. pose proof sin_n. unfold len. nra.
Qed.
Definition placed (ax ay : R) (i : nat) (q : Pt RNum) : Pt RNum := affPt (affComp (rotAbout (360 / INR n * INR i) ax ay) (diag 1 1 (X S) (Y S))) q.
Lemma Around_ok ax ay : pointAttr prec (pnt cx cy) = APoint (pnt ax ay) -> Forall tame (f len) -> f len <> [] ->
  exists q, Around co RTrig prec (fun l _ => Ok (f (val l))) (Z.of_nat n) (Fin rho) (pnt cx cy) = Ok q /\
    drawn q = flat_map (fun i => map (carried (placed ax ay i)) (drawn (f len))) (seq 0 n).
Proof.
  intros EA HT HN. pose proof INRn. assert (F : Forall finiteSeg (f len)) by (apply Forall_tame_finite; exact HT).
  unfold Around. destruct (Z.eqb_spec (Z.of_nat n) 0); [lia|]. fin. destruct (Reqb_spec rho 0); [lra|]. rewrite <- INR_IZR_INZ. unfold two. fin. rewrite !fdiv by lra. fin. rewrite start_fin, end_fin, length_n. cbn [val bind]. rewrite upto_nat, EA.
  set (cp := fun i => canon (map (affSeg (rotAbout (360 / INR n * IZR i) ax ay)) (shifted (X S) (Y S) (f len)))).
  rewrite (each_ok _ cp).
  - cbn [bind]. assert (EC : exists m, n = Datatypes.S m) by (destruct n; [lia|eauto]). destruct EC as (m & En).
    assert (K : forall i, cp i <> [] /\ Forall finiteSeg (cp i)).
    { intros i. split; [|apply canon_finite, map_finite]. unfold cp, shifted. destruct (f len) as [|[] r]; [congruence| | |]; discriminate. }
    rewrite En. cbn [seq map]. destruct (JoinPaths_finite (cp (Z.of_nat 0)) (map cp (map Z.of_nat (seq 1 m)))) as (q & E & D & _).
    { apply (Forall_map cp (fun q => q <> []) (Z.of_nat 0 :: map Z.of_nat (seq 1 m))). apply Forall_forall. intros c _. apply K. }
    { apply (Forall_map cp (Forall finiteSeg) (Z.of_nat 0 :: map Z.of_nat (seq 1 m))). apply Forall_forall. intros c _. apply K. }
    exists q. split; [exact E|]. rewrite D. change (cp (Z.of_nat 0) :: map cp (map Z.of_nat (seq 1 m))) with (map cp (map Z.of_nat (seq 0 (Datatypes.S m)))). change (0%nat :: seq 1 m) with (seq 0 (Datatypes.S m)). rewrite <- En, !map_map, <- flat_map_concat_map. apply flat_map_ext. intros i. unfold cp. rewrite canon_drawn, drawn_map_aff. unfold shifted. rewrite canon_drawn, drawn_map_aff, map_map.
    apply map_ext. intros g. rewrite affSeg_comp, affSeg_carried. unfold placed. rewrite <- INR_IZR_INZ. reflexivity.
  - intros i _. cbn [bind]. rewrite (MoveT_shift co S AOrigin (f len) (pnt 0 0) (finitePt_pnt _ _) (finitePt_pnt _ _)) by (apply attr_origin; [apply BezierOps_boxOk|exact HT]).
    cbn [bind]. rewrite !pnt_X, !pnt_Y, !Rminus_0_r, Shift_canon by exact F. fold (shifted (X S) (Y S) (f len)). fin. rewrite (RotateT_mapPoints co _ _ _ (pnt ax ay)).
    + rewrite pnt_X, pnt_Y. reflexivity.
    + apply canon_finite, map_finite.
    + apply finitePt_pnt.
    + reflexivity.
Qed.
Lemma placed_along i : (exists u v, forall q, placed cx cy i q = motion (cos (2 * PI * INR i / INR n)) (sin (2 * PI * INR i / INR n)) u v q) /\
  placed cx cy i (pnt 0 0) = onCircle cx cy rho (INR n) (INR i - 1 / 2) /\ placed cx cy i (pnt len 0) = onCircle cx cy rho (INR n) (INR i + 1 / 2).
Proof.
  pose proof INRn as N1. assert (M : forall q, placed cx cy i q = affPt (rotAbout (360 / INR n * INR i) cx cy) (pnt (X q + X S) (Y q + Y S))).
  { intros q. unfold placed. rewrite <- affPt_comp. f_equal. unfold affPt. rewrite diag_X, diag_Y, !Rmult_1_l. reflexivity. }
  assert (T : 360 / INR n * INR i * PI / 180 = 2 * PI * INR i / INR n) by (field; lra).
  assert (P : 2 * PI * (INR i - 1 / 2) / INR n = 2 * PI * INR i / INR n - PI / INR n) by (field; lra). assert (Q : 2 * PI * (INR i + 1 / 2) / INR n = 2 * PI * INR i / INR n + PI / INR n) by (field; lra).
  assert (XS : X S = cx - rho * sin (PI / INR n)) by (unfold S, onCircle; rewrite half, pnt_X; replace (-1 * (PI / INR n)) with (- (PI / INR n)) by ring; rewrite sin_neg; ring).
  assert (YS : Y S = cy - rho * cos (PI / INR n)) by (unfold S, onCircle; rewrite half, pnt_Y; replace (-1 * (PI / INR n)) with (- (PI / INR n)) by ring; rewrite cos_neg; ring).
  split; [|split].
  - set (t := 2 * PI * INR i / INR n) in *. exists (cos t * X S - sin t * Y S + (cx - cx * cos t + cy * sin t)), (sin t * X S + cos t * Y S + (cy - cx * sin t - cy * cos t)).
    intros q. rewrite M, rotAbout_motion, T. unfold motion. rewrite !pnt_X, !pnt_Y. unfold pnt. f_equal; f_equal; ring.
  - rewrite M, rotAbout_motion, T. unfold motion, onCircle. rewrite !pnt_X, !pnt_Y, P, sin_minus, cos_minus, XS, YS. unfold pnt. f_equal; f_equal; ring.
  - rewrite M, rotAbout_motion, T. unfold motion, onCircle. rewrite !pnt_X, !pnt_Y, Q, sin_plus, cos_plus, XS, YS. unfold len, pnt. f_equal; f_equal; ring.
Qed.
End Around.

(** n copies of what the component draws for the variable around__length, the i-th one turned by i n-ths of a full turn; where the drawing has (0,0) and where it
    has (around__length, 0), each copy touches the circle, and the end of each copy is the start of the next, also of the first after the last.
    Full claim: for every centre.  Missing: centres that are not decimals with [prec] places, for which it is false (below). *)
Theorem C62_ring_partial bm fuel prec (n : nat) rho cx cy f : (0 < n)%nat -> 0 < rho -> decimals prec cx -> decimals prec cy ->
  let len := 2 * rho * sin (PI / INR n) in
  Forall tame (f len) -> f len <> [] ->
  exists q m, Around (BezierOps RTrig bm fuel) RTrig prec (fun l _ => Ok (f (val l))) (Z.of_nat n) (Fin rho) (pnt cx cy) = Ok q /\
    drawn q = flat_map (fun i => map (carried (m i)) (drawn (f len))) (seq 0 n) /\
    (forall i, (exists u v, forall z, m i z = motion (cos (2 * PI * INR i / INR n)) (sin (2 * PI * INR i / INR n)) u v z) /\
      m i (pnt 0 0) = onCircle cx cy rho (INR n) (INR i - 1 / 2) /\ m i (pnt len 0) = onCircle cx cy rho (INR n) (INR i + 1 / 2)) /\
    (forall i, m i (pnt len 0) = m (S i) (pnt 0 0)) /\ m (n - 1)%nat (pnt len 0) = m 0%nat (pnt 0 0).
Proof.
  intros Hn Hr Dx Dy. cbv zeta. intros HT HN. destruct (Around_ok bm fuel prec n rho cx cy f Hn Hr cx cy (pointAttr_decimals _ _ _ Dx Dy) HT HN) as (q & E & D).
  exists q, (placed n rho cx cy cx cy). pose proof (INRn n Hn) as N1. split; [exact E|]. split; [exact D|]. split; [intros i; apply placed_along; exact Hn|]. split.
  - intros i. destruct (placed_along n rho cx cy Hn i) as (_ & _ & ->). destruct (placed_along n rho cx cy Hn (S i)) as (_ & -> & _). rewrite S_INR. unfold onCircle. replace (INR i + 1 - 1 / 2) with (INR i + 1 / 2) by field. reflexivity.
  - destruct (placed_along n rho cx cy Hn (n - 1)) as (_ & _ & ->). destruct (placed_along n rho cx cy Hn 0) as (_ & -> & _). rewrite minus_INR by lia. cbn [INR]. unfold onCircle.
    replace (2 * PI * (INR n - 1 + 1 / 2) / INR n) with (2 * PI * (0 - 1 / 2) / INR n + 2 * PI) by (field; lra). rewrite sin_plus, cos_plus, sin_2PI, cos_2PI. unfold pnt. f_equal; f_equal; ring.
Qed.
(** the points of a full turn of the circle are at its radius from the centre *)
Lemma onCircle_radius cx cy rho n k : (X (onCircle cx cy rho n k) - cx) ^ 2 + (Y (onCircle cx cy rho n k) - cy) ^ 2 = rho ^ 2.
Proof. unfold onCircle. rewrite pnt_X, pnt_Y. pose proof (sin2_cos2 (2 * PI * k / n)) as E. unfold Rsqr in E. nra. Qed.

(** ** a centre with more decimals than the precision *)
(** the copies are turned about the centre as it reads back from its text, rounded: with centre (0.0004, 0) and three decimals the second of two copies starts
    at x = 0.9996 although the circle around the centre through the first copy's end is at x = 1.0004 *)
Lemma readback_0 : readback (N := RNum) 3 (Fin (4 / 10000)) = Some (Fin 0).
Proof.
  unfold readback. cbn [fmtd RNum er_fmtd ofdec]. unfold er_ofdec. do 2 f_equal. rewrite Rabs_pos_eq by lra.
  assert (B : Rround_he (4 / 10000 * 10 ^ 3) = 0%N).
  { pose proof (Rround_he_spec (4 / 10000 * 10 ^ 3) ltac:(lra)) as B. set (r := Rround_he _) in *. clearbody r.  assert (B1 : IZR (Z.of_N r) < 1) by (unfold Rabs in B; destruct (Rcase_abs _); lra). apply lt_IZR in B1. lia. }
  rewrite B. cbn. ring.
Qed.
Lemma bar_tame w : Rabs w < 2 ^ 61 -> Forall tame (bar w).
Proof. intros H. apply Forall_inside_tame with (b := 2 ^ 61); [lra|]. apply bar_level; exact H. Qed.
Lemma copy0 ax q : placed 2 1 (4 / 10000) 0 ax 0 0 q = pnt (X q - 9996 / 10000) (Y q).
Proof.
  unfold placed. rewrite <- affPt_comp, rotAbout_motion. cbn [INR]. replace (360 / (1 + 1) * 0 * PI / 180) with 0 by field. rewrite sin_0, cos_0. unfold motion, affPt. rewrite !pnt_X, !pnt_Y, diag_X, diag_Y. unfold onCircle. rewrite !pnt_X, !pnt_Y.
  replace (2 * PI * (-1 / 2) / (1 + 1)) with (- (PI / 2)) by field. rewrite sin_neg, cos_neg, sin_PI2, cos_PI2. unfold pnt. f_equal; f_equal; field.
Qed.
Lemma copy1 q : placed 2 1 (4 / 10000) 0 0 0 1 q = pnt (9996 / 10000 - X q) (- Y q).
Proof.
  unfold placed. rewrite <- affPt_comp, rotAbout_motion. cbn [INR]. replace (360 / (1 + 1) * 1 * PI / 180) with PI by field. rewrite sin_PI, cos_PI. unfold motion, affPt. rewrite !pnt_X, !pnt_Y, diag_X, diag_Y. unfold onCircle. rewrite !pnt_X, !pnt_Y.
  replace (2 * PI * (-1 / 2) / (1 + 1)) with (- (PI / 2)) by field. rewrite sin_neg, cos_neg, sin_PI2, cos_PI2. unfold pnt. f_equal; f_equal; field.
Qed.
Theorem C62_centre_refuted : forall bm fuel, exists q, Around (BezierOps RTrig bm fuel) RTrig 3 (fun l _ => Ok (bar (val l))) 2 (Fin 1) (pnt (4 / 10000) 0) = Ok q /\
  drawn q = [Line (pnt (-9996 / 10000) 0) (pnt (10004 / 10000) 0); Line (pnt (9996 / 10000) 0) (pnt (-10004 / 10000) 0)].
Proof.
  intros bm fuel. destruct (Around_ok bm fuel 3 2 1 (4 / 10000) 0 bar ltac:(lia) ltac:(lra) 0 0) as (q & E & D).
  - unfold pointAttr. cbn [px py pnt]. rewrite !ToFloat64_fmt, readback_0, readback_decimals by (exists 0%Z; ring). rewrite NewPoint_fin. reflexivity.
  - apply bar_tame. cbn [INR]. replace (PI / (1 + 1)) with (PI / 2) by reflexivity. rewrite sin_PI2. apply Rabs_def1; lra.
  - discriminate.
  - exists q. split; [exact E|]. rewrite D. cbn [INR]. replace (PI / (1 + 1)) with (PI / 2) by reflexivity. rewrite sin_PI2. unfold bar. cbn [seq flat_map drawn filter map carried app].
    rewrite !copy0, !copy1, !pnt_X, !pnt_Y. unfold pnt. repeat (f_equal; try lra).
Qed.

(** ** the number of the copy *)
(** the component is told that it is copy 0 every time, although the copies are documented to be numbered from 0 to num_edges - 1: a component that
    draws a bar as copy 0 and nothing of the kind as any other copy is drawn as a bar twice *)
Theorem C62_index_refuted : forall bm fuel, exists q, Around (BezierOps RTrig bm fuel) RTrig 3 (fun l i => if Z.eqb i 0 then Ok (bar (val l)) else Ok hook) 2 (Fin 1) (pnt 0 0) = Ok q /\
  map (@sstart RNum) (drawn q) = [pnt (-1) 0; pnt 1 0] /\ map (@send RNum) (drawn q) = [pnt 1 0; pnt (-1) 0].
Proof.
  intros bm fuel. assert (S2 : 2 * 1 * sin (PI / INR 2) = 2) by (cbn [INR]; replace (PI / (1 + 1)) with (PI / 2) by reflexivity; rewrite sin_PI2; ring).
  destruct (C62_ring_partial bm fuel 3 2 1 0 0 bar) as (q & m & E & D & M & _ & _); try lra; try lia; try (exists 0%Z; ring); rewrite ?S2; [apply bar_tame, Rabs_def1; lra|discriminate|].
  exists q. split; [exact E|]. rewrite S2 in *. rewrite D. cbn [seq flat_map map bar drawn filter app carried sstart send].
  destruct (M 0%nat) as (_ & -> & ->). destruct (M 1%nat) as (_ & -> & ->). unfold onCircle. cbn [INR].
  replace (2 * PI * (0 - 1 / 2) / (1 + 1)) with (- (PI / 2)) by field. replace (2 * PI * (0 + 1 / 2) / (1 + 1)) with (PI / 2) by field. replace (2 * PI * (1 - 1 / 2) / (1 + 1)) with (PI / 2) by field. replace (2 * PI * (1 + 1 / 2) / (1 + 1)) with (3 * (PI / 2)) by field.
  rewrite sin_neg, cos_neg, sin_PI2, cos_PI2, cos_3PI2, sin_3PI2. unfold pnt. split; repeat (f_equal; try lra).
Qed.
(** a negative number of copies is not an error, the rendering stops the program *)
Theorem C62_negative_refuted : forall bm fuel, Around (BezierOps RTrig bm fuel) RTrig 3 (fun l _ => Ok (bar (val l))) (-3) (Fin 1) (pnt 0 0) = Panic.
Proof. intros. unfold Around. cbn [Z.eqb]. fin. destruct (Reqb_spec 1 0); [lra|]. reflexivity. Qed.

(** a ring of four zigzags *)
Example C62_example bm fuel : exists q m, Around (BezierOps RTrig bm fuel) RTrig 3 (fun l _ => Ok zig) 4 (Fin 5) (pnt (3 / 2) (-1)) = Ok q /\
  length (drawn q) = 8%nat /\ drawn q = flat_map (fun i => map (carried (m i)) (drawn zig)) [0; 1; 2; 3]%nat /\ forall i, m i (pnt 0 0) = onCircle (3 / 2) (-1) 5 (INR 4) (INR i - 1 / 2).
Proof.
  destruct (C62_ring_partial bm fuel 3 4 5 (3 / 2) (-1) (fun _ => zig)) as (q & m & E & D & M & _ & _); try lra; try lia.
  - exists 1500%Z. lra.
  - exists (-1000)%Z. lra.
  - apply Forall_inside_tame with (b := 2 ^ 61); [lra|]. nears.
  - discriminate.
  - exists q, m. split; [exact E|]. split; [rewrite D; reflexivity|]. split; [exact D|]. intros i. apply M.
Qed.
