(** C16, continued: scaling to a size in binary64. *)
From Coq Require Import List ZArith Bool Lia Reals Lra Psatz.
From Coq.Floats Require Import SpecFloat.
From Flocq Require Import Core.
From Flocq.IEEE754 Require BinarySingleNaN.
From Verif Require Import Num NumLaws FloatNum RealNum PrecisionProofs IeeeProofs IeeeArith RelError BinPackFloat.
From Verif Require Import PathModel SegOps Bezier GeomTransforms PathSpec PathProofs GeomSpec BezierProofs GeomProofs AffineProofs RealTrig RootsProofs FloatGeom Witness.
Import ListNotations.
Local Open Scope R_scope.

Lemma abs_val (x : T FNum) : gofin x -> gofin (@nabs FNum x) /\ #(@nabs FNum x) = Rabs (#x).
Proof.
  intros [G1 G2]. change (@nabs FNum x) with (SFabs x). assert (P : forall m e, 0 < IZR (Zpos m) * powerRZ 2 e) by (intros m e; apply Rmult_lt_0_compat; [apply IZR_lt; lia|apply powerRZ_lt; lra]).
  destruct x as [[]|[]| |[] m e]; try discriminate; (split; [split; [exact G1|exact G2]|]); unfold fval; cbn [SFabs]; rewrite ?Rabs_R0; try reflexivity; specialize (P m e); [rewrite Rabs_left|rewrite Rabs_pos_eq]; lra.
Qed.
Lemma pos_tests (x : T FNum) : gofin x -> 0 < #x -> gtb x zero = true /\ leb x zero = false.
Proof.
  intros G P. unfold gtb. rewrite ltb_R by (exact gofin_zero || exact G). change (#(@zero FNum)) with 0. rewrite Rlt_bool_true by exact P. split; [reflexivity|].
  destruct G as [G1 G2]. destruct x as [s|s| |s m e]; try discriminate; [unfold fval in P; lra|]. destruct s; [|reflexivity]. exfalso. unfold fval in P. assert (0 < IZR (Zpos m) * powerRZ 2 e) by (apply Rmult_lt_0_compat; [apply IZR_lt; lia|apply powerRZ_lt; lra]). lra.
Qed.
Lemma neg_tests (x : T FNum) : gofin x -> #x <= 0 -> gtb x zero = false /\ leb x zero = true.
Proof.
  intros G P. unfold gtb. rewrite ltb_R by (exact gofin_zero || exact G). change (#(@zero FNum)) with 0. rewrite Rlt_bool_false by exact P. split; [reflexivity|].
  destruct G as [G1 G2]. destruct x as [s|s| |s m e]; try discriminate; [reflexivity|]. destruct s; [reflexivity|]. exfalso. unfold fval in P. assert (0 < IZR (Zpos m) * powerRZ 2 e) by (apply Rmult_lt_0_compat; [apply IZR_lt; lia|apply powerRZ_lt; lra]). lra.
Qed.

(** sizes that neither overflow nor underflow *)
Definition usual (w : R) : Prop := bpow radix2 (-500) <= w <= bpow radix2 500.
Lemma usual_div a b : usual a -> usual b -> bpow radix2 (-1000) <= a / b <= bpow radix2 1000.
Proof.
  intros [A1 A2] [B1 B2]. pose proof (bpow_gt_0 radix2 (-500)) as P1. pose proof (bpow_gt_0 radix2 500) as P2. assert (E : bpow radix2 (-500) = / bpow radix2 500) by apply (bpow_opp radix2 500).
  assert (S1 : bpow radix2 1000 = bpow radix2 500 * bpow radix2 500) by apply (bpow_plus radix2 500 500). assert (S2 : bpow radix2 (-1000) = bpow radix2 (-500) * bpow radix2 (-500)) by apply (bpow_plus radix2 (-500) (-500)).
  assert (I1 : / b <= bpow radix2 500) by (rewrite <- (Rinv_inv (bpow radix2 500)), <- E; apply Rinv_le_contravar; lra).
  assert (I2 : bpow radix2 (-500) <= / b) by (rewrite E; apply Rinv_le_contravar; lra).
  unfold Rdiv. rewrite S1, S2. split; apply Rmult_le_compat; lra.
Qed.
Lemma factor_near (W c : T FNum) w : gofin W -> gofin c -> usual (#W) -> usual w -> #c = rnd w ->
  gofin (@div FNum W c) /\ 0 <= #(@div FNum W c) /\ Rabs (#(@div FNum W c) - #W / w) <= 3 * u64 * (#W / w).
Proof.
  intros GW Gc UW Uw Ec. pose proof u64_small as US. pose proof (bpow_gt_0 radix2 (-500)) as P1. destruct (usual_div _ _ UW Uw) as [Q1 Q2].
  assert (BM : forall n, bpow radix2 (n + 1) = 2 * bpow radix2 n) by (intros n; rewrite bpow_plus; change (bpow radix2 1) with 2; ring).
  destruct (rnd_rel w) as (d1 & D1 & E1). { rewrite Rabs_pos_eq by (destruct Uw; lra). destruct Uw as [U1 _]. eapply Rle_trans; [|exact U1]. apply bpow_le. lia. }
  apply abs_le in D1. set (z := #W / w) in *. assert (W0 : 0 < w) by (destruct Uw; lra). assert (Z0 : 0 < z) by (pose proof (bpow_gt_0 radix2 (-1000)); lra).
  assert (EZ : #W / #c = z * / (1 + d1)) by (rewrite Ec, E1; unfold z; field; lra).
  assert (I1 : / (1 + d1) <= 2) by (replace 2 with (/ (1 / 2)) by field; apply Rinv_le_contravar; lra). assert (I2 : 1 / 2 <= / (1 + d1)) by (replace (1 / 2) with (/ 2) by field; apply Rinv_le_contravar; lra).
  assert (B1 : bpow radix2 (-1001) <= z * / (1 + d1)) by (pose proof (BM (-1001)%Z) as X; change (-1001 + 1)%Z with (-1000)%Z in X; nra).
  assert (B2 : z * / (1 + d1) <= bpow radix2 1001) by (pose proof (BM 1000%Z) as X; change (1000 + 1)%Z with 1001%Z in X; nra).
  assert (AB : Rabs (#W / #c) = z * / (1 + d1)) by (rewrite EZ; apply Rabs_pos_eq; nra).
  assert (C0 : #c <> 0) by (rewrite Ec, E1; apply Rgt_not_eq; nra).
  destruct (div_near 1001 W c ltac:(lia) GW Gc C0 ltac:(rewrite AB; exact B2)) as (G & _ & E). split; [exact G|].
  destruct (rnd_rel (#W / #c)) as (d2 & D2 & E2). { rewrite AB. eapply Rle_trans; [|exact B1]. apply bpow_le. lia. }
  apply abs_le in D2. assert (EF : #(@div FNum W c) = z * / (1 + d1) * (1 + d2)) by (rewrite E, E2, EZ; reflexivity). split; [rewrite EF; apply Rmult_le_pos; nra|].
  replace (#(@div FNum W c) - z) with (z * ((d2 - d1) * / (1 + d1))) by (rewrite EF; field; lra).
  rewrite Rabs_mult, (Rabs_pos_eq z) by lra. replace (3 * u64 * z) with (z * (3 * u64)) by ring. apply Rmult_le_compat_l; [lra|].
  rewrite Rabs_mult, (Rabs_pos_eq (/ (1 + d1))) by lra. assert (I3 : / (1 + d1) <= 3 / 2) by (replace (3 / 2) with (/ (2 / 3)) by field; apply Rinv_le_contravar; lra).
  replace (3 * u64) with (2 * u64 * (3 / 2)) by field. apply Rmult_le_compat; [apply Rabs_pos|lra|apply Rabs_le; lra|exact I3].
Qed.
(** multiplying a straight drawing by factors near kx, ky *)
Lemma scale_straight e (sx sy : T FNum) kx ky (p : path FNum) tl br : (-1019 <= e <= 1023)%Z -> gofin sx -> gofin sy -> 0 <= #sx -> 0 <= #sy -> 0 <= kx -> 0 <= ky ->
  Rabs (#sx - kx) <= 3 * u64 * kx -> Rabs (#sy - ky) <= 3 * u64 * ky -> Forall straight (drawn p) -> tightBox (inDrawing (map realSeg p)) tl br ->
  (forall x y, inDrawing (map realSeg p) x y -> Rabs (kx * x) <= bpow radix2 (e - 1) /\ Rabs (ky * y) <= bpow radix2 (e - 1)) ->
  let p' := mapPoints (fun q => NewPoint (@mul FNum (px q) sx) (@mul FNum (py q) sy)) p in
  exists tl' br', tightBox (inDrawing (map realSeg p')) tl' br' /\ Rabs (X br' - X tl' - kx * (X br - X tl)) <= 8 * half_ulp e /\ Rabs (Y br' - Y tl' - ky * (Y br - Y tl)) <= 8 * half_ulp e /\
    Forall2 (follows (4 * half_ulp e) (fun x _ => kx * x) (fun _ y => ky * y)) (drawn p) (drawn p').
Proof.
  intros He Gx Gy Px Py Kx Ky Nx Ny F TB H p'. pose proof u64_small as US. apply abs_le in Nx, Ny.
  assert (BE : bpow radix2 e = 2 * bpow radix2 (e - 1)) by (replace e with (1 + (e - 1))%Z at 1 by lia; rewrite bpow_plus; reflexivity). pose proof (bpow_gt_0 radix2 (e - 1)) as BP.
  assert (UH : u64 * bpow radix2 (e - 1) = half_ulp e). { unfold half_ulp. replace (e - 54)%Z with (-53 + (e - 1))%Z by lia. rewrite bpow_plus. f_equal. unfold u64. change (bpow radix2 (-53)) with (/ IZR (2 ^ 53)). f_equal. rewrite pow_IZR. reflexivity. }
  assert (ONE : forall s k x, 0 <= k -> - (3 * u64 * k) <= s - k <= 3 * u64 * k -> Rabs (k * x) <= bpow radix2 (e - 1) -> Rabs (x * s) <= bpow radix2 e /\ Rabs (rnd (x * s) - k * x) <= 4 * half_ulp e).
  { intros s k x K N B. assert (D : Rabs (x * s - k * x) <= 3 * half_ulp e).
    { replace (x * s - k * x) with (x * (s - k)) by ring. rewrite Rabs_mult. apply Rle_trans with (Rabs x * (3 * u64 * k)); [apply Rmult_le_compat_l; [apply Rabs_pos|apply Rabs_le; lra]|].
      rewrite Rabs_mult, (Rabs_pos_eq k) in B by exact K. rewrite <- UH. assert (0 <= u64) by lra. nra. }
    assert (B2 : Rabs (x * s) <= bpow radix2 e) by (assert (HL : 3 * half_ulp e <= bpow radix2 (e - 1)) by (rewrite <- UH; nra); apply abs_le in B, D; apply Rabs_le; lra).
    split; [exact B2|]. apply (rnd_near e) in B2; [|lia]. apply abs_le in B2, D. apply Rabs_le. lra. }
  assert (EP : everyPoint (fun q => goodPt (NewPoint (@mul FNum (px q) sx) (@mul FNum (py q) sy)) /\ realPt (NewPoint (@mul FNum (px q) sx) (@mul FNum (py q) sy)) = pnt (rnd (#(px q) * #sx)) (rnd (#(py q) * #sy))) p).
  { intros g q I1 I2. destruct (H _ _ (straight_point p g q F I1 I2)) as [B1 B2]. destruct (drawn_good p g q F I1 I2) as [G1 G2].
    destruct (ONE _ _ _ Kx Nx B1) as [M1 _], (ONE _ _ _ Ky Ny B2) as [M2 _]. destruct (mul_near e _ _ ltac:(lia) G1 Gx M1) as (A1 & _ & A2), (mul_near e _ _ ltac:(lia) G2 Gy M2) as (C1 & _ & C2).
    destruct (NewPoint_good _ _ A1 C1) as [N1 N2]. split; [exact N1|]. rewrite N2, A2, C2. reflexivity. }
  assert (TB1 : tightBox (inDrawing (map realSeg p)) (pnt (X tl) (Y tl)) (pnt (X br) (Y br))) by (pose proof TB as (F1 & F2 & _); rewrite <- (pnt_eta tl F1), <- (pnt_eta br F2); exact TB).
  assert (S2 : tightBox (inDrawing (map realSeg p')) (pnt (rnd (X tl * #sx)) (rnd (Y tl * #sy))) (pnt (rnd (X br * #sx)) (rnd (Y br * #sy)))).
  { apply (proj2 (mono_box (fun q => NewPoint (@mul FNum (px q) sx) (@mul FNum (py q) sy)) (fun x => rnd (x * #sx)) (fun y => rnd (y * #sy)) p _ _ _ _ F ltac:(intros u v Q; apply rnd_mono; nra) ltac:(intros u v Q; apply rnd_mono; nra) EP TB1)). }
  eexists. eexists. split; [exact S2|]. rewrite !pnt_X, !pnt_Y. destruct TB as (_ & _ & (_ & [y0 A1] & [y1 A2]) & (_ & [x0 A3] & [x1 A4])).
  destruct (H _ _ A1) as [Q1 _], (H _ _ A2) as [Q2 _], (H _ _ A3) as [_ Q3], (H _ _ A4) as [_ Q4].
  destruct (ONE _ _ _ Kx Nx Q1) as [_ Z1], (ONE _ _ _ Kx Nx Q2) as [_ Z2], (ONE _ _ _ Ky Ny Q3) as [_ Z3], (ONE _ _ _ Ky Ny Q4) as [_ Z4]. apply abs_le in Z1, Z2, Z3, Z4.
  split; [apply Rabs_le; lra|]. split; [apply Rabs_le; lra|].
  destruct (mapPoints_F (fun q => NewPoint (@mul FNum (px q) sx) (@mul FNum (py q) sy)) (mkAff kx 0 0 ky 0 0) (4 * half_ulp e) p) as [FO _].
  { intros g q I1 I2. destruct (EP g q I1 I2) as [N1 N2]. split; [exact N1|]. rewrite N2. unfold nearPt, affPt, realPt, affX, affY. rewrite !pnt_X, !pnt_Y. cbn [af_a af_b af_c af_d af_e af_f].
    destruct (H _ _ (straight_point p g q F I1 I2)) as [B1 B2]. destruct (ONE _ _ _ Kx Nx B1) as [_ M1], (ONE _ _ _ Ky Ny B2) as [_ M2].
    split; [replace (kx * #(px q) + 0 * #(py q) + 0) with (kx * #(px q)) by ring|replace (0 * #(px q) + ky * #(py q) + 0) with (ky * #(py q)) by ring]; assumption. }
  revert FO. apply Forall2_imp. apply follows_ext; intros x y; unfold affX, affY; cbn; ring.
Qed.

Lemma size_of (co : CurveOps FNum) (p : path FNum) tl br : Forall straight (drawn p) -> tightBox (inDrawing (map realSeg p)) tl br ->
  exists t b, BoundingBoxTrimWhitespace co p = Ok (t, b) /\
    (usual (X br - X tl) -> gofin (@nabs FNum (@Num.sub FNum (px b) (px t))) /\ #(@nabs FNum (@Num.sub FNum (px b) (px t))) = rnd (X br - X tl)) /\
    (usual (Y br - Y tl) -> gofin (@nabs FNum (@Num.sub FNum (py b) (py t))) /\ #(@nabs FNum (@Num.sub FNum (py b) (py t))) = rnd (Y br - Y tl)).
Proof.
  intros F TB. assert (Hd : drawn p <> []). { intros Q. destruct TB as (_ & _ & (_ & [y D] & _) & _). apply inDrawing_real in D as (g & I & _). rewrite Q in I. destruct I. }
  destruct (straight_box co (BezierOps RTrig RBMath 0) (BezierOps_boxOk RTrig RBMath 0) p F Hd) as (t & b & E & [G1 G2] & [G3 G4] & TB0). destruct (tightBox_unique _ _ _ _ _ TB TB0) as [-> ->].
  change (X (realPt t)) with (#(px t)) in *. change (Y (realPt t)) with (#(py t)) in *. change (X (realPt b)) with (#(px b)) in *. change (Y (realPt b)) with (#(py b)) in *. pose proof (bpow_gt_0 radix2 (-500)) as P0.
  exists t, b. split; [exact E|]. split; intros [U1 U2].
  - destruct (sub_near 500 _ _ ltac:(lia) G3 G1 ltac:(rewrite Rabs_pos_eq; lra)) as (D1 & _ & D2). destruct (abs_val _ D1) as [A1 A2]. split; [exact A1|]. rewrite A2, D2. apply Rabs_pos_eq, rnd_ge0. lra.
  - destruct (sub_near 500 _ _ ltac:(lia) G4 G2 ltac:(rewrite Rabs_pos_eq; lra)) as (D1 & _ & D2). destruct (abs_val _ D1) as [A1 A2]. split; [exact A1|]. rewrite A2, D2. apply Rabs_pos_eq, rnd_ge0. lra.
Qed.

(** Both sizes given: a straight drawing, whatever its size and place, gets the sizes asked for up to eight roundings of coordinates of 2^e, if it stays within 2^(e-1). *)
Theorem C16_binary64 (co : CurveOps FNum) (e : Z) (k l W H : T FNum) (a b : Pt FNum) (p : path FNum) tl br : (-1019 <= e <= 1023)%Z -> Forall straight (drawn p) -> tightBox (inDrawing (map realSeg p)) tl br ->
  usual (X br - X tl) -> usual (Y br - Y tl) -> gofin W -> gofin H -> usual (#W) -> usual (#H) ->
  (forall x y, inDrawing (map realSeg p) x y -> Rabs (#W / (X br - X tl) * x) <= bpow radix2 (e - 1) /\ Rabs (#H / (Y br - Y tl) * y) <= bpow radix2 (e - 1)) ->
  exists p' tl' br', ScaleT co (@mkScale FNum k l a b W H) p = Ok p' /\ tightBox (inDrawing (map realSeg p')) tl' br' /\
    Rabs (X br' - X tl' - #W) <= 8 * half_ulp e /\ Rabs (Y br' - Y tl' - #H) <= 8 * half_ulp e /\
    Forall2 (follows (4 * half_ulp e) (fun x _ => #W / (X br - X tl) * x) (fun _ y => #H / (Y br - Y tl) * y)) (drawn p) (drawn p').
Proof.
  intros He F TB Uw Uh GW GH UW UH B. destruct (size_of co p tl br F TB) as (t & bb & E & SX & SY). destruct (SX Uw) as [G1 E1], (SY Uh) as [G2 E2].
  destruct (factor_near W _ _ GW G1 UW Uw E1) as (Fx & Px & Nx), (factor_near H _ _ GH G2 UH Uh E2) as (Fy & Py & Ny).
  pose proof (bpow_gt_0 radix2 (-500)) as P0. pose proof (bpow_gt_0 radix2 (-1000)) as P1. pose proof (usual_div _ _ UW Uw) as [Kx _]. pose proof (usual_div _ _ UH Uh) as [Ky _].
  destruct (scale_straight e _ _ (#W / (X br - X tl)) (#H / (Y br - Y tl)) p tl br He Fx Fy Px Py ltac:(lra) ltac:(lra) Nx Ny F TB B) as (tl' & br' & S1 & S2 & S3 & S4).
  eexists. exists tl', br'. split.
  - unfold ScaleT, scaleFactors. cbn [sc_w sc_h sc_x sc_y]. destruct (pos_tests W GW ltac:(destruct UW; lra)) as [T1 T2], (pos_tests H GH ltac:(destruct UH; lra)) as [T3 T4]. rewrite T1, T2, T3, E. cbn [orb bind]. reflexivity.
  - split; [exact S1|]. split; [|split; [|exact S4]]; [replace (#W) with (#W / (X br - X tl) * (X br - X tl)) at 1 by (field; destruct Uw; lra); exact S2|replace (#H) with (#H / (Y br - Y tl) * (Y br - Y tl)) at 1 by (field; destruct Uh; lra); exact S3].
Qed.
Print Assumptions C16_binary64.
(** Only the width given: the width is reached, and both directions get one factor. *)
Theorem C16_binary64_width (co : CurveOps FNum) (e : Z) (k l W H : T FNum) (a b : Pt FNum) (p : path FNum) tl br : (-1019 <= e <= 1023)%Z -> Forall straight (drawn p) -> tightBox (inDrawing (map realSeg p)) tl br ->
  usual (X br - X tl) -> gofin W -> gofin H -> usual (#W) -> #H <= 0 ->
  (forall x y, inDrawing (map realSeg p) x y -> Rabs (#W / (X br - X tl) * x) <= bpow radix2 (e - 1) /\ Rabs (#W / (X br - X tl) * y) <= bpow radix2 (e - 1)) ->
  exists p' tl' br', ScaleT co (@mkScale FNum k l a b W H) p = Ok p' /\ tightBox (inDrawing (map realSeg p')) tl' br' /\
    Rabs (X br' - X tl' - #W) <= 8 * half_ulp e /\ Rabs (Y br' - Y tl' - #W / (X br - X tl) * (Y br - Y tl)) <= 8 * half_ulp e /\
    Forall2 (follows (4 * half_ulp e) (fun x _ => #W / (X br - X tl) * x) (fun _ y => #W / (X br - X tl) * y)) (drawn p) (drawn p').
Proof.
  intros He F TB Uw GW GH UW UH B. destruct (size_of co p tl br F TB) as (t & bb & E & SX & _). destruct (SX Uw) as [G1 E1].
  destruct (factor_near W _ _ GW G1 UW Uw E1) as (Fx & Px & Nx).
  pose proof (bpow_gt_0 radix2 (-500)) as P0. pose proof (bpow_gt_0 radix2 (-1000)) as P1. pose proof (usual_div _ _ UW Uw) as [Kx _].
  destruct (scale_straight e _ _ (#W / (X br - X tl)) (#W / (X br - X tl)) p tl br He Fx Fx Px Px ltac:(lra) ltac:(lra) Nx Nx F TB B) as (tl' & br' & S1 & S2 & S3 & S4).
  eexists. exists tl', br'. split.
  - unfold ScaleT, scaleFactors. cbn [sc_w sc_h sc_x sc_y]. destruct (pos_tests W GW ltac:(destruct UW; lra)) as [T1 T2], (neg_tests H GH UH) as [T3 T4]. rewrite T1, T2, T3, E. cbn [orb bind]. reflexivity.
  - split; [exact S1|]. split; [|split; [exact S3|exact S4]]. replace (#W) with (#W / (X br - X tl) * (X br - X tl)) at 1 by (field; destruct Uw; lra). exact S2.
Qed.
Print Assumptions C16_binary64_width.
(** Only the height given. *)
Theorem C16_binary64_height (co : CurveOps FNum) (e : Z) (k l W H : T FNum) (a b : Pt FNum) (p : path FNum) tl br : (-1019 <= e <= 1023)%Z -> Forall straight (drawn p) -> tightBox (inDrawing (map realSeg p)) tl br ->
  usual (Y br - Y tl) -> gofin W -> gofin H -> #W <= 0 -> usual (#H) ->
  (forall x y, inDrawing (map realSeg p) x y -> Rabs (#H / (Y br - Y tl) * x) <= bpow radix2 (e - 1) /\ Rabs (#H / (Y br - Y tl) * y) <= bpow radix2 (e - 1)) ->
  exists p' tl' br', ScaleT co (@mkScale FNum k l a b W H) p = Ok p' /\ tightBox (inDrawing (map realSeg p')) tl' br' /\
    Rabs (X br' - X tl' - #H / (Y br - Y tl) * (X br - X tl)) <= 8 * half_ulp e /\ Rabs (Y br' - Y tl' - #H) <= 8 * half_ulp e /\
    Forall2 (follows (4 * half_ulp e) (fun x _ => #H / (Y br - Y tl) * x) (fun _ y => #H / (Y br - Y tl) * y)) (drawn p) (drawn p').
Proof.
  intros He F TB Uh GW GH UW UH B. destruct (size_of co p tl br F TB) as (t & bb & E & _ & SY). destruct (SY Uh) as [G2 E2].
  destruct (factor_near H _ _ GH G2 UH Uh E2) as (Fy & Py & Ny).
  pose proof (bpow_gt_0 radix2 (-500)) as P0. pose proof (bpow_gt_0 radix2 (-1000)) as P1. pose proof (usual_div _ _ UH Uh) as [Ky _].
  destruct (scale_straight e _ _ (#H / (Y br - Y tl)) (#H / (Y br - Y tl)) p tl br He Fy Fy Py Py ltac:(lra) ltac:(lra) Ny Ny F TB B) as (tl' & br' & S1 & S2 & S3 & S4).
  eexists. exists tl', br'. split.
  - unfold ScaleT, scaleFactors. cbn [sc_w sc_h sc_x sc_y]. destruct (neg_tests W GW UW) as [T1 T2], (pos_tests H GH ltac:(destruct UH; lra)) as [T3 T4]. rewrite T1, T2, T3, E. cbn [orb bind]. reflexivity.
  - split; [exact S1|]. split; [exact S2|]. split; [|exact S4]. replace (#H) with (#H / (Y br - Y tl) * (Y br - Y tl)) at 1 by (field; destruct Uh; lra). exact S3.
Qed.
Print Assumptions C16_binary64_height.
Lemma usual_8 m : (1 <= m <= 2 ^ 53)%Z -> usual (IZR m / 8).
Proof.
  intros Hm. split.
  - apply Rle_trans with (bpow radix2 (-3)); [apply bpow_le; lia|]. change (bpow radix2 (-3)) with (/ IZR 8). assert (1 <= IZR m) by (apply IZR_le; lia). lra.
  - apply Rle_trans with (bpow radix2 53); [|apply bpow_le; lia]. change (bpow radix2 53) with (IZR (2 ^ 53)). assert (IZR m <= IZR (2 ^ 53)) by (apply IZR_le; lia). assert (1 <= IZR m) by (apply IZR_le; lia). lra.
Qed.
Example C16_binary64_example :
  (exists p' tl' br', ScaleT noCurves (@mkScale FNum fnan fnan (p8 1 1) (p8 2 2) (dyad 80 (-3)) (dyad 21 (-3))) corner = Ok p' /\ tightBox (inDrawing (map realSeg p')) tl' br' /\ Rabs (X br' - X tl' - 10) <= 8 * half_ulp 6 /\ Rabs (Y br' - Y tl' - 21 / 8) <= 8 * half_ulp 6) /\
  (exists p' tl' br', ScaleT noCurves (@mkScale FNum fnan fnan (p8 1 1) (p8 2 2) (dyad 80 (-3)) (dyad 0 0)) corner = Ok p' /\ tightBox (inDrawing (map realSeg p')) tl' br' /\ Rabs (X br' - X tl' - 10) <= 8 * half_ulp 6) /\
  (exists p' tl' br', ScaleT noCurves (@mkScale FNum fnan fnan (p8 1 1) (p8 2 2) (dyad (-1) 0) (dyad 21 (-3))) corner = Ok p' /\ tightBox (inDrawing (map realSeg p')) tl' br' /\ Rabs (Y br' - Y tl' - 21 / 8) <= 8 * half_ulp 6).
Proof.
  destruct (dyad_val 80 (-3) ltac:(lia) ltac:(lia)) as [G1 E1], (dyad_val 21 (-3) ltac:(lia) ltac:(lia)) as [G2 E2], (dyad_val 0 0 ltac:(lia) ltac:(lia)) as [G3 E3], (dyad_val (-1) 0 ltac:(lia) ltac:(lia)) as [G4 E4].
  change (IZR 80 * bpow radix2 (-3)) with (80 / 8) in E1. change (IZR 21 * bpow radix2 (-3)) with (21 / 8) in E2. rewrite Rmult_0_l in E3. change (bpow radix2 0) with 1 in E4.
  assert (U1 : usual (64 / 8 - 3 / 8)) by (replace (64 / 8 - 3 / 8) with (61 / 8) by lra; apply usual_8; lia). assert (U2 : usual (20 / 8 - -14 / 8)) by (replace (20 / 8 - -14 / 8) with (34 / 8) by lra; apply usual_8; lia).
  assert (B : forall k l x y, 0 <= k <= 2 -> 0 <= l <= 2 -> inDrawing (map realSeg corner) x y -> Rabs (k * x) <= bpow radix2 (6 - 1) /\ Rabs (l * y) <= bpow radix2 (6 - 1)).
  { intros k l x y Hk Hl D. destruct corner_box as (_ & _ & (R1 & _) & (R2 & _)). rewrite !pnt_X, !pnt_Y in *. specialize (R1 x (ex_intro _ _ D)). specialize (R2 y (ex_intro (fun u => inDrawing _ u y) _ D)). change (bpow radix2 (6 - 1)) with 32. split; apply Rabs_le; nra. }
  pose proof corner_box as TB. split; [|split].
  - destruct (C16_binary64 noCurves 6 fnan fnan (dyad 80 (-3)) (dyad 21 (-3)) (p8 1 1) (p8 2 2) corner _ _ ltac:(lia) corner_straight TB U1 U2 G1 G2) as (p' & tl' & br' & A1 & A2 & A3 & A4 & _);
      [rewrite E1; apply usual_8; lia|rewrite E2; apply usual_8; lia|intros x y D; rewrite E1, E2, !pnt_X, !pnt_Y; apply B; [lra|lra|exact D]|].
    exists p', tl', br'. rewrite E1 in A3. rewrite E2 in A4. replace (80 / 8) with 10 in A3 by lra. auto.
  - destruct (C16_binary64_width noCurves 6 fnan fnan (dyad 80 (-3)) (dyad 0 0) (p8 1 1) (p8 2 2) corner _ _ ltac:(lia) corner_straight TB U1 G1 G3) as (p' & tl' & br' & A1 & A2 & A3 & _);
      [rewrite E1; apply usual_8; lia|rewrite E3; lra|intros x y D; rewrite E1, !pnt_X; apply B; [lra|lra|exact D]|].
    exists p', tl', br'. rewrite E1 in A3. replace (80 / 8) with 10 in A3 by lra. auto.
  - destruct (C16_binary64_height noCurves 6 fnan fnan (dyad (-1) 0) (dyad 21 (-3)) (p8 1 1) (p8 2 2) corner _ _ ltac:(lia) corner_straight TB U2 G4 G2) as (p' & tl' & br' & A1 & A2 & _ & A4 & _);
      [rewrite E4; lra|rewrite E2; apply usual_8; lia|intros x y D; rewrite E2, !pnt_Y; apply B; [lra|lra|exact D]|].
    exists p', tl', br'. rewrite E2 in A4. auto.
Qed.
