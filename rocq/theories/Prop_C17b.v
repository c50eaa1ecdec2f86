(** C17, continued: turning in binary64. *)
From Coq Require Import List ZArith Bool Lia Reals Lra Psatz.
From Coq.Floats Require Import SpecFloat.
From Flocq Require Import Core.
From Verif Require Import Num NumLaws FloatNum RealNum PrecisionProofs IeeeProofs IeeeArith RelError BinPackFloat.
From Verif Require Import PathModel SegOps Bezier GeomTransforms PathSpec GeomSpec AffineProofs FloatGeom Witness.
Import ListNotations.
Local Open Scope R_scope.

(** the cosine and the sine that the machine finds for an angle of d degrees are good to eps *)
Definition accurate (tr : Trig FNum) (d : T FNum) (eps : R) : Prop :=
  let rad := @opp FNum (@mul FNum d (@div FNum (npi tr) (ofZ 180))) in
  gofin (ncos tr rad) /\ gofin (nsin tr rad) /\ Rabs (#(ncos tr rad) - cos (#d * PI / 180)) <= eps /\ Rabs (#(nsin tr rad) + sin (#d * PI / 180)) <= eps.

Lemma NewPoint_vals (x y : T FNum) : gofin x -> gofin y -> gofin (px (NewPoint x y)) /\ gofin (py (NewPoint x y)) /\ #(px (NewPoint x y)) = #x /\ #(py (NewPoint x y)) = #y.
Proof. intros Gx Gy. destruct (norm0_val x Gx) as [A1 A2], (norm0_val y Gy) as [B1 B2]. auto. Qed.
(** one coordinate: two products and a sum *)
Lemma sum2_near e (x y c s : T FNum) B : (-1018 <= e <= 1023)%Z -> 16 * B = bpow radix2 e -> gofin x -> gofin y -> gofin c -> gofin s -> Rabs (#x) <= 2 * B -> Rabs (#y) <= 2 * B -> Rabs (#c) <= 2 -> Rabs (#s) <= 2 ->
  let r := @add FNum (@mul FNum x c) (@mul FNum y s) in gofin r /\ Rabs (#r - (#x * #c + #y * #s)) <= 3 * half_ulp e.
Proof.
  intros He EB Gx Gy Gc Gs Bx By Bc Bs. assert (B0 : 0 < B) by (pose proof (bpow_gt_0 radix2 e); lra).
  assert (HU : 8 * half_ulp e <= B). { assert (16 * (8 * half_ulp e) <= bpow radix2 e); [|lra]. unfold half_ulp. replace (16 * (8 * bpow radix2 (e - 54))) with (bpow radix2 7 * bpow radix2 (e - 54)) by (change (bpow radix2 7) with 128; ring). rewrite <- bpow_plus. apply bpow_le. lia. }
  assert (M : forall u v, Rabs u <= 2 * B -> Rabs v <= 2 -> Rabs (u * v) <= 4 * B). { intros u v Hu Hv. rewrite Rabs_mult. replace (4 * B) with (2 * B * 2) by ring. apply Rmult_le_compat; try apply Rabs_pos; assumption. }
  pose proof (M _ _ Bx Bc) as M1. pose proof (M _ _ By Bs) as M2.
  destruct (mul_near e _ _ ltac:(lia) Gx Gc ltac:(lra)) as (G1 & N1 & _), (mul_near e _ _ ltac:(lia) Gy Gs ltac:(lra)) as (G2 & N2 & _).
  remember (@mul FNum x c) as u eqn:Eu. remember (@mul FNum y s) as v eqn:Ev. clear Eu Ev. apply abs_le in M1, M2, N1, N2.
  destruct (add_near e _ _ ltac:(lia) G1 G2 ltac:(apply Rabs_le; lra)) as (G3 & N3 & _). intros r. split; [exact G3|]. unfold r. apply abs_le in N3. apply Rabs_le. lra.
Qed.

(** Turning about a point: with functions good to eps, every point of a drawing within 2^(e-4) of the axis comes out where it belongs, up to six roundings of numbers of 2^e and eps times 2^(e-2). *)
Theorem C17_binary64 (co : CurveOps FNum) (tr : Trig FNum) (e : Z) (d : T FNum) (eps : R) (z : Pt FNum) (p : path FNum) : (-1014 <= e <= 1023)%Z -> goodPt z -> 0 <= eps <= 1 -> accurate tr d eps ->
  Rabs (#(px z)) <= bpow radix2 (e - 4) -> Rabs (#(py z)) <= bpow radix2 (e - 4) ->
  everyPoint (fun q => goodPt q /\ Rabs (#(px q) - #(px z)) <= bpow radix2 (e - 4) /\ Rabs (#(py q) - #(py z)) <= bpow radix2 (e - 4)) p ->
  let C := cos (#d * PI / 180) in let S := sin (#d * PI / 180) in
  exists p', RotateT co tr d (APoint z) p = Ok p' /\
    Forall2 (follows (6 * half_ulp e + eps * bpow radix2 (e - 2)) (fun x y => #(px z) + (x - #(px z)) * C - (y - #(py z)) * S) (fun x y => #(py z) + (x - #(px z)) * S + (y - #(py z)) * C)) (drawn p) (drawn p').
Proof.
  intros He [Z1 Z2] He0 HA ZB1 ZB2 H C S. destruct HA as (Gc & Gs & Nc & Ns). fold C in Nc. fold S in Ns.
  remember (@opp FNum (@mul FNum d (@div FNum (npi tr) (ofZ 180)))) as rad eqn:Erad.
  remember (ncos tr rad) as c eqn:Ec. remember (nsin tr rad) as s eqn:Es.
  set (B := bpow radix2 (e - 4)) in *. assert (EB : 16 * B = bpow radix2 e) by (unfold B; change 16 with (bpow radix2 4); rewrite <- bpow_plus; f_equal; lia).
  assert (EB4 : 4 * B = bpow radix2 (e - 2)) by (unfold B; change 4 with (bpow radix2 2) at 1; rewrite <- bpow_plus; f_equal; lia).
  assert (B0 : 0 < B) by apply bpow_gt_0. set (h := half_ulp e) in *. assert (h0 : 0 < h) by apply bpow_gt_0.
  assert (HU : 8 * h <= B). { unfold h, half_ulp, B. change 8 with (bpow radix2 3). rewrite <- bpow_plus. apply bpow_le. lia. }
  assert (C1 : -1 <= C <= 1) by apply COS_bound. assert (S1 : -1 <= S <= 1) by apply SIN_bound. apply abs_le in Nc, Ns.
  assert (BC : Rabs (#c) <= 2) by (apply Rabs_le; lra). assert (BS : Rabs (#s) <= 2) by (apply Rabs_le; lra).
  assert (OZ : forall x, gofin x -> Rabs (#x) <= B -> gofin (@Num.sub FNum (@zero FNum) x) /\ #(@Num.sub FNum (@zero FNum) x) = - #x).
  { intros x Gx Bx. destruct (sub_near e (@zero FNum) x ltac:(lia) gofin_zero Gx) as (G & _ & E); [change (#(@zero FNum)) with 0; rewrite Rminus_0_l, Rabs_Ropp; lra|]. split; [exact G|]. rewrite E. change (#(@zero FNum)) with 0. rewrite Rminus_0_l.
    destruct (opp_val x Gx) as [Go Eo]. rewrite <- Eo. apply rnd_val, Go. }
  destruct (OZ _ Z1 ZB1) as [D1 E1], (OZ _ Z2 ZB2) as [D2 E2].
  remember (@Num.sub FNum zero (px z)) as dx eqn:Edx. remember (@Num.sub FNum zero (py z)) as dy eqn:Edy.
  set (f1 := fun q : Pt FNum => NewPoint (@add FNum (px q) dx) (@add FNum (py q) dy)). set (f2 := fun q : Pt FNum => NewPoint (@add FNum (@mul FNum (px q) c) (@mul FNum (py q) s)) (@add FNum (@mul FNum (@opp FNum (px q)) s) (@mul FNum (py q) c))). set (f3 := fun q : Pt FNum => NewPoint (@add FNum (px q) (px z)) (@add FNum (py q) (py z))).
  exists (mapPoints f3 (mapPoints f2 (mapPoints f1 p))). split.
  { unfold RotateT, MoveT, PointPathAttribute, PathAttribute. cbn [bind]. change (px (NewPoint zero zero)) with (@zero FNum). change (py (NewPoint zero zero)) with (@zero FNum). rewrite <- Edx, <- Edy. unfold Shift. fold f1. fold f3.
    assert (EF : Rotate tr d = f2) by (unfold Rotate, f2; rewrite <- Erad, <- Ec, <- Es; reflexivity). rewrite EF. reflexivity. }
  assert (DR : drawn (mapPoints f3 (mapPoints f2 (mapPoints f1 p))) = map (fun g => TransformPoints g (fun q => f3 (f2 (f1 q)))) (drawn p)).
  { unfold mapPoints. rewrite !Prop_C05.C05_NewPathFromSegments_drawn, !drawn_points, !Prop_C05.C05_NewPathFromSegments_drawn, !drawn_points, !Prop_C05.C05_NewPathFromSegments_drawn, !drawn_points, !map_map. apply map_ext. intros []; reflexivity. }
  set (A := mkAff C S (- S) C (#(px z) - C * #(px z) + S * #(py z)) (#(py z) - S * #(px z) - C * #(py z))).
  assert (PN : forall g q, In g (drawn p) -> In q (points g) -> nearPt (6 * h + eps * bpow radix2 (e - 2)) (realPt (f3 (f2 (f1 q)))) (affPt A (realPt q))).
  { intros g q I1 I2. destruct (H g q I1 I2) as ([G1 G2] & Q1 & Q2). set (u := #(px q) - #(px z)) in *. set (v := #(py q) - #(py z)) in *.
    destruct (add_near e _ _ ltac:(lia) G1 D1 ltac:(rewrite E1; fold u; unfold u in Q1; apply abs_le in Q1; apply Rabs_le; fold u in Q1; unfold u in Q1; lra)) as (A1 & N1 & _).
    destruct (add_near e _ _ ltac:(lia) G2 D2 ltac:(rewrite E2; unfold v in Q2; apply abs_le in Q2; apply Rabs_le; lra)) as (A2 & N2 & _).
    rewrite E1 in N1. rewrite E2 in N2. replace (#(px q) + - #(px z)) with u in N1 by (unfold u; ring). replace (#(py q) + - #(py z)) with v in N2 by (unfold v; ring).
    destruct (NewPoint_vals _ _ A1 A2) as (P1 & P2 & R1 & R2). fold (f1 q) in P1, P2, R1, R2. fold h in N1, N2. rewrite <- R1 in N1. rewrite <- R2 in N2.
    remember (f1 q) as q1 eqn:Eq1. clear Eq1 R1 R2. apply abs_le in N1, N2, Q1, Q2.
    assert (X1 : Rabs (#(px q1)) <= 2 * B) by (apply Rabs_le; lra). assert (Y1 : Rabs (#(py q1)) <= 2 * B) by (apply Rabs_le; lra).
    destruct (opp_val _ P1) as [O1 O2]. assert (X1' : Rabs (#(@opp FNum (px q1))) <= 2 * B) by (rewrite O2, Rabs_Ropp; exact X1).
    destruct (sum2_near e _ _ c s B ltac:(lia) EB P1 P2 Gc Gs X1 Y1 BC BS) as [G3 N3], (sum2_near e _ _ s c B ltac:(lia) EB O1 P2 Gs Gc X1' Y1 BS BC) as [G4 N4]. rewrite O2 in N4.
    destruct (NewPoint_vals _ _ G3 G4) as (P3 & P4 & R3 & R4). fold (f2 q1) in P3, P4, R3, R4. fold h in N3, N4. rewrite <- R3 in N3. rewrite <- R4 in N4.
    remember (f2 q1) as q2 eqn:Eq2. clear Eq2 R3 R4. apply abs_le in N3, N4.
    (* the exact turn of the computed point *)
    assert (W1 : Rabs (#(px q1) * #c + #(py q1) * #s - (u * C - v * S)) <= 2 * h + 4 * eps * B).
    { replace (#(px q1) * #c + #(py q1) * #s - (u * C - v * S)) with (#(px q1) * (#c - C) + #(py q1) * (#s + S) + ((#(px q1) - u) * C - (#(py q1) - v) * S)) by ring. apply abs_le in X1, Y1.
      assert (V1 : Rabs (#(px q1) * (#c - C)) <= 2 * B * eps) by (rewrite Rabs_mult; apply Rmult_le_compat; try apply Rabs_pos; apply Rabs_le; lra).
      assert (V2 : Rabs (#(py q1) * (#s + S)) <= 2 * B * eps) by (rewrite Rabs_mult; apply Rmult_le_compat; try apply Rabs_pos; apply Rabs_le; lra).
      apply abs_le in V1, V2. apply Rabs_le. assert (V3 : - h <= (#(px q1) - u) * C <= h) by nra. assert (V4 : - h <= (#(py q1) - v) * S <= h) by nra. lra. }
    assert (W2 : Rabs (- #(px q1) * #s + #(py q1) * #c - (u * S + v * C)) <= 2 * h + 4 * eps * B).
    { replace (- #(px q1) * #s + #(py q1) * #c - (u * S + v * C)) with (- #(px q1) * (#s + S) + #(py q1) * (#c - C) + ((#(px q1) - u) * S + (#(py q1) - v) * C)) by ring. apply abs_le in X1, Y1.
      assert (V1 : Rabs (- #(px q1) * (#s + S)) <= 2 * B * eps) by (rewrite Rabs_mult; apply Rmult_le_compat; try apply Rabs_pos; apply Rabs_le; lra).
      assert (V2 : Rabs (#(py q1) * (#c - C)) <= 2 * B * eps) by (rewrite Rabs_mult; apply Rmult_le_compat; try apply Rabs_pos; apply Rabs_le; lra).
      apply abs_le in V1, V2. apply Rabs_le. assert (V3 : - h <= (#(px q1) - u) * S <= h) by nra. assert (V4 : - h <= (#(py q1) - v) * C <= h) by nra. lra. }
    apply abs_le in W1, W2, ZB1, ZB2. assert (eB : eps * B <= B) by nra. assert (eB0 : 0 <= eps * B) by (apply Rmult_le_pos; lra).
    assert (U1 : - (2 * B) <= u * C - v * S <= 2 * B) by nra. assert (U2 : - (2 * B) <= u * S + v * C <= 2 * B) by nra.
    destruct (add_near e _ _ ltac:(lia) P3 Z1 ltac:(apply Rabs_le; lra)) as (A5 & N5 & _), (add_near e _ _ ltac:(lia) P4 Z2 ltac:(apply Rabs_le; lra)) as (A6 & N6 & _).
    destruct (NewPoint_good _ _ A5 A6) as [P5 R5]. fold (f3 q2) in P5, R5. rewrite R5. unfold nearPt, affPt, realPt, affX, affY, A. rewrite !pnt_X, !pnt_Y. cbn [af_a af_b af_c af_d af_e af_f]. fold h in N5, N6. apply abs_le in N5, N6.
    replace (C * #(px q) + - S * #(py q) + (#(px z) - C * #(px z) + S * #(py z))) with (#(px z) + (u * C - v * S)) by (unfold u, v; ring).
    replace (S * #(px q) + C * #(py q) + (#(py z) - S * #(px z) - C * #(py z))) with (#(py z) + (u * S + v * C)) by (unfold u, v; ring).
    rewrite <- EB4. split; apply Rabs_le; lra. }
  assert (FO : Forall2 (follows (6 * h + eps * bpow radix2 (e - 2)) (affX A) (affY A)) (drawn p) (drawn (mapPoints f3 (mapPoints f2 (mapPoints f1 p))))).
  { rewrite DR. clear - PN. induction (drawn p) as [|g l IH]; [constructor|]. constructor; [apply near_follows; intros q I; apply (PN g q); [left; reflexivity|exact I]|]. apply IH. intros g' q I1 I2. apply (PN g' q); [right; exact I1|exact I2]. }
  revert FO. apply Forall2_imp. apply follows_ext; intros x y; unfold affX, affY, A; cbn; ring.
Qed.
Print Assumptions C17_binary64.
(** a quarter turn, with exact functions *)
Definition quarter : Trig FNum := mkTrig FNum (fun _ => dyad (-1) 0) (fun _ => dyad 0 0) (fun _ => dyad 0 0) (fun _ _ => dyad 0 0) (dyad 3 0).
Example C17_binary64_example : accurate quarter (dyad 90 0) 0 /\ exists p', RotateT noCurves quarter (dyad 90 0) (APoint (p8 8 8)) corner = Ok p' /\
  Forall2 (follows (6 * half_ulp 8) (fun x y => 2 - y) (fun x y => x)) (drawn corner) (drawn p').
Proof.
  destruct (dyad_val (-1) 0 ltac:(lia) ltac:(lia)) as [G1 E1], (dyad_val 0 0 ltac:(lia) ltac:(lia)) as [G2 E2], (dyad_val 90 0 ltac:(lia) ltac:(lia)) as [G3 E3]. change (bpow radix2 0) with 1 in *.
  assert (ANG : #(dyad 90 0) * PI / 180 = PI / 2) by (rewrite E3; field).
  assert (AC : accurate quarter (dyad 90 0) 0).
  { unfold accurate, quarter. cbn [ncos nsin]. split; [exact G2|]. split; [exact G1|]. rewrite ANG, cos_PI2, sin_PI2, E1, E2. replace (0 * 1 - 0) with 0 by ring. replace (-1 * 1 + 1) with 0 by ring. rewrite Rabs_R0. lra. }
  split; [exact AC|]. destruct (p8_val 8 8 ltac:(lia) ltac:(lia)) as (Gz & Zx & Zy).
  destruct (C17_binary64 noCurves quarter 8 (dyad 90 0) 0 (p8 8 8) corner ltac:(lia) Gz ltac:(lra) AC) as (p' & E & F).
  - rewrite Zx. change (bpow radix2 (8 - 4)) with 16. apply Rabs_le. lra.
  - rewrite Zy. change (bpow radix2 (8 - 4)) with 16. apply Rabs_le. lra.
  - apply corner_points. intros a b Ha Hb. destruct (p8_val a b ltac:(lia) ltac:(lia)) as (Gp & Ea & Eb). split; [exact Gp|]. rewrite Ea, Eb, Zx, Zy. change (bpow radix2 (8 - 4)) with 16.
    apply IZR_le in Ha, Hb. rewrite abs_IZR in Ha, Hb. apply abs_le in Ha, Hb. split; apply Rabs_le; lra.
  - exists p'. split; [exact E|]. rewrite ANG, cos_PI2, sin_PI2, Zx, Zy in F. replace (6 * half_ulp 8 + 0 * bpow radix2 (8 - 2)) with (6 * half_ulp 8) in F by ring.
    revert F. apply Forall2_imp. apply follows_ext; intros x y; field.
Qed.
