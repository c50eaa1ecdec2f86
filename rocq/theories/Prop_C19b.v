(** C19, continued: matrices in binary64. *)
From Coq Require Import List ZArith Bool Lia Reals Lra Psatz.
From Coq.Floats Require Import SpecFloat.
From Flocq Require Import Core.
From Verif Require Import Num NumLaws FloatNum RealNum PrecisionProofs IeeeProofs IeeeArith RelError BinPackFloat.
From Verif Require Import PathModel SegOps Bezier GeomTransforms PathSpec GeomSpec AffineProofs FloatGeom Witness.
Import ListNotations.
Local Open Scope R_scope.

(** one row of the matrix: two products and two sums *)
Lemma row_near e (x y a c t : T FNum) : (-1018 <= e <= 1023)%Z -> gofin x -> gofin y -> gofin a -> gofin c -> gofin t -> Rabs (#x * #a) + Rabs (#y * #c) + Rabs (#t) <= bpow radix2 (e - 1) ->
  let r := @add FNum (@add FNum (@mul FNum x a) (@mul FNum y c)) t in gofin r /\ Rabs (#r - (#x * #a + #y * #c + #t)) <= 4 * half_ulp e.
Proof.
  intros He Gx Gy Ga Gc Gt B. pose proof (Rabs_pos (#x * #a)) as P1. pose proof (Rabs_pos (#y * #c)) as P2. pose proof (Rabs_pos (#t)) as P3.
  assert (BE : bpow radix2 e = 2 * bpow radix2 (e - 1)) by (replace e with (1 + (e - 1))%Z at 1 by lia; rewrite bpow_plus; reflexivity).
  assert (HU : 8 * half_ulp e <= bpow radix2 (e - 1)). { unfold half_ulp. change 8 with (bpow radix2 3). rewrite <- bpow_plus. apply bpow_le. lia. }
  assert (H0 : 0 < half_ulp e) by apply bpow_gt_0.
  destruct (mul_near e _ _ ltac:(lia) Gx Ga ltac:(lra)) as (G1 & N1 & _), (mul_near e _ _ ltac:(lia) Gy Gc ltac:(lra)) as (G2 & N2 & _).
  remember (@mul FNum x a) as u eqn:Eu. remember (@mul FNum y c) as v eqn:Ev. clear Eu Ev.
  remember (#x * #a) as xa eqn:Exa. remember (#y * #c) as yc eqn:Eyc. clear Exa Eyc.
  pose proof (Rabs_triang xa yc) as T1. pose proof (Rabs_triang (xa + yc) (#t)) as T2.
  assert (B1 : Rabs (#u + #v) <= bpow radix2 e) by (apply abs_le in N1, N2; assert (Q : Rabs (xa + yc) <= bpow radix2 (e - 1)) by lra; apply abs_le in Q; apply Rabs_le; lra).
  destruct (add_near e _ _ ltac:(lia) G1 G2 B1) as (G3 & N3 & _). remember (@add FNum u v) as w eqn:Ew. clear Ew.
  assert (B2 : Rabs (#w + #t) <= bpow radix2 e) by (apply abs_le in N1, N2, N3; assert (Q : Rabs (xa + yc + #t) <= bpow radix2 (e - 1)) by lra; apply abs_le in Q; apply Rabs_le; lra).
  destruct (add_near e _ _ ltac:(lia) G3 Gt B2) as (G4 & N4 & _). intros r. split; [exact G4|]. unfold r. apply abs_le in N1, N2, N3, N4. apply Rabs_le. lra.
Qed.

(** A matrix takes every point of a drawing, of its curves too, where it belongs up to four roundings of numbers of 2^n. *)
Theorem C19_binary64 (n : Z) (m : matrix FNum) (p : path FNum) : (-1018 <= n <= 1023)%Z ->
  gofin (m_a m) -> gofin (m_b m) -> gofin (m_c m) -> gofin (m_d m) -> gofin (m_e m) -> gofin (m_f m) ->
  everyPoint (fun q => goodPt q /\ Rabs (#(px q) * #(m_a m)) + Rabs (#(py q) * #(m_c m)) + Rabs (#(m_e m)) <= bpow radix2 (n - 1) /\
    Rabs (#(px q) * #(m_b m)) + Rabs (#(py q) * #(m_d m)) + Rabs (#(m_f m)) <= bpow radix2 (n - 1)) p ->
  let p' := MatrixT m p in let fx x y := #(m_a m) * x + #(m_c m) * y + #(m_e m) in let fy x y := #(m_b m) * x + #(m_d m) * y + #(m_f m) in
  Forall goodSeg (drawn p') /\ Forall2 (follows (4 * half_ulp n) fx fy) (drawn p) (drawn p') /\
  (forall x y, inDrawing (map realSeg p) x y -> exists x' y', inDrawing (map realSeg p') x' y' /\ Rabs (x' - fx x y) <= 4 * half_ulp n /\ Rabs (y' - fy x y) <= 4 * half_ulp n) /\
  (forall x' y', inDrawing (map realSeg p') x' y' -> exists x y, inDrawing (map realSeg p) x y /\ Rabs (x' - fx x y) <= 4 * half_ulp n /\ Rabs (y' - fy x y) <= 4 * half_ulp n).
Proof.
  intros Hn Ga Gb Gc Gd Ge Gf H p' fx fy.
  destruct (mapPoints_F (matrixPoint m) (mkAff (#(m_a m)) (#(m_b m)) (#(m_c m)) (#(m_d m)) (#(m_e m)) (#(m_f m))) (4 * half_ulp n) p) as [F G].
  { intros g q I1 I2. destruct (H g q I1 I2) as ([G1 G2] & B1 & B2).
    destruct (row_near n _ _ _ _ _ Hn G1 G2 Ga Gc Ge B1) as [A1 A2], (row_near n _ _ _ _ _ Hn G1 G2 Gb Gd Gf B2) as [C1 C2]. unfold matrixPoint.
    destruct (NewPoint_good _ _ A1 C1) as [N1 N2]. split; [exact N1|]. rewrite N2. unfold nearPt, affPt, realPt, affX, affY. rewrite !pnt_X, !pnt_Y. cbn [af_a af_b af_c af_d af_e af_f].
    rewrite (Rmult_comm (#(m_a m))), (Rmult_comm (#(m_c m))), (Rmult_comm (#(m_b m))), (Rmult_comm (#(m_d m))). split; assumption. }
  split; [exact G|]. split; [exact F|]. apply (follows_drawing _ _ _ _ _ F).
Qed.
Print Assumptions C19_binary64.
(** a quarter turn and a slant of a triangle with one curved side *)
Example C19_binary64_example : let m := @mkMatrix FNum (dyad 0 0) (dyad 3 (-1)) (dyad (-3) (-1)) (dyad 1 (-4)) (dyad 7 0) (dyad (-9) 0) in
  let p := corner ++ [Curve (p8 3 20) (p8 11 30) (p8 40 40) (p8 (-20) 17)] in let p' := MatrixT m p in
  Forall2 (follows (4 * half_ulp 8) (fun x y => 0 * x + -3 / 2 * y + 7) (fun x y => 3 / 2 * x + 1 / 16 * y + -9)) (drawn p) (drawn p').
Proof.
  intros m p p'. assert (V : forall z k, (-10 <= k <= 10)%Z -> (Z.abs z <= 100)%Z -> gofin (dyad z k) /\ #(dyad z k) = IZR z * bpow radix2 k) by (intros z k Hk Hz; apply dyad_val; lia).
  destruct (V 0%Z 0%Z ltac:(lia) ltac:(lia)) as [G1 E1], (V 3%Z (-1)%Z ltac:(lia) ltac:(lia)) as [G2 E2], (V (-3)%Z (-1)%Z ltac:(lia) ltac:(lia)) as [G3 E3], (V 1%Z (-4)%Z ltac:(lia) ltac:(lia)) as [G4 E4], (V 7%Z 0%Z ltac:(lia) ltac:(lia)) as [G5 E5], (V (-9)%Z 0%Z ltac:(lia) ltac:(lia)) as [G6 E6].
  change (bpow radix2 (-1)) with (/ 2) in *. change (bpow radix2 0) with 1 in *. change (bpow radix2 (-4)) with (/ 16) in *.
  destruct (C19_binary64 8 m p ltac:(lia) G1 G2 G3 G4 G5 G6) as (_ & A & _).
  - assert (Q : forall a b, (Z.abs a <= 64)%Z -> (Z.abs b <= 64)%Z -> goodPt (p8 a b) /\ Rabs (#(px (p8 a b)) * #(m_a m)) + Rabs (#(py (p8 a b)) * #(m_c m)) + Rabs (#(m_e m)) <= bpow radix2 (8 - 1) /\
      Rabs (#(px (p8 a b)) * #(m_b m)) + Rabs (#(py (p8 a b)) * #(m_d m)) + Rabs (#(m_f m)) <= bpow radix2 (8 - 1)).
    { intros a b Ha Hb. destruct (p8_val a b ltac:(lia) ltac:(lia)) as (Gp & Ea & Eb). split; [exact Gp|]. unfold m. cbn [m_a m_b m_c m_d m_e m_f]. rewrite Ea, Eb, E1, E2, E3, E4, E5, E6. change (bpow radix2 (8 - 1)) with 128.
      apply IZR_le in Ha, Hb. rewrite abs_IZR in Ha, Hb. apply abs_le in Ha, Hb. split; unfold Rabs; repeat destruct (Rcase_abs _); lra. }
    intros g q I1 I2. unfold p in I1. rewrite PathProofs.drawn_app in I1. apply in_app_or in I1 as [I1|I1]; [revert g q I1 I2; apply corner_points; exact Q|].
    cbn [drawn] in I1. destruct I1 as [<-|[]]. cbn [points] in I2. destruct I2 as [<-|[<-|[<-|[<-|[]]]]]; apply Q; lia.
  - revert A. apply Forall2_imp. apply follows_ext; intros x y; unfold m; cbn [m_a m_b m_c m_d m_e m_f]; rewrite ?E1, ?E2, ?E3, ?E4, ?E5, ?E6; field.
Qed.
