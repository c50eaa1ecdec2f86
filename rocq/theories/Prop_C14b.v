(** C14, continued: translations in binary64. *)
From Coq Require Import List ZArith Bool Lia Reals Lra.
From Coq.Floats Require Import SpecFloat.
From Flocq Require Import Core.
From Verif Require Import Num NumLaws FloatNum RealNum PrecisionProofs IeeeProofs IeeeArith RelError BinPackFloat.
From Verif Require Import PathModel SegOps Bezier GeomTransforms PathSpec GeomSpec BezierProofs GeomProofs AffineProofs RealTrig RootsProofs FloatGeom Witness.
Import ListNotations.
Local Open Scope R_scope.

(** Whatever the drawing, every point of it is moved by (dx, dy), up to the rounding of one addition, if the coordinates reached are at most 2^e: it is at most 2^(e-54). *)
Theorem C14_binary64 (e : Z) (dx dy : T FNum) (p : path FNum) : (-1020 <= e <= 1023)%Z -> gofin dx -> gofin dy ->
  everyPoint (fun q => goodPt q /\ Rabs (#(px q) + #dx) <= bpow radix2 e /\ Rabs (#(py q) + #dy) <= bpow radix2 e) p ->
  let p' := Shift dx dy p in
  Forall goodSeg (drawn p') /\ Forall2 (follows (half_ulp e) (fun x _ => x + #dx) (fun _ y => y + #dy)) (drawn p) (drawn p') /\
  (forall x y, inDrawing (map realSeg p) x y -> exists x' y', inDrawing (map realSeg p') x' y' /\ Rabs (x' - (x + #dx)) <= half_ulp e /\ Rabs (y' - (y + #dy)) <= half_ulp e) /\
  (forall x' y', inDrawing (map realSeg p') x' y' -> exists x y, inDrawing (map realSeg p) x y /\ Rabs (x' - (x + #dx)) <= half_ulp e /\ Rabs (y' - (y + #dy)) <= half_ulp e).
Proof.
  intros He Gx Gy H p'. destruct (mapPoints_F (fun q => NewPoint (add (px q) dx) (add (py q) dy)) (mkAff 1 0 0 1 (#dx) (#dy)) (half_ulp e) p) as [F G].
  { intros g q I1 I2. destruct (H g q I1 I2) as ([G1 G2] & B1 & B2). destruct (add_near e _ _ He G1 Gx B1) as (A1 & A2 & _), (add_near e _ _ He G2 Gy B2) as (C1 & C2 & _).
    destruct (NewPoint_good _ _ A1 C1) as [N1 N2]. split; [exact N1|]. rewrite N2. unfold nearPt, affPt, realPt, affX, affY. rewrite !pnt_X, !pnt_Y. cbn [af_a af_b af_c af_d af_e af_f].
    split; [replace (1 * #(px q) + 0 * #(py q) + #dx) with (#(px q) + #dx) by ring|replace (0 * #(px q) + 1 * #(py q) + #dy) with (#(py q) + #dy) by ring]; assumption. }
  assert (F2 : Forall2 (follows (half_ulp e) (fun x _ => x + #dx) (fun _ y => y + #dy)) (drawn p) (drawn p')).
  { revert F. apply Forall2_imp. apply follows_ext; intros x y; unfold affX, affY; cbn; ring. }
  split; [exact G|]. split; [exact F2|]. apply (follows_drawing _ _ _ _ _ F2).
Qed.
Print Assumptions C14_binary64.

(** A drawing on a grid of 2^k, such as whole millimetres or sixteenths of an inch, is moved exactly by multiples of the grid, as long as the coordinates fit into 53 bits of it. *)
Definition onGrid (k : Z) (x : T FNum) (m : Z) : Prop := gofin x /\ #x = IZR m * bpow radix2 k.
Theorem C14_grid (k a b : Z) (dx dy : T FNum) (p : path FNum) : (-1074 <= k <= 960)%Z -> onGrid k dx a -> onGrid k dy b ->
  everyPoint (fun q => exists m n, onGrid k (px q) m /\ onGrid k (py q) n /\ (Z.abs (m + a) <= 2 ^ 53)%Z /\ (Z.abs (n + b) <= 2 ^ 53)%Z) p ->
  let p' := Shift dx dy p in
  Forall goodSeg (drawn p') /\ Forall2 (follows 0 (fun x _ => x + #dx) (fun _ y => y + #dy)) (drawn p) (drawn p') /\
  forall x y, inDrawing (map realSeg p) x y <-> inDrawing (map realSeg p') (x + #dx) (y + #dy).
Proof.
  intros Hk [Gx Ex] [Gy Ey] H p'.
  assert (SUM : forall x m d c, onGrid k x m -> gofin d -> #d = IZR c * bpow radix2 k -> (Z.abs (m + c) <= 2 ^ 53)%Z -> gofin (@add FNum x d) /\ #(@add FNum x d) = #x + #d).
  { intros x m d c [G E] Gd Ed B. assert (S : #x + #d = IZR (m + c) * bpow radix2 k) by (rewrite E, Ed, plus_IZR; ring). assert (R1 : rnd (#x + #d) = #x + #d) by (rewrite S; apply rnd_grid; lia).
    change (@add FNum x d) with (f_add x d). rewrite <- R1. apply f_add_correct; auto. rewrite R1, S, Rabs_mult, <- abs_IZR, (Rabs_pos_eq (bpow radix2 k)) by apply bpow_ge_0.
    apply Rle_lt_trans with (IZR (2 ^ 53) * bpow radix2 k); [apply Rmult_le_compat_r; [apply bpow_ge_0|apply IZR_le; exact B]|]. change (IZR (2 ^ 53)) with (bpow radix2 53). rewrite <- bpow_plus. apply bpow_lt. lia. }
  destruct (mapPoints_F (fun q => NewPoint (add (px q) dx) (add (py q) dy)) (mkAff 1 0 0 1 (#dx) (#dy)) 0 p) as [F G].
  { intros g q I1 I2. destruct (H g q I1 I2) as (m & n & Q1 & Q2 & B1 & B2). destruct (SUM _ _ _ _ Q1 Gx Ex B1) as [A1 A2], (SUM _ _ _ _ Q2 Gy Ey B2) as [C1 C2].
    destruct (NewPoint_good _ _ A1 C1) as [N1 N2]. split; [exact N1|]. rewrite N2, A2, C2. unfold nearPt, affPt, realPt, affX, affY. rewrite !pnt_X, !pnt_Y. cbn [af_a af_b af_c af_d af_e af_f].
    split; match goal with |- Rabs ?z <= 0 => replace z with 0 by ring end; rewrite Rabs_R0; lra. }
  assert (F2 : Forall2 (follows 0 (fun x _ => x + #dx) (fun _ y => y + #dy)) (drawn p) (drawn p')).
  { revert F. apply Forall2_imp. apply follows_ext; intros x y; unfold affX, affY; cbn; ring. }
  split; [exact G|]. split; [exact F2|]. destruct (follows_drawing _ _ _ _ _ F2) as [D1 D2].
  assert (Z0 : forall u v, Rabs (u - v) <= 0 -> u = v) by (intros u v Q; apply abs_le in Q; lra).
  intros x y. split.
  - intros D. destruct (D1 x y D) as (x' & y' & D' & B1 & B2). apply Z0 in B1, B2. subst. exact D'.
  - intros D. destruct (D2 _ _ D) as (x' & y' & D' & B1 & B2). apply Z0 in B1, B2. replace x with x' by lra. replace y with y' by lra. exact D'.
Qed.
Print Assumptions C14_grid.

Example C14_binary64_example : let p' := Shift (dyad 1 (-60)) (dyad (-5) (-3)) corner in
  Forall goodSeg (drawn p') /\ Forall2 (follows (half_ulp 10) (fun x _ => x + #(dyad 1 (-60))) (fun _ y => y + #(dyad (-5) (-3)))) (drawn corner) (drawn p').
Proof.
  destruct (dyad_val 1 (-60) ltac:(lia) ltac:(lia)) as [G1 E1], (dyad_val (-5) (-3) ltac:(lia) ltac:(lia)) as [G2 E2].
  assert (B : everyPoint (fun q => goodPt q /\ Rabs (#(px q) + #(dyad 1 (-60))) <= bpow radix2 10 /\ Rabs (#(py q) + #(dyad (-5) (-3))) <= bpow radix2 10) corner).
  { apply corner_points. intros a b Ha Hb. destruct (p8_val a b ltac:(lia) ltac:(lia)) as (G & Ea & Eb). split; [exact G|]. rewrite Ea, Eb, E1, E2. change (bpow radix2 10) with 1024. change (bpow radix2 (-3)) with (/ 8).
    assert (S : 0 < bpow radix2 (-60) < 1) by (split; [apply bpow_gt_0|apply (bpow_lt radix2 (-60) 0); lia]). apply IZR_le in Ha, Hb. rewrite abs_IZR in Ha, Hb. apply abs_le in Ha, Hb. split; apply Rabs_le; lra. }
  intros p'. destruct (C14_binary64 10 _ _ corner ltac:(lia) G1 G2 B) as (A1 & A2 & _). split; assumption.
Qed.
Example C14_grid_example : let p' := Shift (dyad 1000 (-3)) (dyad (-5) (-3)) corner in
  Forall2 (follows 0 (fun x _ => x + #(dyad 1000 (-3))) (fun _ y => y + #(dyad (-5) (-3)))) (drawn corner) (drawn p') /\ inDrawing (map realSeg p') (3 / 8 + #(dyad 1000 (-3))) (20 / 8 + #(dyad (-5) (-3))).
Proof.
  intros p'. destruct (C14_grid (-3) 1000 (-5) (dyad 1000 (-3)) (dyad (-5) (-3)) corner) as (_ & A & B); [lia|apply dyad_val; lia|apply dyad_val; lia| |].
  { apply corner_points. intros a b Ha Hb. exists a, b. unfold p8. cbn [px py]. split; [apply dyad_val; lia|]. split; [apply dyad_val; lia|]. lia. }
  split; [exact A|]. apply B. apply inDrawing_real. exists (Line (p8 3 20) (p8 64 20)). split; [left; reflexivity|]. exists 0. split; [lra|]. cbn [realSeg].
  destruct (p8_val 3 20 ltac:(lia) ltac:(lia)) as (_ & E1 & E2). unfold realPt. rewrite !pnt_X, !pnt_Y, E1, E2. split; ring.
Qed.

(** Moving the top left corner of a straight drawing to a point: the corner of the result is at the point, and every other point where it belongs, up to two roundings. *)
Theorem C14_move_binary64 (co : CurveOps FNum) (e : Z) (point : Pt FNum) (p : path FNum) tl br : (-1019 <= e <= 1023)%Z -> Forall straight (drawn p) -> goodPt point ->
  tightBox (inDrawing (map realSeg p)) tl br -> Rabs (#(px point) - X tl) <= bpow radix2 (e - 1) -> Rabs (#(py point) - Y tl) <= bpow radix2 (e - 1) ->
  (forall x y, inDrawing (map realSeg p) x y -> Rabs (x + (#(px point) - X tl)) <= bpow radix2 (e - 1) /\ Rabs (y + (#(py point) - Y tl)) <= bpow radix2 (e - 1)) ->
  exists p' tl' br', MoveT co point ATopLeft p = Ok p' /\ tightBox (inDrawing (map realSeg p')) tl' br' /\
    Rabs (X tl' - #(px point)) <= 2 * half_ulp e /\ Rabs (Y tl' - #(py point)) <= 2 * half_ulp e /\
    Forall2 (follows (2 * half_ulp e) (fun x _ => x + (#(px point) - X tl)) (fun _ y => y + (#(py point) - Y tl))) (drawn p) (drawn p').
Proof.
  intros He F [P1 P2] TB B1 B2 H. assert (Hd : drawn p <> []). { intros Q. destruct TB as (_ & _ & (_ & [y D] & _) & _). apply inDrawing_real in D as (g & I & _). rewrite Q in I. destruct I. }
  destruct (straight_box co (BezierOps RTrig RBMath 0) (BezierOps_boxOk RTrig RBMath 0) p F Hd) as (t0 & b0 & E & [G1 G2] & _ & TB0).
  destruct (tightBox_unique _ _ _ _ _ TB TB0) as [-> ->]. change (X (realPt t0)) with (#(px t0)) in *. change (Y (realPt t0)) with (#(py t0)) in *.
  assert (BE : bpow radix2 e = 2 * bpow radix2 (e - 1)) by (replace e with (1 + (e - 1))%Z at 1 by lia; rewrite bpow_plus; reflexivity). pose proof (bpow_gt_0 radix2 (e - 1)) as BP.
  assert (HU : half_ulp e <= bpow radix2 (e - 1)) by (unfold half_ulp; apply bpow_le; lia). assert (H0 : 0 < half_ulp e) by apply bpow_gt_0.
  destruct (sub_near e _ _ ltac:(lia) P1 G1) as (D1 & N1 & _); [lra|]. destruct (sub_near e _ _ ltac:(lia) P2 G2) as (D2 & N2 & _); [lra|].
  remember (@Num.sub FNum (px point) (px t0)) as dx eqn:Edx. remember (@Num.sub FNum (py point) (py t0)) as dy eqn:Edy.
  assert (EP : everyPoint (fun q => goodPt q /\ Rabs (#(px q) + #dx) <= bpow radix2 e /\ Rabs (#(py q) + #dy) <= bpow radix2 e) p).
  { intros g q I1 I2. split; [apply (drawn_good p g q F I1 I2)|]. destruct (H _ _ (straight_point p g q F I1 I2)) as [Q1 Q2]. apply abs_le in Q1, Q2, N1, N2. split; apply Rabs_le; lra. }
  destruct (shift_box e dx dy p (#(px t0)) (#(py t0)) (#(px b0)) (#(py b0)) ltac:(lia) D1 D2 F EP TB0) as [S1 S2].
  assert (NR : forall u v w, Rabs (u + w) <= bpow radix2 (e - 1) -> Rabs (v - w) <= half_ulp e -> Rabs (rnd (u + v) - (u + w)) <= 2 * half_ulp e).
  { intros u v w Q1 Q2. apply abs_le in Q1, Q2. assert (Q : Rabs (u + v) <= bpow radix2 e) by (apply Rabs_le; lra). apply (rnd_near e) in Q; [|lia]. apply abs_le in Q. apply Rabs_le. lra. }
  exists (@Shift FNum dx dy p). eexists. eexists. split; [unfold MoveT, PointPathAttribute, PathAttribute; rewrite E; cbn [bind subfield]; rewrite <- Edx, <- Edy; reflexivity|]. split; [exact S2|]. rewrite pnt_X, pnt_Y.
  destruct TB0 as (_ & _ & (_ & [y0 A1] & _) & (_ & [x0 A2] & _)). destruct (H _ _ A1) as [Q1 _], (H _ _ A2) as [_ Q2]. change (X (realPt t0)) with (#(px t0)) in Q1. change (Y (realPt t0)) with (#(py t0)) in Q2.
  split; [pose proof (NR _ _ _ Q1 N1) as Q; replace (#(px t0) + (#(px point) - #(px t0))) with (#(px point)) in Q by ring; exact Q|].
  split; [pose proof (NR _ _ _ Q2 N2) as Q; replace (#(py t0) + (#(py point) - #(py t0))) with (#(py point)) in Q by ring; exact Q|].
  pose proof (proj1 (proj2 (C14_binary64 e dx dy p ltac:(lia) D1 D2 EP))) as FO. revert FO. apply Forall2_imp. intros g g' [K Q]. split; [exact K|]. intros t Ht. destruct (Q t Ht) as [Z1 Z2].
  apply abs_le in Z1, Z2, N1, N2. split; apply Rabs_le; lra.
Qed.
Print Assumptions C14_move_binary64.
Example C14_move_binary64_example : exists p' tl' br', MoveT noCurves (p8 100 7) ATopLeft corner = Ok p' /\ tightBox (inDrawing (map realSeg p')) tl' br' /\ Rabs (X tl' - 100 / 8) <= 2 * half_ulp 6 /\ Rabs (Y tl' - 7 / 8) <= 2 * half_ulp 6.
Proof.
  destruct (p8_val 100 7 ltac:(lia) ltac:(lia)) as (G & E1 & E2).
  destruct (C14_move_binary64 noCurves 6 (p8 100 7) corner _ _ ltac:(lia) corner_straight G corner_box) as (p' & tl' & br' & E & TB & A1 & A2 & _).
  - rewrite E1, pnt_X. change (bpow radix2 (6 - 1)) with 32. apply Rabs_le. lra.
  - rewrite E2, pnt_Y. change (bpow radix2 (6 - 1)) with 32. apply Rabs_le. lra.
  - intros x y D. destruct corner_box as (_ & _ & (R1 & _) & (R2 & _)). rewrite !pnt_X, !pnt_Y in *. specialize (R1 x (ex_intro _ _ D)). specialize (R2 y (ex_intro (fun u => inDrawing _ u y) _ D)). rewrite E1, E2. change (bpow radix2 (6 - 1)) with 32. split; apply Rabs_le; lra.
  - rewrite E1 in A1. rewrite E2 in A2. exists p', tl', br'. auto.
Qed.
