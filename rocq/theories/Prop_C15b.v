(** C15, continued: trimming in binary64. *)
From Coq Require Import List ZArith Bool Lia Reals Lra.
From Coq.Floats Require Import SpecFloat.
From Flocq Require Import Core.
From Verif Require Import Num NumLaws FloatNum RealNum PrecisionProofs IeeeProofs IeeeArith RelError BinPackFloat.
From Verif Require Import PathModel SegOps Bezier GeomTransforms PathSpec PathProofs GeomSpec BezierProofs GeomProofs AffineProofs RealTrig RootsProofs FloatGeom Prop_C14b Witness.
Import ListNotations.
Local Open Scope R_scope.

Lemma TrimWhitespace_straight (co : CurveOps FNum) (e : Z) (p : path FNum) : (-1020 <= e <= 1023)%Z -> Forall straight (drawn p) -> drawn p <> [] -> extent e (inDrawing (map realSeg p)) ->
  exists tl br dx dy, gofin dx /\ gofin dy /\ #dx = - X tl /\ #dy = - Y tl /\ TrimWhitespace co p = Ok (@Shift FNum dx dy p) /\ tightBox (inDrawing (map realSeg p)) tl br /\
    everyPoint (fun q => goodPt q /\ Rabs (#(px q) + #dx) <= bpow radix2 e /\ Rabs (#(py q) + #dy) <= bpow radix2 e) p /\
    Forall straight (drawn (@Shift FNum dx dy p)) /\ tightBox (inDrawing (map realSeg (@Shift FNum dx dy p))) (pnt 0 0) (pnt (rnd (X br - X tl)) (rnd (Y br - Y tl))).
Proof.
  intros He F Hd HE. destruct (straight_box co (BezierOps RTrig RBMath 0) (BezierOps_boxOk RTrig RBMath 0) p F Hd) as (tl & br & E & [G1 G2] & _ & TB).
  destruct (opp_val _ G1) as [O1 O2], (opp_val _ G2) as [O3 O4].
  assert (EP : everyPoint (fun q => goodPt q /\ Rabs (#(px q) + #(@opp FNum (px tl))) <= bpow radix2 e /\ Rabs (#(py q) + #(@opp FNum (py tl))) <= bpow radix2 e) p).
  { intros g q I1 I2. split; [apply (drawn_good p g q F I1 I2)|]. pose proof (straight_point p g q F I1 I2) as D. destruct TB as (_ & _ & (_ & [y0 D1] & _) & (_ & [x0 D2] & _)).
    rewrite O2, O4. split; [apply (HE _ _ _ _ D D1)|apply (HE _ _ _ _ D D2)]. }
  destruct (shift_box e _ _ p (X (realPt tl)) (Y (realPt tl)) (X (realPt br)) (Y (realPt br)) He O1 O3 F EP TB) as [S1 S2].
  exists (realPt tl), (realPt br), (@opp FNum (px tl)), (@opp FNum (py tl)). split; [exact O1|]. split; [exact O3|]. split; [exact O2|]. split; [exact O4|].
  split; [unfold TrimWhitespace; rewrite E; reflexivity|]. split; [exact TB|]. split; [exact EP|]. split; [exact S1|].
  rewrite O2, O4 in S2. change (X (realPt tl)) with (#(px tl)) in *. change (Y (realPt tl)) with (#(py tl)) in *. rewrite !Rplus_opp_r, round_0 in S2 by apply valid_rnd_N. exact S2.
Qed.

(** A drawing of straight lines is put at the origin exactly, although the coordinates are rounded; its size is rounded once, and every point of it is where it belongs up to one rounding. *)
Theorem C15_binary64 (co : CurveOps FNum) (e : Z) (p : path FNum) : (-1020 <= e <= 1023)%Z -> Forall straight (drawn p) -> drawn p <> [] -> extent e (inDrawing (map realSeg p)) ->
  exists p' tl br, TrimWhitespace co p = Ok p' /\ tightBox (inDrawing (map realSeg p)) tl br /\
    tightBox (inDrawing (map realSeg p')) (pnt 0 0) (pnt (rnd (X br - X tl)) (rnd (Y br - Y tl))) /\
    Forall2 (follows (half_ulp e) (fun x _ => x - X tl) (fun _ y => y - Y tl)) (drawn p) (drawn p').
Proof.
  intros He F Hd HE. destruct (TrimWhitespace_straight co e p He F Hd HE) as (tl & br & dx & dy & G1 & G2 & E1 & E2 & ET & TB & EP & S1 & S2).
  exists (@Shift FNum dx dy p), tl, br. split; [exact ET|]. split; [exact TB|]. split; [exact S2|].
  pose proof (proj1 (proj2 (C14_binary64 e dx dy p He G1 G2 EP))) as FO. revert FO. apply Forall2_imp. apply follows_ext; intros x y; rewrite ?E1, ?E2; ring.
Qed.
Print Assumptions C15_binary64.

(** Trimming what was trimmed changes no number. *)
Theorem C15_binary64_idempotent (co : CurveOps FNum) (e : Z) (p : path FNum) : (-1020 <= e <= 1022)%Z -> Forall straight (drawn p) -> drawn p <> [] -> extent e (inDrawing (map realSeg p)) ->
  exists p' p'', TrimWhitespace co p = Ok p' /\ TrimWhitespace co p' = Ok p'' /\ map realSeg (drawn p'') = map realSeg (drawn p').
Proof.
  intros He F Hd HE. destruct (TrimWhitespace_straight co e p ltac:(lia) F Hd HE) as (tl & br & dx & dy & G1 & G2 & E1 & E2 & ET & TB & EP & S1 & S2).
  set (p' := @Shift FNum dx dy p) in *.
  assert (Hd' : drawn p' <> []). { intros Q. destruct S2 as (_ & _ & (_ & [y D] & _) & _). apply inDrawing_real in D as (g & I & _). rewrite Q in I. destruct I. }
  assert (SZ : 0 <= rnd (X br - X tl) <= bpow radix2 e /\ 0 <= rnd (Y br - Y tl) <= bpow radix2 e).
  { destruct TB as (_ & _ & (R1 & A1 & [y1 B1]) & (R2 & A2 & [x2 B2])). pose proof (R1 _ A1). pose proof (R2 _ A2). destruct A1 as [y0 A1], A2 as [x0 A2].
    assert (FM : generic_format radix2 fexp64 (bpow radix2 e)) by (apply generic_format_bpow; change (FLT_exp (-1074) 53 (e + 1) <= e)%Z; unfold FLT_exp; lia).
    destruct (HE _ _ _ _ B1 A1) as [Q1 _], (HE _ _ _ _ B2 A2) as [_ Q2]. apply abs_le in Q1, Q2.
    split; (split; [apply rnd_ge0; lra|]); (rewrite <- (round_generic radix2 fexp64 ZnearestE _ FM); apply rnd_mono; lra). }
  destruct (TrimWhitespace_straight co e p' ltac:(lia) S1 Hd') as (tl2 & br2 & dx2 & dy2 & G3 & G4 & E3 & E4 & ET2 & TB2 & EP2 & S3 & _).
  { intros x y x' y' D D'. destruct S2 as (_ & _ & (R1 & _) & (R2 & _)). rewrite !pnt_X, !pnt_Y in *.
    pose proof (R1 x (ex_intro _ _ D)). pose proof (R1 x' (ex_intro _ _ D')). pose proof (R2 y (ex_intro (fun u => inDrawing _ u y) _ D)). pose proof (R2 y' (ex_intro (fun u => inDrawing _ u y') _ D')). split; apply Rabs_le; lra. }
  exists p', (@Shift FNum dx2 dy2 p'). split; [exact ET|]. split; [exact ET2|].
  destruct (tightBox_unique _ _ _ _ _ TB2 S2) as [-> ->]. rewrite !pnt_X, !pnt_Y in *.
  assert (DR : drawn (@Shift FNum dx2 dy2 p') = map (fun g => TransformPoints g (fun q => NewPoint (@add FNum (px q) dx2) (@add FNum (py q) dy2))) (drawn p')) by (unfold Shift at 1, mapPoints; rewrite Prop_C05.C05_NewPathFromSegments_drawn, drawn_points; reflexivity).
  rewrite DR, map_map. apply map_ext_in. intros g I. clearbody p'.
  pose proof (shift_points e dx2 dy2 p' ltac:(lia) G3 G4 EP2) as SP.
  assert (PQ : forall q, In q (points g) -> realPt (NewPoint (@add FNum (px q) dx2) (@add FNum (py q) dy2)) = realPt q).
  { intros q Iq. destruct (SP g q I Iq) as [_ Q]. rewrite Q, E3, E4, Ropp_0, !Rplus_0_r. destruct (drawn_good p' g q S1 I Iq) as [Q1 Q2]. rewrite !rnd_val by assumption. reflexivity. }
  destruct g as [s t|s t|s cs t ct]; cbn [TransformPoints realSeg]; cbn [points] in PQ; rewrite !PQ by (cbn; tauto); reflexivity.
Qed.
Print Assumptions C15_binary64_idempotent.

(** a triangle *)
Example C15_binary64_example : exists p', TrimWhitespace noCurves corner = Ok p' /\ tightBox (inDrawing (map realSeg p')) (pnt 0 0) (pnt (61 / 8) (34 / 8)) /\
  exists p'', TrimWhitespace noCurves p' = Ok p'' /\ map realSeg (drawn p'') = map realSeg (drawn p').
Proof.
  assert (EX : extent 10 (inDrawing (map realSeg corner))). { apply extent_points. change (bpow radix2 (10 - 1)) with 512. apply corner_points; intros a b Ha Hb; cbv beta; destruct (p8_val a b ltac:(lia) ltac:(lia)) as (_ & E1 & E2); rewrite E1, E2; apply IZR_le in Ha, Hb; rewrite abs_IZR in Ha, Hb; apply abs_le in Ha, Hb; split; apply Rabs_le; lra. }
  assert (ND : drawn corner <> []) by discriminate.
  destruct (C15_binary64 noCurves 10 corner ltac:(lia) corner_straight ND EX) as (p' & tl & br & E & TB & TB' & _).
  destruct (C15_binary64_idempotent noCurves 10 corner ltac:(lia) corner_straight ND EX) as (p1 & p2 & E1 & E2 & E3). rewrite E in E1. injection E1 as <-.
  exists p'. split; [exact E|]. split; [|exists p2; auto].
  destruct (tightBox_unique _ _ _ _ _ TB corner_box) as [-> ->]. rewrite !pnt_X, !pnt_Y in TB'.
  replace (64 / 8 - 3 / 8) with (61 / 8) in TB' by lra. replace (20 / 8 - -14 / 8) with (34 / 8) in TB' by lra. rewrite !rnd_eighths in TB' by lia. exact TB'.
Qed.
