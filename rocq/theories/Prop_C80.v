(** C80: cutting a curve with a line leaves no piece that crosses the line. *)
From Coq Require Import List ZArith Bool Reals Lra Lia.
From Verif Require Import Num FloatNum RealNum RealTrig PathModel DrawModel SegOps TransformsModel Bezier PathSpec PathProofs TextProofs CleanupProofs DedupProofs GeomSpec BezierProofs RotateProofs RootsProofs PrecisionProofs GeomProofs LineGeom SplitProofs SliceProofs Prop_C33 Prop_C42 Prop_C56 Prop_C41 Prop_C57 ReduceProofs KnifeProofs Witness.
Import ListNotations.
Local Open Scope R_scope.

(** on which side of the line through a and b a point is: the sign tells *)
Definition side (a b : Pt RNum) (x y : R) : R := (y - Y a) * (X b - X a) - (x - X a) * (Y b - Y a).
(** a piece with points on both sides *)
Definition crosses (a b : Pt RNum) (g : seg RNum) : Prop := exists x y x' y', onSeg g x y /\ onSeg g x' y' /\ 0 < side a b x y /\ side a b x' y' < 0.
(** the halves at a crossing can be told apart from the line, too *)
Definition halves_apart (a b : Pt RNum) (c : crv RNum) : Prop :=
  forall s d, 0 < s < 1 -> on_line a b (curveX c s) (curveY c s) -> section c d 0 s \/ section c d s 1 -> told_apart a b d.

Section Knife.
Variable bf : nat.
Variables a b : Pt RNum.
Hypothesis Fa : finitePt a.
Hypothesis Fb : finitePt b.
Hypothesis N : X a <> X b \/ Y a <> Y b.
Notation co := (BezierOps RTrig RBMath bf).

Lemma tP_point c t : finiteCrv c -> fst (tP c (Fin t : T RNum)) = pnt (curveX c t) (curveY c t).
Proof. intros F. unfold tP, bpP. cbn [fst]. rewrite FindPoint_spec by auto. cbn [px py pnt]. apply NewPoint_fin. Qed.
Lemma curve_0 c : finiteCrv c -> pnt (curveX c 0) (curveY c 0) = c_s c.
Proof. intros (F1 & _). unfold curveX, curveY, cubic. rewrite F1 at 3. f_equal; ring. Qed.
Lemma curve_1 c : finiteCrv c -> pnt (curveX c 1) (curveY c 1) = c_e c.
Proof. intros (F1 & F2 & F3 & F4). unfold curveX, curveY, cubic. transitivity (pnt (X (c_e c)) (Y (c_e c))); [f_equal; ring|symmetry; assumption]. Qed.

(** a curve whose first meeting point is at one of its ends is not cut *)
Lemma uncut c n f u l : finiteCrv c -> u = 0 \/ u = 1 -> IntersectsLine RTrig RBMath c a b = Fin u :: l -> KnifeCut co n (S f) (crvSeg c) (Line a b) = Ok [crvSeg c].
Proof.
  intros F U E. cbn [KnifeCut]. unfold crvSeg at 1. cbn [Intersect]. destruct c as [s cs e ce]. cbn [c_s c_cs c_e c_ce BezierOps co_intersectLine] in *. rewrite E. cbn [map bind].
  assert (S : Split co (crvSeg (mkCrv s cs e ce)) (tP (mkCrv s cs e ce) (Fin u : T RNum)) = Ok [crvSeg (mkCrv s cs e ce)]).
  { unfold Split. rewrite tP_point by exact F. cbn [crvSeg sstart send c_s c_cs c_e c_ce]. destruct U as [-> | ->].
    - rewrite (curve_0 _ F). cbn [c_s]. rewrite EP_refl. reflexivity.
    - rewrite (curve_1 _ F). cbn [c_e]. rewrite EP_refl, orb_true_r. reflexivity. }
  rewrite S. reflexivity.
Qed.

(** Every curve is cut at most once, however often it crosses the line: the place of the cut is the first that is found for both halves, where it is an end. *)
Lemma knife_once c n f : finiteCrv c -> told_apart a b c -> halves_apart a b c ->
  (KnifeCut co n (2 + f) (crvSeg c) (Line a b) = Ok [crvSeg c] \/
  exists s l r, 0 < s < 1 /\ KnifeCut co n (2 + f) (crvSeg c) (Line a b) = Ok [crvSeg l; crvSeg r] /\ section c l 0 s /\ section c r s 1 /\
    In (Fin s) (IntersectsLine RTrig RBMath c a b)) /\
  (forall s rest, IntersectsLine RTrig RBMath c a b = Fin s :: rest -> EqualsPrecision (pnt (curveX c s) (curveY c s)) (c_s c) 7 = false -> EqualsPrecision (pnt (curveX c s) (curveY c s)) (c_e c) 7 = false ->
     ~ agree 7 s 0 -> ~ agree 7 s 1 -> exists l r, KnifeCut co n (2 + f) (crvSeg c) (Line a b) = Ok [crvSeg l; crvSeg r] /\ section c l 0 s /\ section c r s 1).
Proof.
  intros F TA H. change (2 + f)%nat with (S (S f)).
  assert (FIN : forall u rest, IntersectsLine RTrig RBMath c a b = u :: rest -> exists s, u = Fin s).
  { intros u rest E. rewrite (IntersectsLine_found a b c F Fa Fb N TA) in E. destruct (filter _ _) as [|s l]; [discriminate|]. injection E as <- _. eauto. }
  assert (ONE : forall s rest, IntersectsLine RTrig RBMath c a b = Fin s :: rest ->
    (0 <= s <= 1 /\ on_line a b (curveX c s) (curveY c s))).
  { intros s rest E. assert (I : In (Fin s) (IntersectsLine RTrig RBMath c a b)) by (rewrite E; left; reflexivity). apply (IntersectsLine_in c a b s F Fa Fb N TA) in I. tauto. }
  assert (CUT : forall s rest, IntersectsLine RTrig RBMath c a b = Fin s :: rest -> EqualsPrecision (pnt (curveX c s) (curveY c s)) (c_s c) 7 = false -> EqualsPrecision (pnt (curveX c s) (curveY c s)) (c_e c) 7 = false ->
     ~ agree 7 s 0 -> ~ agree 7 s 1 -> 0 < s < 1 /\ exists l r, KnifeCut co n (S (S f)) (crvSeg c) (Line a b) = Ok [crvSeg l; crvSeg r] /\ section c l 0 s /\ section c r s 1).
  { intros s rest E E0 E1 A0 A1. destruct (ONE s rest E) as [Hs Ho].
    assert (S0 : 0 < s < 1).
    { split.
      - destruct (Req_dec s 0) as [->|]; [|lra]. rewrite (curve_0 c F), EP_refl in E0. discriminate.
      - destruct (Req_dec s 1) as [->|]; [|lra]. rewrite (curve_1 c F), EP_refl in E1. discriminate. }
    split; [exact S0|].
    assert (HC : c = mkCrv (c_s c) (c_cs c) (c_e c) (c_ce c)) by (destruct c; reflexivity).
    destruct (C42_meets_at_point RTrig RBMath bf (c_s c) (c_cs c) (c_e c) (c_ce c) s) as (l & r & ES & M1 & M2 & M3 & M4 & GL & GR); rewrite <- ?HC; try assumption; try lra; [rewrite tP_point by exact F; assumption..|].
    rewrite <- HC in ES, M1, M2, GL, GR.
    assert (SS : section c l 0 s /\ section c r s 1).
    { clear GL GR. revert ES. unfold Split. rewrite tP_point by exact F. cbn [crvSeg sstart send]. rewrite E0, E1. cbn [orb]. rewrite <- HC. cbn [BezierOps co_split]. unfold opSplit, getTfromPoint. cbn [snd tP].
      assert (G : gtb (Fin s : T RNum) zero = true) by (apply Rltb_true; lra). rewrite G. cbn [bind].
      assert (P0 : PrecisionEquals (Fin s : T RNum) zero 7 = false) by (apply not_true_iff_false; exact A0).
      assert (P1 : PrecisionEquals (Fin s : T RNum) one 7 = false) by (apply not_true_iff_false; exact A1).
      rewrite P0, P1. cbn [orb]. rewrite SplitCurve_hull by lra. pose proof (hull_section c s F ltac:(lra)) as K. destruct (hullSplit c (Fin s : T RNum)) as [l' r']. cbn [bind map fst snd] in *.
      assert (CL : forall k : crv RNum, finiteCrv k -> bcC k = k).
      { intros [k1 k2 k3 k4] (H1 & H2 & H3 & H4). unfold bcC. cbn [c_s c_cs c_e c_ce] in *. rewrite !bpP_finite by assumption. reflexivity. }
      rewrite (CL l' (proj1 (proj1 K))), (CL r' (proj1 (proj2 K))). revert K. destruct l as [l1 l2 l3 l4], r as [r1 r2 r3 r4], l' as [l1' l2' l3' l4'], r' as [r1' r2' r3' r4']. unfold crvSeg. cbn [c_s c_cs c_e c_ce].
      intros K EE. injection EE. intros -> -> -> -> -> -> -> ->. exact K. }
    destruct SS as (SL & SR). pose proof (proj1 SL) as Fl. pose proof (proj1 SR) as Fr.
    exists l, r. split; [|split; assumption].
    destruct (first_section a b c l 0 s s rest F Fa Fb N TA (H s l S0 Ho (or_introl SL)) ltac:(lra) ltac:(lra) SL E ltac:(lra)) as (rl & EL).
    destruct (first_section a b c r s 1 s rest F Fa Fb N TA (H s r S0 Ho (or_intror SR)) ltac:(lra) ltac:(lra) SR E ltac:(lra)) as (rr & ER).
    assert (UL : KnifeCut co n (S f) (crvSeg l) (Line a b) = Ok [crvSeg l]) by (apply (uncut l n f ((s - 0) / (s - 0)) rl Fl); [|exact EL]; right; field; lra).
    assert (UR : KnifeCut co n (S f) (crvSeg r) (Line a b) = Ok [crvSeg r]) by (apply (uncut r n f ((s - s) / (1 - s)) rr Fr); [|exact ER]; left; field; lra).
    remember (S f) as f' eqn:Ef. cbn [KnifeCut]. unfold crvSeg at 1. cbn [Intersect]. rewrite <- HC. cbn [BezierOps co_intersectLine]. rewrite E. cbn [map bind]. rewrite ES. cbn [bind].
    rewrite UL, UR. reflexivity. }
  split; [|intros s rest E E0 E1 A0 A1; apply (CUT s rest E E0 E1 A0 A1)].
  destruct (IntersectsLine RTrig RBMath c a b) as [|u rest] eqn:E.
  - left. cbn [KnifeCut]. unfold crvSeg at 1. cbn [Intersect]. destruct c as [s cs e ce]. cbn [c_s c_cs c_e c_ce BezierOps co_intersectLine] in *. rewrite E. reflexivity.
  - destruct (FIN u rest eq_refl) as (s & ->). destruct (ONE s rest eq_refl) as [Hs Ho].
    assert (ST : Split co (crvSeg c) (tP c (Fin s : T RNum)) = Ok [crvSeg c] \/ (EqualsPrecision (pnt (curveX c s) (curveY c s)) (c_s c) 7 = false /\ EqualsPrecision (pnt (curveX c s) (curveY c s)) (c_e c) 7 = false /\ ~ agree 7 s 0 /\ ~ agree 7 s 1)).
    { unfold Split. rewrite tP_point by exact F. cbn [crvSeg sstart send].
      destruct (EqualsPrecision (pnt (curveX c s) (curveY c s)) (c_s c) 7) eqn:E0; [left; reflexivity|]. destruct (EqualsPrecision (pnt (curveX c s) (curveY c s)) (c_e c) 7) eqn:E1; [left; reflexivity|]. cbn [orb].
      cbn [BezierOps co_split]. unfold opSplit, getTfromPoint. cbn [snd tP].
      assert (S0 : 0 < s). { destruct (Req_dec s 0) as [->|]; [|lra]. rewrite (curve_0 c F), EP_refl in E0. discriminate. }
      assert (G : gtb (Fin s : T RNum) zero = true) by (apply Rltb_true; lra). rewrite G. cbn [bind].
      destruct (PrecisionEquals (Fin s : T RNum) zero 7) eqn:P0; [left; destruct c; reflexivity|]. destruct (PrecisionEquals (Fin s : T RNum) one 7) eqn:P1; [left; destruct c; reflexivity|].
      right. repeat split; auto; intros A; [apply not_true_iff_false in P0; apply P0, A|apply not_true_iff_false in P1; apply P1, A]. }
    destruct ST as [ST|(E0 & E1 & A0 & A1)].
    + left. cbn [KnifeCut]. unfold crvSeg at 1. cbn [Intersect]. destruct c as [s' cs e ce]. cbn [c_s c_cs c_e c_ce BezierOps co_intersectLine] in *. rewrite E. cbn [map bind]. rewrite ST. reflexivity.
    + right. destruct (CUT s rest eq_refl E0 E1 A0 A1) as (S0 & l & r & EK & SL & SR). exists s, l, r. split; [exact S0|]. split; [exact EK|]. split; [exact SL|]. split; [exact SR|]. left; reflexivity.
Qed.
End Knife.

Lemma side_on_line a b x y : side a b x y = 0 <-> on_line a b x y.
Proof. unfold side, on_line. lra. Qed.
Lemma onCurve c t : 0 <= t <= 1 -> onSeg (crvSeg c) (curveX c t) (curveY c t).
Proof. intros H. exists t. split; [exact H|]. destruct c; split; reflexivity. Qed.

(** However often a curve crosses a line, it is cut at most once: into what is before and after one of the crossings. *)
Theorem C80_at_most_once bf (a b : Pt RNum) (c : crv RNum) n f : finitePt a -> finitePt b -> X a <> X b \/ Y a <> Y b -> finiteCrv c -> told_apart a b c -> halves_apart a b c ->
  KnifeCut (BezierOps RTrig RBMath bf) n (2 + f) (crvSeg c) (Line a b) = Ok [crvSeg c] \/
  exists s l r, 0 < s < 1 /\ on_line a b (curveX c s) (curveY c s) /\
    KnifeCut (BezierOps RTrig RBMath bf) n (2 + f) (crvSeg c) (Line a b) = Ok [crvSeg l; crvSeg r] /\ section c l 0 s /\ section c r s 1.
Proof.
  intros Fa Fb NE F TA H. destruct (knife_once bf a b Fa Fb NE c n f F TA H) as [[E|(s & l & r & S0 & E & SL & SR & I)] _]; [left; exact E|right].
  exists s, l, r. apply (IntersectsLine_in c a b s F Fa Fb NE TA) in I. tauto.
Qed.

(** A curve that crosses the line once, within reach of its ends, is cut there, and neither half crosses the line. *)
Theorem C80_one_crossing bf (a b : Pt RNum) (c : crv RNum) n f s : finitePt a -> finitePt b -> X a <> X b \/ Y a <> Y b -> finiteCrv c -> told_apart a b c -> halves_apart a b c ->
  0 < s < 1 -> on_line a b (curveX c s) (curveY c s) -> (forall t, 0 <= t <= 1 -> on_line a b (curveX c t) (curveY c t) -> t = s) ->
  near_between (X a) (X b) (curveX c s) -> near_between (Y a) (Y b) (curveY c s) -> Y a <= Y b ->
  / 10 ^ 7 < Rabs (curveX c s - X (c_s c)) \/ / 10 ^ 7 < Rabs (curveY c s - Y (c_s c)) -> / 10 ^ 7 < Rabs (curveX c s - X (c_e c)) \/ / 10 ^ 7 < Rabs (curveY c s - Y (c_e c)) ->
  / 10 ^ 7 < s < 1 - / 10 ^ 7 ->
  exists l r, KnifeCut (BezierOps RTrig RBMath bf) n (2 + f) (crvSeg c) (Line a b) = Ok [crvSeg l; crvSeg r] /\ section c l 0 s /\ section c r s 1 /\ ~ crosses a b (crvSeg l) /\ ~ crosses a b (crvSeg r).
Proof.
  intros Fa Fb NE F TA H S0 So U R1 R2 Lab D0 D1 Ds.
  assert (I : In (Fin s) (IntersectsLine RTrig RBMath c a b)).
  { apply (IntersectsLine_in c a b s F Fa Fb NE TA). split; [split; [lra|exact So]|]. split; [exact R1|]. rewrite Rmin_left by exact Lab. exact R2. }
  destruct (knife_once bf a b Fa Fb NE c n f F TA H) as [_ K].
  assert (E : exists rest, IntersectsLine RTrig RBMath c a b = Fin s :: rest).
  { pose proof (IntersectsLine_found a b c F Fa Fb NE TA) as EF. destruct (filter _ _) as [|s' l']; [rewrite EF in I; destruct I|].
    assert (I' : In (Fin s') (IntersectsLine RTrig RBMath c a b)) by (rewrite EF; left; reflexivity). apply (IntersectsLine_in c a b s' F Fa Fb NE TA) in I'.
    destruct I' as [[B O] _]. rewrite (U s' B O) in EF. cbn [map] in EF. eauto. }
  destruct E as (rest & E). destruct F as (F1 & F2 & F3 & F4). pose proof (conj F1 (conj F2 (conj F3 F4))) as F.
  assert (EP : forall p, finitePt p -> (/ 10 ^ 7 < Rabs (curveX c s - X p) \/ / 10 ^ 7 < Rabs (curveY c s - Y p)) -> EqualsPrecision (pnt (curveX c s) (curveY c s)) p 7 = false).
  { intros p Fp D. rewrite Fp. apply not_true_iff_false. intros B. apply (agree_coord 7) in B. destruct B as [B1 B2]. apply agree_close in B1. apply agree_close in B2. destruct D; lra. }
  assert (AG : forall x, / 10 ^ 7 < Rabs (s - x) -> ~ agree 7 s x). { intros x D A. apply agree_close in A. lra. }
  destruct (K s rest E) as (l & r & EK & SL & SR).
  { apply EP; [|exact D0]. exact F1. }
  { apply EP; [|exact D1]. first [exact F2|exact F3|exact F4]. }
  { apply AG. rewrite Rminus_0_r, Rabs_right; lra. }
  { apply AG. rewrite Rabs_left; lra. }
  exists l, r. split; [exact EK|]. split; [exact SL|]. split; [exact SR|].
  assert (CONT : forall u v, 0 <= u <= 1 -> 0 <= v <= 1 -> (u <= s /\ v <= s \/ s <= u /\ s <= v) -> 0 < side a b (curveX c u) (curveY c u) -> side a b (curveX c v) (curveY c v) < 0 -> False).
  { intros u v Hu Hv W Pu Pv. set (g := fun t => side a b (curveX c t) (curveY c t)).
    assert (C : continuity g).
    { unfold g, side, curveX, curveY, cubic. intros t. apply derivable_continuous_pt. reg. }
    assert (Z : exists z, (Rmin u v <= z <= Rmax u v) /\ g z = 0).
    { destruct (IVT_cor g (Rmin u v) (Rmax u v) C) as (z & B & Z); [apply Rle_trans with u; [apply Rmin_l|apply Rmax_l]| |exists z; auto].
      unfold Rmin, Rmax. destruct (Rle_dec u v); change (g u) with (side a b (curveX c u) (curveY c u)); change (g v) with (side a b (curveX c v) (curveY c v)); nra. }
    destruct Z as (z & B & Z). unfold g in Z. apply side_on_line in Z.
    assert (Es : z = s). { apply U; [|exact Z]. unfold Rmin, Rmax in B. destruct (Rle_dec u v); lra. }
    subst z. apply side_on_line in So.
    assert (u = s \/ v = s) by (unfold Rmin, Rmax in B; destruct (Rle_dec u v); lra). destruct H0 as [-> | ->]; lra. }
  split; intros (x & y & x' & y' & (t & Ht & -> & ->) & (t' & Ht' & -> & ->) & P & M).
  - destruct SL as (_ & _ & G). change (0 < side a b (curveX l t) (curveY l t)) in P. change (side a b (curveX l t') (curveY l t') < 0) in M.
    destruct (G t) as [-> ->] in P. destruct (G t') as [-> ->] in M. refine (CONT (0 + (s - 0) * t) (0 + (s - 0) * t') _ _ _ P M); [nra|nra|left; nra].
  - destruct SR as (_ & _ & G). change (0 < side a b (curveX r t) (curveY r t)) in P. change (side a b (curveX r t') (curveY r t') < 0) in M.
    destruct (G t) as [-> ->] in P. destruct (G t') as [-> ->] in M. refine (CONT (s + (1 - s) * t) (s + (1 - s) * t') _ _ _ P M); [nra|nra|right; nra].
Qed.

(** REFUTED: every curve that crosses the line and comes back is left with a piece that crosses the line. *)
Theorem C80_twice_refuted bf (a b : Pt RNum) (c : crv RNum) n f u v w : finitePt a -> finitePt b -> X a <> X b \/ Y a <> Y b -> finiteCrv c -> told_apart a b c -> halves_apart a b c ->
  0 <= u < v -> v < w <= 1 -> side a b (curveX c u) (curveY c u) * side a b (curveX c v) (curveY c v) < 0 -> side a b (curveX c v) (curveY c v) * side a b (curveX c w) (curveY c w) < 0 ->
  exists l, KnifeCut (BezierOps RTrig RBMath bf) n (2 + f) (crvSeg c) (Line a b) = Ok l /\ Exists (crosses a b) l.
Proof.
  intros Fa Fb NE F TA H Luv Lvw P1 P2.
  assert (CR : forall d p q x y, section c d p q -> p < q -> p <= x <= q -> p <= y <= q -> side a b (curveX c x) (curveY c x) * side a b (curveX c y) (curveY c y) < 0 -> crosses a b (crvSeg d)).
  { intros d p q x y (_ & _ & G) Lpq Hx Hy S.
    assert (Q : forall z, p <= z <= q -> 0 <= (z - p) / (q - p) <= 1 /\ curveX d ((z - p) / (q - p)) = curveX c z /\ curveY d ((z - p) / (q - p)) = curveY c z).
    { intros z Hz. destruct (G ((z - p) / (q - p))) as [-> ->]. replace (p + (q - p) * ((z - p) / (q - p))) with z by (field; lra). split; [|auto].
      assert (E : (z - p) / (q - p) * (q - p) = z - p) by (field; lra). split; [apply Rmult_le_pos; [lra|apply Rlt_le, Rinv_0_lt_compat; lra]|].
      apply (Rmult_le_reg_r (q - p)); lra. }
    destruct (Q x Hx) as (Bx & X1 & X2). destruct (Q y Hy) as (By & Y1 & Y2).
    pose proof (onCurve d _ Bx) as Ox. pose proof (onCurve d _ By) as Oy. rewrite X1, X2 in Ox. rewrite Y1, Y2 in Oy.
    destruct (Rlt_le_dec 0 (side a b (curveX c x) (curveY c x))) as [S1|S1].
    - exists (curveX c x), (curveY c x), (curveX c y), (curveY c y). split; [exact Ox|]. split; [exact Oy|]. split; [exact S1|]. nra.
    - exists (curveX c y), (curveY c y), (curveX c x), (curveY c x). split; [exact Oy|]. split; [exact Ox|]. destruct (Req_dec (side a b (curveX c x) (curveY c x)) 0) as [Z|Z]; [rewrite Z in S; lra|]. split; nra. }
  destruct (C80_at_most_once bf a b c n f Fa Fb NE F TA H) as [E|(s & l & r & S0 & So & E & SL & SR)].
  - exists [crvSeg c]. split; [exact E|]. left. apply (CR c 0 1 u v); try lra. apply section_refl, F.
  - exists [crvSeg l; crvSeg r]. split; [exact E|]. destruct (Rle_lt_dec v s) as [L|L].
    + left. apply (CR l 0 s u v SL); lra.
    + right. left. apply (CR r s 1 v w SR); try lra.
Qed.

(** examples: a valley that crosses the axis at 1/4 and 3/4, and half of it *)
Definition axisA : Pt RNum := pnt 0 0.
Definition axisB : Pt RNum := pnt 10 0.
Definition valley : crv RNum := mkCrv (pnt 0 9) (pnt 2 (-7)) (pnt 6 9) (pnt 4 (-7)).
Lemma off_axis10 p : off axisA axisB p = Y p.
Proof.
  unfold off, axisA, axisB. rewrite !pnt_X, !pnt_Y. replace ((10 - 0) * (10 - 0) + (0 - 0) * (0 - 0)) with (10 * 10) by ring. rewrite sqrt_square by lra. field.
Qed.

(** the coefficients of a section *)
Lemma sect_coefs a b c d u v : section c d u v ->
  let D := off a b (c_e c) - 3 * off a b (c_ce c) + 3 * off a b (c_cs c) - off a b (c_s c) in let A := 3 * off a b (c_s c) - 6 * off a b (c_cs c) + 3 * off a b (c_ce c) in
  let B := 3 * off a b (c_cs c) - 3 * off a b (c_s c) in let k := v - u in
  off a b (c_e d) - 3 * off a b (c_ce d) + 3 * off a b (c_cs d) - off a b (c_s d) = D * (k * k * k) /\
  3 * off a b (c_s d) - 6 * off a b (c_cs d) + 3 * off a b (c_ce d) = (3 * D * u + A) * (k * k) /\
  3 * off a b (c_cs d) - 3 * off a b (c_s d) = (3 * D * u * u + 2 * A * u + B) * k /\ off a b (c_s d) = poly D A B (off a b (c_s c)) u.
Proof.
  intros (F & _ & HX) D A B k. apply poly_ext. intros t. rewrite <- off_curve. destruct (HX t) as [-> ->]. rewrite off_curve. fold D A B. unfold poly, k. ring.
Qed.
Lemma valley_finite : finiteCrv valley.
Proof. repeat split. Qed.
Lemma valley_apart : told_apart axisA axisB valley.
Proof.
  unfold told_apart. rewrite !off_axis10. unfold valley. cbn [c_s c_cs c_e c_ce]. rewrite !pnt_Y. split; [left; lra|]. split; [intros _; right; rewrite Rabs_right; lra|]. split; [intros _ E; lra|]. intros (E & _). lra.
Qed.
Lemma valley_height t : curveY valley t = 48 * (t - 1 / 4) * (t - 3 / 4).
Proof. unfold curveY, cubic, valley. cbn [c_s c_cs c_e c_ce]. rewrite !pnt_Y. field. Qed.
Lemma axis_line x y : on_line axisA axisB x y <-> y = 0.
Proof. unfold on_line, axisA, axisB. rewrite !pnt_X, !pnt_Y. split; intros; lra. Qed.
Lemma valley_halves : halves_apart axisA axisB valley.
Proof.
  intros s d S0 O HS. apply axis_line in O. rewrite valley_height in O.
  assert (Es : s = 1 / 4 \/ s = 3 / 4) by (apply Rmult_integral in O; destruct O as [O|O]; [left|right]; lra).
  assert (C : exists u v, 1 / 4 <= v - u /\ section valley d u v) by (destruct HS as [HS|HS]; [exists 0, s|exists s, 1]; (split; [destruct Es; lra|exact HS])).
  destruct C as (u & v & K & HS'). destruct (sect_coefs axisA axisB valley d u v HS') as (E1 & E2 & _).
  cbv zeta in E1, E2. repeat rewrite off_axis10 in E1. repeat rewrite off_axis10 in E2. unfold valley in E1, E2. cbn [c_s c_cs c_e c_ce] in E1, E2. repeat rewrite pnt_Y in E1. repeat rewrite pnt_Y in E2.
  unfold told_apart. rewrite !off_axis10. assert (K2 : 1 / 16 <= (v - u) * (v - u)) by nra.
  assert (Z : Y (c_e d) - 3 * Y (c_ce d) + 3 * Y (c_cs d) - Y (c_s d) = 0) by lra.
  assert (W : 3 * Y (c_s d) - 6 * Y (c_cs d) + 3 * Y (c_ce d) = 48 * ((v - u) * (v - u))) by lra.
  split; [left; exact Z|]. split; [intros _; right; rewrite W, Rabs_right; lra|]. split; [intros _ E; lra|]. intros (G1 & G2 & G3 & G4). lra.
Qed.
Example C80_twice_ex bf n : exists l, KnifeCut (BezierOps RTrig RBMath bf) n 2 (crvSeg valley) (Line axisA axisB) = Ok l /\ Exists (crosses axisA axisB) l.
Proof.
  apply (C80_twice_refuted bf axisA axisB valley n 0 0 (1 / 2) 1); try reflexivity; try lra; try apply valley_apart; try apply valley_halves; try (repeat split).
  - left. unfold axisA, axisB. rewrite !pnt_X. lra.
  - unfold side. rewrite !valley_height. unfold axisA, axisB. rewrite !pnt_X, !pnt_Y. lra.
  - unfold side. rewrite !valley_height. unfold axisA, axisB. rewrite !pnt_X, !pnt_Y. lra.
Qed.
(** a curve that falls through the axis: its height at t is 3 - 6 t^3 *)
Definition fall : crv RNum := mkCrv (pnt 0 3) (pnt 1 3) (pnt 3 (-3)) (pnt 2 3).
Lemma fall_height t : curveY fall t = 3 - 6 * (t * t * t).
Proof. unfold curveY, cubic, fall. cbn [c_s c_cs c_e c_ce]. rewrite !pnt_Y. ring. Qed.
Lemma fall_x t : curveX fall t = 3 * t.
Proof. unfold curveX, cubic, fall. cbn [c_s c_cs c_e c_ce]. rewrite !pnt_X. ring. Qed.
Lemma fall_root t : 3 - 6 * (t * t * t) = 0 -> 3 / 4 < t < 4 / 5.
Proof. intros H. split. - destruct (Rlt_le_dec (3 / 4) t); [assumption|exfalso]. assert (t * t * t <= 27 / 64) by (destruct (Rle_lt_dec t 0); [assert (0 <= t * t) by nra; nra|assert (t * t <= 9 / 16) by nra; nra]). lra.
  - destruct (Rlt_le_dec t (4 / 5)); [assumption|exfalso]. assert (64 / 125 <= t * t * t) by (assert (16 / 25 <= t * t) by nra; nra). lra. Qed.
Lemma fall_halves : told_apart axisA axisB fall /\ halves_apart axisA axisB fall.
Proof.
  split.
  - unfold told_apart. rewrite !off_axis10. unfold fall. cbn [c_s c_cs c_e c_ce]. rewrite !pnt_Y. split; [right; rewrite Rabs_left; lra|]. split; [intros; lra|]. split; [intros; lra|]. intros (E & _). lra.
  - intros s d S0 O HS. apply axis_line in O. rewrite fall_height in O. apply fall_root in O.
    assert (C : exists u v, 1 / 5 <= v - u /\ section fall d u v) by (destruct HS as [HS|HS]; [exists 0, s|exists s, 1]; (split; [lra|exact HS])).
    destruct C as (u & v & K & HS'). destruct (sect_coefs axisA axisB fall d u v HS') as (E1 & _).
    cbv zeta in E1. repeat rewrite off_axis10 in E1. unfold fall in E1. cbn [c_s c_cs c_e c_ce] in E1. repeat rewrite pnt_Y in E1.
    unfold told_apart. rewrite !off_axis10. assert (K2 : 1 / 25 <= (v - u) * (v - u)) by nra. assert (K3 : 1 / 125 <= (v - u) * (v - u) * (v - u)) by nra.
    assert (Z : Y (c_e d) - 3 * Y (c_ce d) + 3 * Y (c_cs d) - Y (c_s d) = - 6 * ((v - u) * (v - u) * (v - u))) by lra.
    split; [right; rewrite Z, Rabs_left; lra|]. split; [intros; lra|]. split; [intros; lra|]. intros (G1 & G2 & G3 & G4). lra.
Qed.
Example C80_one_ex bf n : exists s l r, KnifeCut (BezierOps RTrig RBMath bf) n 2 (crvSeg fall) (Line axisA axisB) = Ok [crvSeg l; crvSeg r] /\ section fall l 0 s /\ section fall r s 1 /\ ~ crosses axisA axisB (crvSeg l) /\ ~ crosses axisA axisB (crvSeg r).
Proof.
  assert (R0 : exists s, 0 <= s <= 1 /\ 3 - 6 * (s * s * s) = 0).
  { destruct (IVT_cor (fun t => 3 - 6 * (t * t * t)) 0 1) as (z & B & Z); [intros t; apply derivable_continuous_pt; reg|lra|lra|]. exists z. auto. }
  destruct R0 as (s & Hs & Z). pose proof (fall_root s Z) as B. exists s. assert (P7 : / 10 ^ 7 = 1 / 10000000) by (simpl; lra).
  destruct fall_halves as [TA HA].
  apply (C80_one_crossing bf axisA axisB fall n 0 s); try reflexivity; try assumption; try lra; try (repeat split; reflexivity).
  - left. unfold axisA, axisB. rewrite !pnt_X. lra.
  - apply axis_line. rewrite fall_height. exact Z.
  - intros t Ht O. apply axis_line in O. rewrite fall_height in O. apply cube_inj. lra.
  - unfold near_between, axisA, axisB. rewrite !pnt_X, fall_x. rewrite Rmin_left, Rmax_right by lra. lra.
  - unfold near_between, axisA, axisB. rewrite !pnt_Y, fall_height, Z. rewrite Rmin_left, Rmax_right by lra. lra.
  - unfold axisA, axisB. rewrite !pnt_Y. lra.
  - left. rewrite fall_x. unfold fall. cbn [c_s]. rewrite pnt_X, P7. rewrite Rabs_right; lra.
  - left. rewrite fall_x. unfold fall. cbn [c_e]. rewrite pnt_X, P7. rewrite Rabs_left; lra.
Qed.
Example C80_at_most_once_ex bf n : forall l, KnifeCut (BezierOps RTrig RBMath bf) n 2 (crvSeg valley) (Line axisA axisB) = Ok l -> (length l <= 2)%nat.
Proof.
  intros l E. destruct (C80_at_most_once bf axisA axisB valley n 0) as [K|(s & x & y & _ & _ & K & _)]; try reflexivity; try apply valley_apart; try apply valley_halves; try (repeat split; reflexivity).
  - left. unfold axisA, axisB. rewrite !pnt_X. lra.
  - cbn [Nat.add] in K. rewrite E in K. injection K as ->. cbn. lia.
  - cbn [Nat.add] in K. rewrite E in K. injection K as ->. cbn. lia.
Qed.

(** REFUTED in float64, too: slicing at height 0, which removes what is above it, keeps the start of the valley at height 9.
    [level]: the angle of a line to the right is 0, the sine of 0 is 0 and the cosine 1, which is all that is asked for. *)
Definition level : Trig FNum := mkTrig FNum (fun x => x) (fun _ => one) (fun x => x) (fun y _ => y) (flt 314159 (-5)).
Definition noBMath : BMath FNum := mkBMath (fun x => x) (fun x _ => x) (fun x => x).
Theorem C80_slice_refuted :
  HSlice (BezierOps level noBMath 0) 3 10 (fz 0) 3 [mv 0 0 0 9; Curve (pt 0 9) (pt 2 (-7)) (pt 6 9) (pt 4 (-7))] =
    Ok [mv 0 0 0 9; Curve (pt 0 9) (@mkPt FNum (flt 15 (-1)) (fz (-3))) (@mkPt FNum (flt 45 (-1)) (fz 0)) (pt 3 (-6))] /\
  (** and of a hill, which rises above the height between a quarter and three quarters, nothing is removed *)
  exists cs1 ce1 cs2 ce2 m, HSlice (BezierOps level noBMath 0) 3 10 (fz 0) 3 [mv 0 0 0 (-9); Curve (pt 0 (-9)) (pt 2 7) (pt 6 (-9)) (pt 4 7)] =
    Ok [mv 0 0 0 (-9); Curve (pt 0 (-9)) cs1 m ce1; Curve m cs2 (pt 6 (-9)) ce2].
Proof.
  split; [byr|].
  exists (@mkPt FNum (flt 5 (-1)) (fz (-5))), (@mkPt FNum (fz 1) (fz (-2))), (pt 3 6), (@mkPt FNum (flt 45 (-1)) (fz 3)), (@mkPt FNum (flt 15 (-1)) (fz 0)). byr.
Qed.

(** *** slicing paths with curves *)
Lemma off_level x1 x2 y p : x1 < x2 -> off (pnt x1 y) (pnt x2 y) p = Y p - y.
Proof.
  intros L. unfold off. rewrite !pnt_X, !pnt_Y. replace ((x2 - x1) * (x2 - x1) + (y - y) * (y - y)) with ((x2 - x1) * (x2 - x1)) by ring. rewrite sqrt_square by lra. field. lra.
Qed.
Lemma level_line x1 x2 y a b : x1 < x2 -> on_line (pnt x1 y) (pnt x2 y) a b <-> b = y.
Proof. intros L. unfold on_line. rewrite !pnt_X, !pnt_Y. split; intros H; [|subst; lra]. assert (E : (x2 - x1) * (b - y) = 0) by lra. apply Rmult_integral in E. lra. Qed.
Lemma told_apart_level x1 x2 x1' x2' y c : x1 < x2 -> x1' < x2' -> told_apart (pnt x1 y) (pnt x2 y) c -> told_apart (pnt x1' y) (pnt x2' y) c.
Proof. intros L L'. unfold told_apart. rewrite !(off_level _ _ _ _ L), !(off_level _ _ _ _ L'). auto. Qed.
Lemma halves_apart_level x1 x2 x1' x2' y c : x1 < x2 -> x1' < x2' -> halves_apart (pnt x1 y) (pnt x2 y) c -> halves_apart (pnt x1' y) (pnt x2' y) c.
Proof. intros L L' H s d S0 O HS. apply (told_apart_level x1 x2); auto. apply (H s d S0); auto. apply (level_line x1' x2' y) in O; [|exact L']. apply level_line; auto. Qed.

(** the whole curve is on one side of the height *)
Definition below (y : R) (c : crv RNum) : Prop := forall t, 0 <= t <= 1 -> curveY c t <= y.
Definition above (y : R) (c : crv RNum) : Prop := forall t, 0 <= t <= 1 -> y <= curveY c t.
(** passes the height once, in one place, which is not too close to its ends *)
Definition passes (y : R) (c : crv RNum) : Prop := exists s, / 10 ^ 7 < s < 1 - / 10 ^ 7 /\ curveY c s = y /\ (forall t, 0 <= t <= 1 -> curveY c t = y -> t = s) /\
  (/ 10 ^ 7 < Rabs (curveX c s - X (c_s c)) \/ / 10 ^ 7 < Rabs (y - Y (c_s c))) /\ (/ 10 ^ 7 < Rabs (curveX c s - X (c_e c)) \/ / 10 ^ 7 < Rabs (y - Y (c_e c))).
(** a curve at which the height can be told apart, to the right of the Y axis, that passes the height at most once *)
Definition simple (y : R) (c : crv RNum) : Prop :=
  told_apart (pnt 0 y) (pnt 1 y) c /\ halves_apart (pnt 0 y) (pnt 1 y) c /\ (forall t, 0 <= t <= 1 -> 0 <= curveX c t) /\ (below y c \/ above y c \/ passes y c).

Lemma section_below y c d u v : 0 <= u <= 1 -> 0 <= v <= 1 -> section c d u v -> below y c -> below y d.
Proof. intros Hu Hv (_ & _ & G) B t Ht. destruct (G t) as [_ ->]. apply B. split; nra. Qed.
Lemma section_above y c d u v : 0 <= u <= 1 -> 0 <= v <= 1 -> section c d u v -> above y c -> above y d.
Proof. intros Hu Hv (_ & _ & G) B t Ht. destruct (G t) as [_ ->]. apply B. split; nra. Qed.
Lemma not_crosses_level x1 x2 y d : x1 < x2 -> ~ crosses (pnt x1 y) (pnt x2 y) (crvSeg d) -> below y d \/ above y d.
Proof.
  intros L NC. destruct (Classical_Prop.classic (below y d)) as [B|NB]; [left; exact B|right]. intros t Ht. destruct (Rle_lt_dec y (curveY d t)) as [H|H]; [exact H|exfalso].
  apply NB. intros t' Ht'. destruct (Rle_lt_dec (curveY d t') y) as [H'|H']; [exact H'|exfalso]. apply NC.
  exists (curveX d t'), (curveY d t'), (curveX d t), (curveY d t). split; [apply onCurve, Ht'|]. split; [apply onCurve, Ht|]. unfold side. rewrite !pnt_X, !pnt_Y. split; nra.
Qed.

(** the pieces of such a curve are on one side *)
Definition sided (y : R) (h : seg RNum) : Prop := exists d, h = crvSeg d /\ finiteCrv d /\ smallCrv d /\ (below y d \/ above y d).
Lemma simple_pieces bf n f x1 x2 y c : x1 <= 0 -> x1 < x2 -> (forall t, 0 <= t <= 1 -> curveX c t <= x2) -> finiteCrv c -> smallCrv c -> simple y c ->
  exists r, KnifeCut (BezierOps RTrig RBMath bf) n (2 + f) (crvSeg c) (Line (pnt x1 y) (pnt x2 y)) = Ok r /\ Forall (sided y) r.
Proof.
  intros L0 L HX F SM (TA & HA & HP & C).
  assert (L01 : 0 < 1) by lra.
  apply (told_apart_level 0 1 x1 x2 y c L01 L) in TA. apply (halves_apart_level 0 1 x1 x2 y c L01 L) in HA.
  assert (NE : X (pnt x1 y) <> X (pnt x2 y) \/ Y (pnt x1 y) <> Y (pnt x2 y)) by (left; rewrite !pnt_X; lra).
  assert (DEC : (below y c \/ above y c) \/ passes y c) by tauto. clear C. destruct DEC as [C|C].
  - destruct (C80_at_most_once bf (pnt x1 y) (pnt x2 y) c n f eq_refl eq_refl NE F TA HA) as [E|(s & l & r & S0 & So & E & SL & SR)].
    + exists [crvSeg c]. split; [exact E|]. constructor; [|constructor]. exists c. auto.
    + exists [crvSeg l; crvSeg r]. split; [exact E|].
      constructor; [exists l|constructor; [exists r|constructor]]; (split; [reflexivity|]); [destruct SL as (Fl & Sl & Gl)|destruct SR as (Fl & Sl & Gl)]; (split; [exact Fl|]); (split; [apply Sl, SM|]); destruct C as [C|C].
      * left. apply (section_below y c l 0 s); try lra; [split; auto|exact C].
      * right. apply (section_above y c l 0 s); try lra; [split; auto|exact C].
      * left. apply (section_below y c r s 1); try lra; [split; auto|exact C].
      * right. apply (section_above y c r s 1); try lra; [split; auto|exact C].
  - destruct C as (s & Bs & Es & U & D0 & D1). pose proof (Rinv_0_lt_compat _ (pow10_pos 7)) as P7.
    destruct (C80_one_crossing bf (pnt x1 y) (pnt x2 y) c n f s eq_refl eq_refl NE F TA HA) as (l & r & E & SL & SR & NL & NR); rewrite ?pnt_X, ?pnt_Y; try lra.
    + apply level_line; auto.
    + intros t Ht O. apply level_line in O; auto.
    + unfold near_between. rewrite Rmin_left, Rmax_right by lra. specialize (HX s ltac:(lra)). specialize (HP s ltac:(lra)). lra.
    + unfold near_between. rewrite Es. rewrite Rmin_left, Rmax_right by lra. lra.
    + rewrite Es. exact D0.
    + rewrite Es. exact D1.
    + exists [crvSeg l; crvSeg r]. split; [exact E|]. apply (not_crosses_level _ _ _ _ L) in NL. apply (not_crosses_level _ _ _ _ L) in NR.
      constructor; [exists l|constructor; [exists r|constructor]]; (split; [reflexivity|]); [destruct SL as (Fl & Sl & Gl)|destruct SR as (Fl & Sl & Gl)]; auto.
Qed.

(** what is not removed is below, or within the precision *)
Definition under (prec : nat) (y a : R) : Prop := a <= y \/ agree prec a y.
Lemma kept_curve bf prec y h : sided y h -> sliceRemoved (BezierOps RTrig RBMath bf) (Fin y : T RNum) prec h = Ok false ->
  exists d, h = crvSeg d /\ finiteCrv d /\ (below y d \/ (under prec y (Y (c_s d)) /\ under prec y (Y (c_cs d)) /\ under prec y (Y (c_e d)) /\ under prec y (Y (c_ce d)))).
Proof.
  intros (d & -> & F & SM & C) E. exists d. split; [reflexivity|]. split; [exact F|]. destruct C as [C|C]; [left; exact C|right].
  destruct (BezierOps_boxOk RTrig RBMath bf d F SM) as (tl & br & EB & (Ft & _ & _ & (RY & (x & t & Ht & EX & EY) & _))).
  unfold sliceRemoved in E. unfold crvSeg in E at 1. destruct (forallb (fun a => geP a (Fin y : T RNum) prec) _) eqn:E1 in E; [discriminate|].
  destruct (forallb (fun a => leP a (Fin y : T RNum) prec) _) eqn:E2 in E.
  - unfold crvSeg in E2. cbn [forallb] in E2. rewrite !andb_true_iff in E2. destruct E2 as (G1 & G2 & G3 & G4 & _). destruct F as (F1 & F2 & F3 & F4).
    assert (U : forall p : Pt RNum, finitePt p -> leP (py p) (Fin y : T RNum) prec = true -> under prec y (Y p)).
    { intros p Fp H. rewrite Fp in H. cbn [py pnt] in H. apply PrecisionCompare_le in H. unfold under. destruct H as [H|H]; [left; lra|right; exact H]. }
    split; [apply U; assumption|]. split; [apply U; assumption|]. split; apply U; assumption.
  - exfalso. unfold segBox in E. unfold crvSeg in E. destruct d as [s cs e ce]. cbn [c_s c_cs c_e c_ce] in E. rewrite EB in E. cbn [bind] in E.
    assert (G : geP (py tl) (Fin y : T RNum) prec = true).
    { rewrite Ft. cbn [py pnt]. apply PrecisionCompare_ge. left. rewrite EY. apply (C t Ht). }
    rewrite G in E. discriminate.
Qed.

(** a segment that can be sliced: lines as in C41, curves as above *)
Definition sliceable (n : nat) (y : R) (g : seg RNum) : Prop :=
  match g with
  | Move _ _ => True
  | Line s e => 0 <= X s /\ 0 <= X e /\ notFlat n g /\ clear y (Y s) /\ clear y (Y e)
  | Curve s cs e ce => simple y (mkCrv s cs e ce)
  end.

(** Full claim: slicing removes everything above the height.  Proved for paths of moves, lines and curves that pass the height at most once.  Missing: curves that
    pass it twice or three times, for which it is false ([C80_twice_refuted], [C80_slice_refuted]), and what is missing in C41 for lines. *)
Theorem C80_slice_below_partial bf n fuel y prec (p : list (seg RNum)) : Forall tame p -> p <> [] -> Forall (sliceable n y) p ->
  (exists g, In g (drawn p) /\ (/ 10 ^ n < X (sstart g) \/ / 10 ^ n < X (send g))) ->
  exists q, HSlice (BezierOps RTrig RBMath bf) (Z.of_nat n) (3 + fuel) (Fin y : T RNum) prec p = Ok q /\
    forall h a b, In h (drawn q) -> onSeg h a b -> b <= y + / 10 ^ prec.
Proof.
  intros HT Hne HD (gw & Hgw & Hw). set (co := BezierOps RTrig RBMath bf).
  destruct p as [|g0 l]; [congruence|].
  destruct (BoundingBoxWithWhitespace_spec co (BezierOps_boxOk RTrig RBMath bf) g0 l HT) as (tl & br & (_ & F2 & (B1 & _) & _) & E).
  unfold HSlice. rewrite E. cbn [bind px pnt]. set (x1 := Rmin 0 (X (sstart g0))) in *.
  set (x2 := Rmax (X br) (X (send (last (g0 :: l) g0)))) in *.
  rewrite !NewPoint_fin. fold (pnt x1 y). fold (pnt x2 y).
  assert (P : forall g x, In g (drawn (g0 :: l)) -> (exists b, onSeg g x b) -> x <= x2).
  { intros g x Hg (b & O). apply drawn_In in Hg as [Hg V]. assert (X tl <= x <= X br); [|unfold x2; pose proof (Rmax_l (X br) (X (send (last (g0 :: l) g0)))); lra].
      apply B1. exists b. destruct Hg as [->|Hg]; [left; auto|right; exists g; auto]. }
  assert (ENDS : forall g, In g (drawn (g0 :: l)) -> (exists b, onSeg g (X (sstart g)) b) /\ (exists b, onSeg g (X (send g)) b)).
  { intros g Hg. apply drawn_In in Hg as [_ V]. destruct g as [s e|s e|s cs e ce]; [destruct V| |]; cbn [sstart send].
    - split; [exists (Y s), 0|exists (Y e), 1]; lra.
    - split; [exists (Y s), 0|exists (Y e), 1]; unfold cubic; lra. }
  assert (POS : forall g, In g (drawn (g0 :: l)) -> 0 <= X (sstart g) /\ 0 <= X (send g)).
  { intros g Hg. apply drawn_In in Hg as [Hg V]. rewrite Forall_forall in HD. specialize (HD g Hg). destruct g as [s e|s e|s cs e ce]; [destruct V| |]; cbn [sstart send sliceable] in *; [tauto|].
    destruct HD as (_ & _ & HP & _). pose proof (HP 0 ltac:(lra)) as H0. pose proof (HP 1 ltac:(lra)) as H1. unfold curveX, cubic in H0, H1. cbn [c_s c_cs c_e c_ce] in H0, H1. lra. }
  assert (X0 : x1 <= 0) by apply Rmin_l.
  assert (W : / 10 ^ n < x2).
  { destruct (ENDS gw Hgw) as [O1 O2]. apply (P gw) in O1; [|exact Hgw]. apply (P gw) in O2; [|exact Hgw]. destruct Hw; lra. }
  pose proof (Rinv_0_lt_compat _ (pow10_pos n)) as EN.
  assert (NV : ~ agree n x1 x2).
  { intros A. apply agree_close in A. unfold Rabs in A. destruct (Rcase_abs _) in A; lra. }
  set (knife := Line (pnt x1 y) (pnt x2 y)).
  assert (CUT : forall g, In g (g0 :: l) -> exists r, KnifeCut co (Z.of_nat n) (3 + fuel) g knife = Ok r /\
     ((exists s e, g = Move s e /\ r = [g]) \/ Forall (fun h => oneSided y h \/ sided y h) r)).
  { intros g Hg. pose proof HD as HD'. rewrite Forall_forall in HD'. specialize (HD' g Hg). pose proof HT as HT'. rewrite Forall_forall in HT'. specialize (HT' g Hg).
    destruct g as [s e|s e|s cs e ce].
    - exists [Move s e]. split; [reflexivity|]. left. eauto.
    - assert (Hd : In (Line s e) (drawn (g0 :: l))) by (apply drawn_In; split; [auto|exact I]).
      destruct HT' as [[Fs Fe] _]. cbn [sliceable] in HD'. destruct HD' as (P1 & P2 & P3 & P4 & P5). destruct (ENDS _ Hd) as [P6 P7]. apply (P _ _ Hd) in P6. apply (P _ _ Hd) in P7. cbn [sstart send] in P6, P7.
      rewrite Fs, Fe in *. rewrite pnt_X in P1, P2, P6, P7. rewrite pnt_Y in P4, P5. destruct (C42_line_knife_terminates co n fuel x1 y x2 y (X s) (Y s) (X e) (Y e)) as [r Er].
      exists r. split; [exact Er|]. right. eapply Forall_impl; [|eapply (knife_pieces co n x1 x2 y NV); exact Er].
      intros h Hh. left. eapply piece_oneSided; eauto; lra.
    - assert (Hd : In (Curve s cs e ce) (drawn (g0 :: l))) by (apply drawn_In; split; [auto|exact I]).
      destruct HT' as [Fc Sc]. destruct (simple_pieces bf (Z.of_nat n) (1 + fuel) x1 x2 y (mkCrv s cs e ce) X0 ltac:(lra)) as (r & Er & Hr).
      + intros t Ht. apply (P _ _ Hd). exists (curveY (mkCrv s cs e ce) t). apply (onCurve (mkCrv s cs e ce) t Ht).
      + exact Fc.
      + exact Sc.
      + exact HD'.
      + exists r. split; [exact Er|]. right. eapply Forall_impl; [|exact Hr]. auto. }
  assert (ALL : forall ps, (forall g, In g ps -> In g (g0 :: l)) -> exists cut, knifeAll co (Z.of_nat n) (3 + fuel) knife ps = Ok cut /\
     Forall (fun h => isMove h = true \/ oneSided y h \/ sided y h) cut).
  { induction ps as [|g r IH]; intros Hi; [exists []; split; [reflexivity|constructor]|].
    destruct (CUT g (Hi g (or_introl eq_refl))) as (rg & Eg & Hg). destruct IH as (cr & Er & Hr); [intros; apply Hi; right; auto|].
    exists (rg ++ cr). cbn [knifeAll]. rewrite Eg. cbn [bind]. rewrite Er. cbn [bind]. split; [reflexivity|]. apply Forall_app. split; [|exact Hr].
    destruct Hg as [(s & e & -> & ->)|Hg]; [constructor; [left; reflexivity|constructor]|]. eapply Forall_impl; [|exact Hg]. auto. }
  destruct (ALL (g0 :: l) ltac:(auto)) as (cut & EC & HC). rewrite EC. cbn [bind].
  assert (FIL : exists kept, slice_filter co (Fin y : T RNum) prec cut = Ok kept).
  { clear EC. induction HC as [|h r Hh Hr IH]; [exists []; reflexivity|]. destruct IH as (k & Ek). cbn [slice_filter].
    assert (exists b, sliceRemoved co (Fin y : T RNum) prec h = Ok b) as (b & Eb).
    { assert (NB : exists b, segBox co h = Ok b).
      { destruct Hh as [Hh|[(xa & ya & xb & yb & -> & _)|(d & -> & Fd & Sd & _)]]; [destruct h; try discriminate; eexists; reflexivity|eexists; reflexivity|].
        destruct (BezierOps_boxOk RTrig RBMath bf d Fd Sd) as (u & v & EB & _). exists (u, v). destruct d; exact EB. }
      destruct NB as ((s & e) & NB). unfold sliceRemoved. destruct (forallb _ _); [eauto|]. destruct (forallb _ _); [eauto|]. rewrite NB. cbn [bind]. eauto. }
    rewrite Eb. cbn [bind]. rewrite Ek. cbn [bind]. eauto. }
  destruct FIL as (kept & EK). rewrite EK. cbn [bind]. eexists. split; [reflexivity|].
  destruct (slice_filter_spec co _ _ _ _ EK) as (SUB & REM & _).
  assert (LOW : forall g, In g (drawn kept) -> (exists xa ya xb yb, g = Line (pnt xa ya) (pnt xb yb) /\ ya <= y /\ yb <= y) \/
     exists d, g = crvSeg d /\ finiteCrv d /\ (below y d \/ (under prec y (Y (c_s d)) /\ under prec y (Y (c_cs d)) /\ under prec y (Y (c_e d)) /\ under prec y (Y (c_ce d))))).
  { intros g Hg. apply drawn_In in Hg as [Hg V]. rewrite Forall_forall in REM, HC. destruct (HC g (sublist_In _ _ SUB g Hg)) as [M|[O|O]]; [destruct g; [destruct V|discriminate|discriminate]| |].
    - left. pose proof O as (xa & ya & xb & yb & -> & _). exists xa, ya, xb, yb. split; [reflexivity|]. eapply removed_line; eauto.
    - right. eapply kept_curve; eauto. }
  intros h a b Hh O. pose proof (Cleanup_drawn prec (NewPathFromSegmentsWithoutMove kept)) as CD.
  assert (Hg : exists g, In g (drawn kept) /\ realigned prec g h).
  { clear -CD Hh. set (src := drawn (filter _ _)) in CD. assert (HS : forall g, In g src -> In g (drawn kept)).
    { intros g Hg. subst src. rewrite <- (FixHeadMove_drawn kept). apply drawn_In in Hg as [Hg V]. apply filter_In in Hg as [Hg _]. apply drawn_In. auto. }
    clearbody src. set (d := drawn (Cleanup _ _)) in *. clearbody d. induction CD as [|x z xs zs R F IH]; [destruct Hh|].
    destruct Hh as [->|Hh]; [exists x; split; [apply HS; left; reflexivity|exact R]|]. apply IH; [exact Hh|]. intros g G. apply HS. right. exact G. }
  destruct Hg as (g & Hg & R). pose proof (Rinv_0_lt_compat _ (pow10_pos prec)) as EP.
  assert (NEAR : forall p q : Pt RNum, finitePt p -> EqualsPrecision p q (Z.of_nat prec) = true -> agree prec (Y p) (Y q)).
  { intros p [qx qy] Fp EQ. rewrite Fp in EQ. apply EqualsPrecision_coord in EQ as [_ EQ]. cbn [py pnt] in EQ. unfold Y at 2. cbn [py]. destruct qy as [qy|b0|]; cbn [val].
    - exact EQ.
    - rewrite PrecisionEquals_sym, PE_notfin_fin in EQ; [discriminate|exact I].
    - rewrite PrecisionEquals_sym, PE_notfin_fin in EQ; [discriminate|exact I]. }
  assert (CL : forall u v, agree prec u v -> v <= u + / 10 ^ prec /\ u <= v + / 10 ^ prec).
  { intros u v A. apply agree_close in A. unfold Rabs in A. destruct (Rcase_abs _) in A; lra. }
  destruct (LOW g Hg) as [(xa & ya & xb & yb & -> & La & Lb)|(d & -> & Fd & C)].
  - assert (exists s, h = Line s (pnt xb yb) /\ Y s <= y + / 10 ^ prec) as (s & -> & Ls).
    { destruct R as [->|[SB EQ]]; [exists (pnt xa ya); split; [reflexivity|rewrite pnt_Y; lra]|].
      destruct h as [s e|s e|s cs e ce]; cbn in SB; try contradiction. subst e. exists s. split; [reflexivity|].
      apply NEAR in EQ; [|reflexivity]. cbn [sstart] in EQ. rewrite pnt_Y in EQ. apply CL in EQ. lra. }
    cbn [onSeg] in O. destruct O as (t & Ht & _ & ->). rewrite pnt_Y. nra.
  - assert (exists s, h = Curve s (c_cs d) (c_e d) (c_ce d) /\ agree prec (Y (c_s d)) (Y s)) as (s & -> & As).
    { destruct R as [->|[SB EQ]]; [exists (c_s d); split; [reflexivity|apply agree_refl]|].
      destruct h as [s e|s e|s cs e ce]; cbn in SB; try contradiction. destruct SB as (-> & -> & ->). exists s. split; [reflexivity|]. apply NEAR in EQ; [exact EQ|apply Fd]. }
    cbn [onSeg] in O. destruct O as (t & Ht & _ & ->). unfold cubic.
    assert (W3 : 0 <= (1 - t) ^ 3 <= 1). { split; [apply pow_le; lra|]. replace 1 with (1 ^ 3) at 2 by ring. apply pow_incr. lra. }
    destruct C as [C|(C1 & C2 & C3 & C4)].
    + specialize (C t Ht). unfold curveY, cubic in C. apply CL in As. nra.
    + assert (U : forall u, under prec y u -> u <= y + / 10 ^ prec) by (intros u [U|U]; [lra|apply CL in U; lra]).
      assert (Us : Y s <= y + / 10 ^ prec).
      { destruct C1 as [C1|C1]; [apply CL in As; lra|]. assert (A : agree prec (Y s) y) by (eapply PrecisionEquals_trans; [apply agree_sym, As|exact C1]). apply CL in A. lra. }
      apply U in C2, C3, C4. assert (0 <= (1 - t) ^ 2 * t) by (apply Rmult_le_pos; [apply pow_le; lra|lra]). assert (0 <= (1 - t) * t ^ 2) by (apply Rmult_le_pos; [lra|apply pow_le; lra]). assert (0 <= t ^ 3) by (apply pow_le; lra).
      set (m := y + / 10 ^ prec) in *. clearbody m.
      assert ((1 - t) ^ 3 * (m - Y s) + 3 * ((1 - t) ^ 2 * t * (m - Y (c_cs d))) + 3 * ((1 - t) * t ^ 2 * (m - Y (c_ce d))) + t ^ 3 * (m - Y (c_e d)) >= 0).
      { assert (forall u v, 0 <= u -> 0 <= v -> 0 <= u * v) by (intros; apply Rmult_le_pos; assumption).
        pose proof (H2 _ (m - Y s) (proj1 W3) ltac:(lra)). pose proof (H2 _ (m - Y (c_cs d)) H ltac:(lra)). pose proof (H2 _ (m - Y (c_ce d)) H0 ltac:(lra)). pose proof (H2 _ (m - Y (c_e d)) H1 ltac:(lra)). lra. }
      nra.
Qed.
(** the falling curve and a line back up to its height, sliced at 0 *)
Example C80_slice_below_ex bf : exists q, HSlice (BezierOps RTrig RBMath bf) 3 3 (Fin 0 : T RNum) 3 [Move (pnt 0 0) (pnt 0 3); crvSeg fall; Line (pnt 3 (-3)) (pnt 5 3)] = Ok q /\
  forall h a b, In h (drawn q) -> onSeg h a b -> b <= 0 + / 10 ^ 3.
Proof.
  assert (P7 : / 10 ^ 7 = 1 / 10000000) by (simpl; lra). assert (P3 : / 10 ^ 3 = 1 / 1000) by (simpl; lra). destruct fall_halves as [TA HA].
  apply (C80_slice_below_partial bf 3 0 0 3).
  - assert (SM : forall x y, Rabs x <= 5 -> Rabs y <= 5 -> small (pnt x y)).
    { intros x y Hx Hy. assert (B : 5 < 2 ^ 63) by (apply Rlt_le_trans with (2 ^ 3); [simpl; lra|apply Rle_pow; [lra|lia]]). split; rewrite ?pnt_X, ?pnt_Y; lra. }
    constructor; [split; [split; reflexivity|exact I]|]. constructor; [|constructor; [split; [split; reflexivity|exact I]|constructor]].
    split; [repeat split; reflexivity|]. unfold crvSeg, fall. cbn [c_s c_cs c_e c_ce].
    split; [|split; [|split]]; apply SM; unfold Rabs; destruct (Rcase_abs _); lra.
  - discriminate.
  - constructor; [exact I|]. constructor; [|constructor; [|constructor]].
    + cbn [sliceable crvSeg]. change (simple 0 fall). split; [apply (told_apart_level 0 10 0 1 0 fall); [lra|lra|exact TA]|]. split; [apply (halves_apart_level 0 10 0 1 0 fall); [lra|lra|exact HA]|].
      split; [intros t Ht; rewrite fall_x; lra|]. right. right.
      destruct (IVT_cor (fun t => 3 - 6 * (t * t * t)) 0 1) as (s & B & Z); [intros t; apply derivable_continuous_pt; reg|lra|lra|].
      pose proof (fall_root s Z) as Bs. exists s. rewrite fall_height, P7. split; [lra|]. split; [exact Z|]. split; [intros t Ht O; rewrite fall_height in O; apply cube_inj; lra|].
      split; right; unfold fall; cbn [c_s c_e]; rewrite pnt_Y; [rewrite Rabs_left|rewrite Rabs_right]; lra.
    + cbn [sliceable]. unfold notFlat, clear. cbn [sstart send]. rewrite !pnt_X, !pnt_Y, P7. split; [lra|]. split; [lra|]. split; [right; unfold Rabs; repeat destruct (Rcase_abs _); simpl; lra|].
      split; right; unfold Rabs; destruct (Rcase_abs _); lra.
  - exists (crvSeg fall). split; [left; reflexivity|]. right. unfold fall, crvSeg. cbn [send c_e]. rewrite pnt_X, P3. lra.
Qed.
