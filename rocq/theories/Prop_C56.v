(** C56: the places where a curve meets a line. *)
From Coq Require Import List ZArith Bool Reals Lra Lia.
From Verif Require Import Num RealNum RealTrig PathModel SegOps Bezier PathSpec GeomSpec BezierProofs RootsProofs.
Import ListNotations.
Local Open Scope R_scope.

(** the point (x, y) lies on the straight line through [a] and [b] *)
Definition on_line (a b : Pt RNum) (x y : R) : Prop := (y - Y a) * (X b - X a) = (x - X a) * (Y b - Y a).

(** The distance of the curve from the line is a polynomial of the parameter; its leading coefficient is exactly zero or above the code's
    tolerance of one millionth, and so on down to the constant; and the curve does not run along the line. *)
Definition told_apart (a b : Pt RNum) (c : crv RNum) : Prop :=
  let o0 := off a b (c_s c) in let o1 := off a b (c_cs c) in let o2 := off a b (c_ce c) in let o3 := off a b (c_e c) in
  settled (o3 - 3 * o2 + 3 * o1 - o0) /\ (o3 - 3 * o2 + 3 * o1 - o0 = 0 -> settled (3 * o0 - 6 * o1 + 3 * o2)) /\
  (o3 - 3 * o2 + 3 * o1 - o0 = 0 -> 3 * o0 - 6 * o1 + 3 * o2 = 0 -> settled (3 * o1 - 3 * o0)) /\
  ~ (o0 = 0 /\ o1 = 0 /\ o2 = 0 /\ o3 = 0).

Lemma off_zero a b p : X a <> X b \/ Y a <> Y b -> off a b p = 0 <-> on_line a b (X p) (Y p).
Proof.
  intros N. unfold off, on_line. assert (L : 0 < sqrt ((X b - X a) * (X b - X a) + (Y b - Y a) * (Y b - Y a))).
  { apply sqrt_lt_R0. destruct N as [N|N]; [assert (0 < (X b - X a) * (X b - X a)) by (apply Rlt_0_sqr; lra); assert (0 <= (Y b - Y a) * (Y b - Y a)) by apply Rle_0_sqr|
      assert (0 <= (X b - X a) * (X b - X a)) by apply Rle_0_sqr; assert (0 < (Y b - Y a) * (Y b - Y a)) by (apply Rlt_0_sqr; lra)]; lra. }
  split; intros H.
  - apply (Rmult_eq_compat_r (sqrt ((X b - X a) * (X b - X a) + (Y b - Y a) * (Y b - Y a)))) in H. unfold Rdiv in H. rewrite Rmult_assoc, Rinv_l in H; lra.
  - unfold Rdiv. replace ((Y p - Y a) * (X b - X a) - (X p - X a) * (Y b - Y a)) with 0 by lra. ring.
Qed.
Lemma off_curve a b c t : off a b (pnt (curveX c t) (curveY c t)) =
  poly (off a b (c_e c) - 3 * off a b (c_ce c) + 3 * off a b (c_cs c) - off a b (c_s c)) (3 * off a b (c_s c) - 6 * off a b (c_cs c) + 3 * off a b (c_ce c))
       (3 * off a b (c_cs c) - 3 * off a b (c_s c)) (off a b (c_s c)) t.
Proof. unfold off, poly, curveX, curveY, cubic, Rdiv. rewrite pnt_X, pnt_Y. ring. Qed.

(** IntersectsProjectedLine returns exactly the parameters between 0 and 1 at which the curve is on the line: none is missed, none is wrong,
    and nothing else (no infinity, no NaN) is returned.  Missing from the full claim: curves whose distance from the line has a leading coefficient that is not
    zero but below a millionth, where it fails ([C56_flat_refuted]), and curves along the line ([C56_along_refuted]). *)
Theorem C56_meets_partial : forall (c : crv RNum) (a b : Pt RNum), finiteCrv c -> finitePt a -> finitePt b -> X a <> X b \/ Y a <> Y b -> told_apart a b c ->
  (forall t : R, In (Fin t) (IntersectsProjectedLine RTrig RBMath c a b) <-> 0 <= t <= 1 /\ on_line a b (curveX c t) (curveY c t)) /\
  (forall u, In u (IntersectsProjectedLine RTrig RBMath c a b) -> exists t, u = Fin t).
Proof.
  intros c a b (F1 & F2 & F3 & F4) Fa Fb N (T1 & T2 & T3 & T4). split.
  - intros t. rewrite <- (pnt_X (curveX c t) (curveY c t)) at 1. rewrite <- (pnt_Y (curveX c t) (curveY c t)) at 2. rewrite <- off_zero by exact N. rewrite off_curve.
    unfold IntersectsProjectedLine, Roots. rewrite (Align_off _ a b Fa Fb) by (try exact N; unfold curveArray; repeat constructor; auto). unfold curveArray. cbn [map].
    set (o0 := off a b (c_s c)) in *. set (o1 := off a b (c_cs c)) in *. set (o2 := off a b (c_ce c)) in *. set (o3 := off a b (c_e c)) in *.
    unfold three. fin. replace (- o0 + 3 * o1 - 3 * o2 + o3) with (o3 - 3 * o2 + 3 * o1 - o0) by ring. replace (- 3 * o0 + 3 * o1) with (3 * o1 - 3 * o0) by ring.
    replace (- (3) * o0 + 3 * o1) with (3 * o1 - 3 * o0) by ring.
    apply polyRoots_spec; auto.
    destruct (Req_dec (o3 - 3 * o2 + 3 * o1 - o0) 0) as [E1|]; [|left; auto]. destruct (Req_dec (3 * o0 - 6 * o1 + 3 * o2) 0) as [E2|]; [|auto]. destruct (Req_dec (3 * o1 - 3 * o0) 0) as [E3|]; [|auto].
    destruct (Req_dec o0 0) as [E4|]; [|auto]. exfalso. apply T4. repeat split; lra.
  - intros u H. unfold IntersectsProjectedLine, Roots, polyRoots, cubicRoots in H.
    assert (K : forall l, In u (keep01 (N := RNum) l) -> exists t, u = Fin t).
    { intros l I. unfold keep01 in I. apply filter_In in I. destruct I as [_ I]. apply andb_prop in I. destruct I as [I1 I2]. rewrite fzero in I1. rewrite fone in I2. destruct u as [t|[]|]; try discriminate. exists t. reflexivity. }
    repeat match goal with H : context [if ?b then _ else _] |- _ => destruct b | H : context [match ?b with _ => _ end] |- _ => destruct b end; try contradiction; eapply K; exact H.
Qed.
Print Assumptions C56_meets_partial.

(** a curve crossing the x axis three times: heights 1, -3, 3, -1 *)
Definition wave : crv RNum := @mkCrv RNum (pnt 0 1) (pnt 1 (-3)) (pnt 3 (-1)) (pnt 2 3).
Example C56_example : finiteCrv wave /\ told_apart (pnt 0 0) (pnt 2 0) wave /\ on_line (pnt 0 0) (pnt 2 0) (curveX wave (1 / 2)) (curveY wave (1 / 2)).
Proof.
  split; [repeat split; apply finitePt_pnt|].
  assert (S : sqrt ((2 - 0) * (2 - 0) + (0 - 0) * (0 - 0)) = 2) by (replace ((2 - 0) * (2 - 0) + (0 - 0) * (0 - 0)) with (2 * 2) by ring; apply sqrt_square; lra).
  split.
  - unfold told_apart, off, wave. cbn [c_s c_cs c_ce c_e]. rewrite !pnt_X, !pnt_Y, S. split; [|split; [|split]].
    + right. match goal with |- _ < Rabs ?x => replace x with (-20) by field end. rewrite Rabs_left; lra.
    + intros E. exfalso. lra.
    + intros E. exfalso. lra.
    + intros (E & _). lra.
  - unfold on_line, curveX, curveY, cubic, wave. cbn [c_s c_cs c_ce c_e]. rewrite !pnt_X, !pnt_Y. lra.
Qed.

(** all three coefficients within the tolerance of zero: nothing is returned *)
Lemma all_small a b c : finiteCrv c -> finitePt a -> finitePt b -> X a <> X b \/ Y a <> Y b ->
  Rabs (off a b (c_e c) - 3 * off a b (c_ce c) + 3 * off a b (c_cs c) - off a b (c_s c)) <= / 1000000 ->
  Rabs (3 * off a b (c_s c) - 6 * off a b (c_cs c) + 3 * off a b (c_ce c)) <= / 1000000 ->
  Rabs (3 * off a b (c_cs c) - 3 * off a b (c_s c)) <= / 1000000 -> IntersectsProjectedLine RTrig RBMath c a b = [].
Proof.
  intros (F1 & F2 & F3 & F4) Fa Fb N H1 H2 H3. unfold IntersectsProjectedLine, Roots. rewrite (Align_off _ a b Fa Fb) by (try exact N; unfold curveArray; repeat constructor; auto). unfold curveArray. cbn [map].
  unfold three. fin. unfold polyRoots.
  assert (A : forall x y, Rabs y <= / 1000000 -> x = y -> Approx (Fin x : T RNum) zero = true).
  { intros x y Hy ->. unfold Approx. fin. rewrite fdiv by lra. change (nabs (Fin (y - 0) : T RNum)) with (Fin (Rabs (y - 0)) : T RNum). fin. rewrite Rminus_0_r. destruct (Rleb_spec (Rabs y) (1 / 1000000)); [reflexivity|lra]. }
  rewrite (A _ _ H1) by ring. rewrite (A _ _ H2) by ring. rewrite (A _ _ H3) by ring. reflexivity.
Qed.
Lemma off_axis p : off (pnt 0 0) (pnt 1 0) p = Y p.
Proof.
  unfold off. rewrite !pnt_X, !pnt_Y. replace ((1 - 0) * (1 - 0) + (0 - 0) * (0 - 0)) with (1 * 1) by ring. rewrite sqrt_square by lra. field.
Qed.

(** Finding: a curve that passes through the line halfway, rising by one millionth, is said not to meet it. *)
Definition nearly_flat : crv RNum := @mkCrv RNum (pnt 0 (- / 8000000)) (pnt 1 (- / 8000000)) (pnt 3 (7 / 8000000)) (pnt 2 (- / 8000000)).
Theorem C56_flat_refuted : exists (c : crv RNum) (a b : Pt RNum) (t : R), finiteCrv c /\ finitePt a /\ finitePt b /\ X a <> X b /\
  0 <= t <= 1 /\ on_line a b (curveX c t) (curveY c t) /\ ~ on_line a b (curveX c 0) (curveY c 0) /\ IntersectsProjectedLine RTrig RBMath c a b = [].
Proof.
  exists nearly_flat, (pnt 0 0), (pnt 1 0), (1 / 2). split; [repeat split; apply finitePt_pnt|]. split; [apply finitePt_pnt|]. split; [apply finitePt_pnt|]. rewrite !pnt_X. split; [lra|]. split; [lra|].
  unfold on_line. rewrite !pnt_X, !pnt_Y. split; [|split].
  - unfold curveY, cubic, nearly_flat. cbn [c_s c_cs c_ce c_e]. rewrite !pnt_Y. lra.
  - unfold curveY, cubic, nearly_flat. cbn [c_s c_cs c_ce c_e]. rewrite !pnt_Y. lra.
  - apply all_small; try apply finitePt_pnt; [repeat split; apply finitePt_pnt|rewrite !pnt_X; left; lra| | |]; rewrite !off_axis; unfold nearly_flat; cbn [c_s c_cs c_ce c_e]; rewrite !pnt_Y; apply Rabs_le; lra.
Qed.
Print Assumptions C56_flat_refuted.
(** Finding: a curve that runs along the line is said not to meet it. *)
Theorem C56_along_refuted : exists (c : crv RNum) (a b : Pt RNum), finiteCrv c /\ finitePt a /\ finitePt b /\ X a <> X b /\
  (forall t, on_line a b (curveX c t) (curveY c t)) /\ IntersectsProjectedLine RTrig RBMath c a b = [].
Proof.
  exists (@mkCrv RNum (pnt 0 0) (pnt 1 0) (pnt 3 0) (pnt 2 0)), (pnt 0 0), (pnt 1 0). split; [repeat split; apply finitePt_pnt|]. split; [apply finitePt_pnt|]. split; [apply finitePt_pnt|]. rewrite !pnt_X. split; [lra|]. split.
  - intros t. unfold on_line, curveY, cubic. cbn [c_s c_cs c_ce c_e]. rewrite !pnt_X, !pnt_Y. ring.
  - apply all_small; try apply finitePt_pnt; [repeat split; apply finitePt_pnt|rewrite !pnt_X; left; lra| | |]; rewrite !off_axis; cbn [c_s c_cs c_ce c_e]; rewrite !pnt_Y; apply Rabs_le; lra.
Qed.
Print Assumptions C56_along_refuted.
