(** Bounds on all coordinates of a path, and how they change under shifts. *)
From Coq Require Import List ZArith Bool Reals Lra.
From Verif Require Import Num RealNum PathModel SegOps Bezier GeomTransforms PathSpec GeomSpec BezierProofs GeomProofs AffineProofs.
Import ListNotations.
Local Open Scope R_scope.

(** all coordinates of the segment are real numbers below B in absolute value *)
Definition ptWithin (B : R) (q : Pt RNum) : Prop := finitePt q /\ Rabs (X q) < B /\ Rabs (Y q) < B.
Definition within (B : R) (g : seg RNum) : Prop :=
  match g with
  | Move s e | Line s e => ptWithin B s /\ ptWithin B e
  | Curve s cs e ce => ptWithin B s /\ ptWithin B cs /\ ptWithin B e /\ ptWithin B ce
  end.

Lemma within_tame B g : B <= 2 ^ 63 -> within B g -> tame g.
Proof. intros HB W. unfold tame, small. destruct g; cbn in W |- *; unfold ptWithin in W; intuition lra. Qed.

Lemma lerp_bounded a b t B : Rabs a < B -> Rabs b < B -> 0 <= t <= 1 -> Rabs (a + t * (b - a)) < B.
Proof.
  intros H1 H2 Ht. apply Rabs_def2 in H1, H2. apply Rabs_def1; destruct (Rle_dec a b); nra.
Qed.

Lemma onSeg_within B g x y : within B g -> onSeg g x y -> Rabs x < B /\ Rabs y < B.
Proof.
  intros W (t & Ht & E). destruct g; cbn in W; destruct E as [-> ->]; unfold ptWithin in W.
  1, 2: split; apply lerp_bounded; tauto.
  split; apply cubic_bounded; tauto.
Qed.

Lemma within_mono B B' g : B <= B' -> within B g -> within B' g.
Proof. intros HB W. destruct g; cbn in *; unfold ptWithin in *; intuition lra. Qed.

Lemma within_diag k l m n B C g : Rabs k <= 1 -> Rabs l <= 1 -> Rabs m < C -> Rabs n < C -> within B g -> within (B + C) (affSeg (diag k l m n) g).
Proof.
  intros K1 K2 H1 H2 W.
  assert (M : forall k x, Rabs k <= 1 -> Rabs x < B -> Rabs (k * x) < B).
  { clear. intros k x H1 H2. rewrite Rabs_mult. pose proof (Rabs_pos k). pose proof (Rabs_pos x). nra. }
  assert (K : forall q, ptWithin B q -> ptWithin (B + C) (affPt (diag k l m n) q)).
  { intros q (F & A1 & A2). split; [reflexivity|]. rewrite affPt_X, affPt_Y, diag_X, diag_Y.
    pose proof (M k _ K1 A1) as M1. pose proof (M l _ K2 A2) as M2.
    apply Rabs_def2 in H1, H2, M1, M2. split; apply Rabs_def1; lra. }
  destruct g; cbn in *; intuition.
Qed.

Lemma within_shift dx dy B g : Rabs dx < B -> Rabs dy < B -> within B g -> within (2 * B) (affSeg (diag 1 1 dx dy) g).
Proof.
  intros H1 H2 W.
  assert (K : forall q, ptWithin B q -> ptWithin (2 * B) (affPt (diag 1 1 dx dy) q)).
  { intros q (F & A1 & A2). split; [reflexivity|]. rewrite affPt_X, affPt_Y, diag_X, diag_Y.
    apply Rabs_def2 in H1, H2, A1, A2. split; apply Rabs_def1; lra. }
  destruct g; cbn in *; intuition.
Qed.

Lemma within_canon B p : 0 < B -> Forall (within B) p -> Forall (within B) (canon p).
Proof.
  intros HB H. assert (K : ptWithin B (pnt 0 0)) by (split; [reflexivity|rewrite pnt_X, pnt_Y, Rabs_R0; auto]).
  destruct p as [|g r]; auto. inversion H as [|? ? Hg Hr]; subst. destruct g; cbn [canon sstart]; constructor; auto; cbn in *; tauto.
Qed.

