(** Specification vocabulary for geometry in exact arithmetic, independent of the model's helpers:
    the set of points of a segment and of a drawing, and the smallest rectangle around a set. *)
From Coq Require Import List ZArith Bool Reals Lra Psatz.
From Verif Require Import Num RealNum PathModel PathSpec.
Import ListNotations.
Local Open Scope R_scope.

(** the point with real coordinates x, y *)
Definition pnt (x y : R) : Pt RNum := @mkPt RNum (Fin x) (Fin y).
Definition val (a : ER) : R := match a with Fin x => x | _ => 0 end.
Definition X (p : Pt RNum) : R := val (px p).
Definition Y (p : Pt RNum) : R := val (py p).
(** both coordinates are numbers (no infinity, no NaN) *)
Definition finitePt (p : Pt RNum) : Prop := p = pnt (X p) (Y p).

(** the cubic Bezier polynomial with coefficients a, b, c, d *)
Definition cubic (a b c d t : R) : R :=
  (1 - t) ^ 3 * a + 3 * (1 - t) ^ 2 * t * b + 3 * (1 - t) * t ^ 2 * c + t ^ 3 * d.

(** (x, y) is on the segment *)
Definition onSeg (g : seg RNum) (x y : R) : Prop :=
  exists t, 0 <= t <= 1 /\
  match g with
  | Move s e | Line s e => x = X s + t * (X e - X s) /\ y = Y s + t * (Y e - Y s)
  | Curve s cs e ce => x = cubic (X s) (X cs) (X ce) (X e) t /\ y = cubic (Y s) (Y cs) (Y ce) (Y e) t
  end.

(** (x, y) is on a visible segment of the path: it gets drawn *)
Definition inDrawing (p : list (seg RNum)) (x y : R) : Prop :=
  exists g, In g p /\ visible g /\ onSeg g x y.

(** all points of the segment have real coordinates *)
Definition finiteSeg (g : seg RNum) : Prop :=
  match g with
  | Move s e | Line s e => finitePt s /\ finitePt e
  | Curve s cs e ce => finitePt s /\ finitePt cs /\ finitePt e /\ finitePt ce
  end.
(** coordinates below 2^63 in absolute value (curves only) *)
Definition small (p : Pt RNum) : Prop := Rabs (X p) < 2 ^ 63 /\ Rabs (Y p) < 2 ^ 63.
Definition tame (g : seg RNum) : Prop :=
  finiteSeg g /\
  match g with
  | Curve s cs e ce => small s /\ small cs /\ small e /\ small ce
  | _ => True
  end.

(** lo and hi are the least and the greatest element of S *)
Definition range (S : R -> Prop) (lo hi : R) : Prop := (forall x, S x -> lo <= x <= hi) /\ S lo /\ S hi.
Definition projX (S : R -> R -> Prop) (x : R) : Prop := exists y, S x y.
Definition projY (S : R -> R -> Prop) (y : R) : Prop := exists x, S x y.
(** tl and br are the corners of the smallest rectangle containing S; all four sides are touched *)
Definition tightBox (S : R -> R -> Prop) (tl br : Pt RNum) : Prop :=
  finitePt tl /\ finitePt br /\ range (projX S) (X tl) (X br) /\ range (projY S) (Y tl) (Y br).

Lemma finitePt_pnt x y : finitePt (pnt x y). Proof. reflexivity. Qed.
Lemma pnt_X x y : X (pnt x y) = x. Proof. reflexivity. Qed.
Lemma pnt_Y x y : Y (pnt x y) = y. Proof. reflexivity. Qed.

Lemma range_unique S a b c d : range S a b -> range S c d -> a = c /\ b = d.
Proof. intros (H1 & H2 & H3) (H4 & H5 & H6). pose proof (H1 _ H5). pose proof (H1 _ H6). pose proof (H4 _ H2). pose proof (H4 _ H3). lra. Qed.

Lemma range_ext (S S' : R -> Prop) a b : (forall x, S x <-> S' x) -> range S a b -> range S' a b.
Proof. intros E (H1 & H2 & H3). repeat split; try (apply E; auto); try (apply E in H; apply H1 in H; lra). Qed.

Lemma range_le S a b : range S a b -> a <= b.
Proof. intros (H1 & H2 & H3). apply H1 in H2. lra. Qed.

Lemma range_union (S S' : R -> Prop) a b c d : range S a b -> range S' c d ->
  range (fun x => S x \/ S' x) (Rmin a c) (Rmax b d).
Proof.
  intros (H1 & H2 & H3) (H4 & H5 & H6). split; [|split].
  - intros x [Hx|Hx]; [apply H1 in Hx | apply H4 in Hx];
      pose proof (Rmin_l a c); pose proof (Rmin_r a c); pose proof (Rmax_l b d); pose proof (Rmax_r b d); lra.
  - unfold Rmin. destruct (Rle_dec a c); auto.
  - unfold Rmax. destruct (Rle_dec b d); auto.
Qed.

(** image of a range under x -> k x + m *)
Lemma range_affine_pos S a b k m : 0 <= k -> range S a b ->
  range (fun x => exists z, S z /\ x = k * z + m) (k * a + m) (k * b + m).
Proof.
  intros Hk (H1 & H2 & H3). repeat split; eauto.
  - destruct H as (z & Hz & ->). apply H1 in Hz. nra.
  - destruct H as (z & Hz & ->). apply H1 in Hz. nra.
Qed.
Lemma range_affine_neg S a b k m : k <= 0 -> range S a b ->
  range (fun x => exists z, S z /\ x = k * z + m) (k * b + m) (k * a + m).
Proof.
  intros Hk (H1 & H2 & H3). repeat split; eauto.
  - destruct H as (z & Hz & ->). apply H1 in Hz. nra.
  - destruct H as (z & Hz & ->). apply H1 in Hz. nra.
Qed.

Lemma tightBox_unique S tl br tl' br' : tightBox S tl br -> tightBox S tl' br' -> tl = tl' /\ br = br'.
Proof.
  intros (F1 & F2 & RX & RY) (F1' & F2' & RX' & RY').
  destruct (range_unique _ _ _ _ _ RX RX') as [E1 E2]. destruct (range_unique _ _ _ _ _ RY RY') as [E3 E4].
  rewrite F1, F2, F1', F2', E1, E2, E3, E4. auto.
Qed.

Lemma tightBox_ext (S S' : R -> R -> Prop) tl br : (forall x y, S x y <-> S' x y) -> tightBox S tl br -> tightBox S' tl br.
Proof.
  intros E (H1 & H2 & H3 & H4). split; [auto|split; [auto|split]].
  - apply (range_ext (projX S)); auto. intros x. split; intros [y Hy]; exists y; apply E; auto.
  - apply (range_ext (projY S)); auto. intros y. split; intros [x Hx]; exists x; apply E; auto.
Qed.
