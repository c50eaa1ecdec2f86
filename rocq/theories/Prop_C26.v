(** C26: a rotated part is drawn inside its reserved rectangle. *)
From Coq Require Import String List ZArith Bool Reals Lra Lia.
From Verif Require Import Num FloatNum RealNum PathModel PlanSet PlanSetProofs PrecisionProofs Witness.
Import ListNotations.
Local Open Scope R_scope.

(** ** what an SVG viewer does with a transform attribute (SVG 1.1, section 7.6):
    the value of a printed number, and the entries applied to a point, the last entry first *)
Definition printed (t : ftext) : R :=
  match t with FTdec neg m => (if neg then -1 else 1) * IZR (Z.of_N m) / 1000 | _ => 0 end.
Definition applyOp (o : svgop) (q : R * R) : R * R :=
  let '(x, y) := q in
  match o with
  | OpRotate90 cx cy => (printed cx - (y - printed cy), printed cy + (x - printed cx))
  | OpTranslate tx ty => (x + printed tx, y + printed ty)
  end.
Fixpoint applyOps (l : list svgop) (q : R * R) : R * R :=
  match l with [] => q | o :: r => applyOp o (applyOps r q) end.

Definition inRect (x y w h : R) (q : R * R) : Prop := x <= fst q <= x + w /\ y <= snd q <= y + h.

Lemma printed_close x : Rabs (printed (fmtd (n:=RNum) 3 (Fin x)) - x) <= 1 / 2000.
Proof.
  cbn [fmtd RNum er_fmtd printed].
  pose proof (Rround_he_spec (Rabs x * 10 ^ 3)) as C. assert (P : 0 <= Rabs x * 10 ^ 3) by (pose proof (Rabs_pos x); nra).
  specialize (C P). replace (10 ^ 3) with 1000 in * by lra.
  set (k := IZR (Z.of_N (Rround_he (Rabs x * 1000)))) in *.
  assert (A : Rabs x = if Rltb x 0 then - x else x).
  { destruct (Rltb_spec x 0); [apply Rabs_left; lra|apply Rabs_right; lra]. }
  rewrite A in C. assert (C' : - (1 / 2) <= (if Rltb x 0 then - x else x) * 1000 - k <= 1 / 2).
  { pose proof (Rle_abs ((if Rltb x 0 then - x else x) * 1000 - k)). pose proof (Rle_abs (- ((if Rltb x 0 then - x else x) * 1000 - k))) as Q.
    rewrite Rabs_Ropp in Q. lra. }
  destruct (Rltb x 0); apply Rabs_le; lra.
Qed.

(** The transform written for a part of size w x h placed at (X, Y) moves the part's own rectangle [0,w] x [0,h]
    exactly onto the rectangle of the reserved size at (X + dx, Y + dy) - turned when Rotated is set - where dx and dy
    come from printing three decimals and are at most 0.0005. *)
Theorem C26_drawn_where_reserved : forall (O : Type) (o : O) (w h X Y : R) (rot : bool),
  exists dx dy, Rabs dx <= 1 / 2000 /\ Rabs dy <= 1 / 2000 /\
  forall q : R * R,
    let ops := drawTransforms (@mkRenderable RNum O (o, Fin w, Fin h) (mkPt (Fin X : T RNum) (Fin Y : T RNum)) rot) in
    (inRect 0 0 w h q <-> inRect (X + dx) (Y + dy) (if rot then h else w) (if rot then w else h) (applyOps ops q)).
Proof.
  intros O o w h X Y rot. destruct rot.
  - exists (printed (fmtd (n:=RNum) 3 (Fin (X + h))) - (X + h)), (printed (fmtd (n:=RNum) 3 (Fin Y)) - Y).
    split; [apply printed_close|]. split; [apply printed_close|]. intros [a b]. cbn [drawTransforms r_part r_rot r_pos px py applyOps applyOp].
    change (add (n:=RNum) (Fin X) (Fin h)) with (Fin (X + h)).
    set (tx := printed (fmtd 3 (Fin (X + h) : T RNum))). set (ty := printed (fmtd 3 (Fin Y : T RNum))).
    unfold inRect. cbn [fst snd]. lra.
  - exists (printed (fmtd (n:=RNum) 3 (Fin X)) - X), (printed (fmtd (n:=RNum) 3 (Fin Y)) - Y).
    split; [apply printed_close|]. split; [apply printed_close|]. intros [a b]. cbn [drawTransforms r_part r_rot r_pos px py applyOps applyOp].
    set (tx := printed (fmtd 3 (Fin X : T RNum))). set (ty := printed (fmtd 3 (Fin Y : T RNum))).
    unfold inRect. cbn [fst snd]. lra.
Qed.
Print Assumptions C26_drawn_where_reserved.

(** the picture is not mirrored: distances and orientation are kept (a rigid motion) *)
Theorem C26_rigid : forall (O : Type) (o : O) (w h : T RNum) (pos : Pt RNum) (rot : bool) (q q' : R * R),
  let f := applyOps (drawTransforms (@mkRenderable RNum O (o, w, h) pos rot)) in
  exists c s, c * c + s * s = 1 /\
    fst (f q') - fst (f q) = c * (fst q' - fst q) - s * (snd q' - snd q) /\
    snd (f q') - snd (f q) = s * (fst q' - fst q) + c * (snd q' - snd q).
Proof.
  intros O o w h pos rot [a b] [a' b'] f. subst f. destruct rot.
  - exists 0, 1. cbn [drawTransforms r_part r_rot r_pos applyOps applyOp fst snd]. lra.
  - exists 1, 0. cbn [drawTransforms r_part r_rot r_pos applyOps applyOp fst snd]. lra.
Qed.
Print Assumptions C26_rigid.

(** a 20 x 10 part turned at (1, 2): rotate and translate about (11, 2); its corner (20, 10) goes to (1, 22) *)
Example C26_example_text :
  transformText (@mkRenderable FNum nat (1%nat, fz 20, fz 10) (pt 1 2) true) = "rotate(90 11.000 2.000) translate(11.000 2.000)"%string.
Proof. vm_compute. reflexivity. Qed.
Example C26_example : applyOps [OpRotate90 (FTdec false 11000) (FTdec false 2000); OpTranslate (FTdec false 11000) (FTdec false 2000)] (20, 10) = (1, 22).
Proof. cbn. f_equal; lra. Qed.
