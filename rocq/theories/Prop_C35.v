(** C35: bounding boxes of paths contain everything drawn. *)
From Coq Require Import List ZArith Bool Reals Lra.
From Verif Require Import Num RealNum FloatNum PathModel SegOps Bezier PathSpec GeomSpec BezierProofs GeomProofs Witness.
Import ListNotations.
Local Open Scope R_scope.

(** BoundingBoxTrimWhitespace succeeds, contains every drawn point, and all its sides are touched (so no smaller rectangle will do) *)
Theorem C35_trim_box_tight tr bm fuel (p : list (seg RNum)) : Forall tame p -> drawn p <> [] ->
  exists tl br, BoundingBoxTrimWhitespace (BezierOps tr bm fuel) p = Ok (tl, br) /\
    (forall x y, inDrawing p x y -> X tl <= x <= X br /\ Y tl <= y <= Y br) /\
    (exists y, inDrawing p (X tl) y) /\ (exists y, inDrawing p (X br) y) /\
    (exists x, inDrawing p x (Y tl)) /\ (exists x, inDrawing p x (Y br)).
Proof.
  intros H Hd. destruct (BoundingBoxTrimWhitespace_tight _ (BezierOps_boxOk tr bm fuel) p H Hd) as (tl & br & E & _ & _ & (B1 & L1 & R1) & (B2 & L2 & R2)).
  exists tl, br. split; [auto|]. split; [|tauto]. intros x y O. split; [apply B1; exists y; auto | apply B2; exists x; auto].
Qed.

(** BoundingBoxWithWhitespace contains the drawing when the drawing has no negative coordinates.
    Missing from the full claim: drawings with negative coordinates, see the refutation below. *)
Theorem C35_whitespace_box_contains_partial tr bm fuel (p : list (seg RNum)) : Forall tame p -> p <> [] ->
  (forall x y, inDrawing p x y -> 0 <= x /\ 0 <= y) ->
  exists tl br, BoundingBoxWithWhitespace (BezierOps tr bm fuel) p = Ok (tl, br) /\
    forall x y, inDrawing p x y -> X tl <= x <= X br /\ Y tl <= y <= Y br.
Proof.
  intros H Hn Hp. destruct p as [|g l]; [congruence|].
  destruct (BoundingBoxWithWhitespace_spec _ (BezierOps_boxOk tr bm fuel) g l H) as (tl & br & (_ & _ & (B1 & _) & (B2 & _)) & E).
  eexists. eexists. split; [exact E|]. intros x y O. rewrite !pnt_X, !pnt_Y. destruct (Hp x y O) as [Hx Hy].
  assert (O' : orSet (onSeg g) (inDrawing l) x y).
  { destruct O as (h & [->|Hh] & V & O); [left; auto|right; exists h; auto]. }
  assert (X tl <= x <= X br) by (apply B1; exists y; auto). assert (Y tl <= y <= Y br) by (apply B2; exists x; auto).
  pose proof (Rmin_l 0 (X (sstart g))). pose proof (Rmin_l 0 (Y (sstart g))).
  pose proof (Rmax_l (X br) (X (send (last (g :: l) g)))). pose proof (Rmax_l (Y br) (Y (send (last (g :: l) g)))). lra.
Qed.

(** A drawing with negative coordinates after a move from the origin is outside its BoundingBoxWithWhitespace. *)
Theorem C35_whitespace_box_refuted : exists p : list (seg RNum),
  Forall tame p /\ drawn p <> [] /\ inDrawing p (-5) (-5) /\
  forall tr bm fuel, exists tl br, BoundingBoxWithWhitespace (BezierOps tr bm fuel) p = Ok (tl, br) /\ ~ (X tl <= -5).
Proof.
  exists [Move (pnt 0 0) (pnt (-5) (-5)); Line (pnt (-5) (-5)) (pnt (-1) (-1))].
  assert (H : Forall tame [Move (pnt 0 0) (pnt (-5) (-5)); Line (pnt (-5) (-5)) (pnt (-1) (-1))]) by (repeat constructor).
  split; [exact H|]. split; [discriminate|]. split.
  - eexists. split; [right; left; reflexivity|]. split; [exact I|]. exists 0. cbn. split; [lra|]. split; lra.
  - intros tr bm fuel. destruct (BoundingBoxWithWhitespace_spec _ (BezierOps_boxOk tr bm fuel) _ _ H) as (tl & br & _ & E).
    eexists. eexists. split; [exact E|]. rewrite pnt_X. cbn [sstart]. rewrite pnt_X. unfold Rmin. destruct (Rle_dec 0 0); lra.
Qed.

(** a path with leading whitespace, a line and an arch reaching beyond its end points, in float64 *)
Definition noB : BMath FNum := mkBMath (fun x => x) (fun x _ => x) (fun x => x).
Example C35_example :
  let p := [Move (pt 0 0) (pt 2 1); Line (pt 2 1) (pt 5 1); Curve (pt 5 1) (pt 5 5) (pt 13 1) (pt 13 5); Move (pt 13 1) (pt 40 40)] in
  match BoundingBoxTrimWhitespace (BezierOps noTrig noB 10) p with
  | Ok (tl, br) => [px tl; py tl; px br; py br]
  | _ => []
  end = [fz 2; fz 1; fz 13; fz 4].
Proof. vm_compute. reflexivity. Qed.
Example C35_hypotheses :
  let p := [Move (pnt 0 0) (pnt 2 1); Line (pnt 2 1) (pnt 5 1); Curve (pnt 5 1) (pnt 5 5) (pnt 13 1) (pnt 13 5)] in
  Forall tame p /\ drawn p <> [] /\ inDrawing p 9 4.
Proof.
  cbv zeta. split; [|split; [discriminate|]].
  - repeat constructor; cbn; unfold Rabs; destruct (Rcase_abs _); lra.
  - eexists. split; [right; right; left; reflexivity|]. split; [exact I|]. exists (1/2). cbn. unfold cubic. split; [lra|]. split; lra.
Qed.
Print Assumptions C35_trim_box_tight.
