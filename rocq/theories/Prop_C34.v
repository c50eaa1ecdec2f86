(** C34: the curve bounding box contains the whole curve and is tight. *)
From Coq Require Import List ZArith Bool Reals Lra.
From Verif Require Import Num RealNum FloatNum PathModel SegOps Bezier PathSpec GeomSpec BezierProofs.
Import ListNotations.
Local Open Scope R_scope.

(** The box computed for a curve with real control points below 2^63 contains every point of the curve,
    and the curve touches all four sides. *)
Theorem C34_bounding_box_tight (s cs e ce : Pt RNum) :
  finitePt s -> finitePt cs -> finitePt e -> finitePt ce ->
  small s -> small cs -> small e -> small ce ->
  exists tl br, opBox (mkCrv s cs e ce) = Ok (tl, br) /\
    (forall t x y, 0 <= t <= 1 -> x = cubic (X s) (X cs) (X ce) (X e) t -> y = cubic (Y s) (Y cs) (Y ce) (Y e) t ->
       X tl <= x <= X br /\ Y tl <= y <= Y br) /\
    (exists t, 0 <= t <= 1 /\ X tl = cubic (X s) (X cs) (X ce) (X e) t) /\
    (exists t, 0 <= t <= 1 /\ X br = cubic (X s) (X cs) (X ce) (X e) t) /\
    (exists t, 0 <= t <= 1 /\ Y tl = cubic (Y s) (Y cs) (Y ce) (Y e) t) /\
    (exists t, 0 <= t <= 1 /\ Y br = cubic (Y s) (Y cs) (Y ce) (Y e) t).
Proof.
  intros F1 F2 F3 F4 S1 S2 S3 S4.
  destruct (opBox_tight (mkCrv s cs e ce)) as (tl & br & E & H); [repeat split; assumption|repeat split; apply S1 || apply S2 || apply S3 || apply S4|].
  exists tl, br. split; [auto|]. destruct H as (_ & _ & (B1 & L1 & R1) & (B2 & L2 & R2)).
  apply projX_curve in L1, R1. apply projY_curve in L2, R2. split; [|tauto].
  intros t x y Ht -> ->. split; [apply B1, projX_curve|apply B2, projY_curve]; exists t; auto.
Qed.

(** the result is the only rectangle with these properties *)
Theorem C34_bounding_box_unique c tl br tl' br' :
  finiteCrv c -> smallCrv c -> opBox c = Ok (tl, br) -> tightBox (onSeg (crvSeg c)) tl' br' -> tl = tl' /\ br = br'.
Proof.
  intros F S E H. destruct (opBox_tight c F S) as (a & d & E' & H'). rewrite E in E'. injection E' as -> ->.
  eapply tightBox_unique; eauto.
Qed.

(** An arch: it reaches y = 3, neither an end point (0) nor a control point (4). *)
Example C34_arch : forall tl br, opBox (mkCrv (pnt 0 0) (pnt 0 4) (pnt 8 0) (pnt 8 4)) = Ok (tl, br) -> tl = pnt 0 0 /\ br = pnt 8 3.
Proof.
  intros tl br E. apply (C34_bounding_box_unique (mkCrv (pnt 0 0) (pnt 0 4) (pnt 8 0) (pnt 8 4))); auto.
  - repeat split.
  - repeat split; cbn; unfold Rabs; destruct (Rcase_abs _); lra.
  - split; [reflexivity|split; [reflexivity|split]]; cbn [X Y pnt px py val]; (split; [|split]).
    + intros x (y & t & Ht & -> & _). cbn. unfold cubic. assert (0 <= t * t <= t) by nra. assert (0 <= t * t * t <= t * t) by nra. split; nra.
    + exists 0, 0. split; [lra|]. unfold cubic; cbn. lra.
    + exists 0, 1. split; [lra|]. unfold cubic; cbn. lra.
    + intros y (x & t & Ht & _ & ->). cbn. unfold cubic. replace ((1 - t) ^ 3 * 0 + 3 * (1 - t) ^ 2 * t * 4 + 3 * (1 - t) * t ^ 2 * 4 + t ^ 3 * 0) with (3 - 12 * (t - 1/2) ^ 2) by field. assert (0 <= (t - 1/2) ^ 2 <= 1/4) by (split; [apply pow2_ge_0|nra]). lra.
    + exists 0, 0. split; [lra|]. unfold cubic; cbn. lra.
    + exists 4, (1/2). split; [lra|]. unfold cubic; cbn. lra.
Qed.

(** the same computation in float64 *)
Example C34_arch_float :
  let f := f_ofZ in
  let '(tl, br) := BoundingBox (mkCrv (@mkPt FNum (f 0%Z) (f 0%Z)) (@mkPt FNum (f 0%Z) (f 4%Z)) (@mkPt FNum (f 8%Z) (f 0%Z)) (@mkPt FNum (f 8%Z) (f 4%Z))) in
  [px tl; py tl; px br; py br] = [f 0%Z; f 0%Z; f 8%Z; f 3%Z].
Proof. vm_compute. reflexivity. Qed.

(** Why the size limit is there: far away the starting value 2^63 of the minimum survives. *)
Example C34_far_float :
  let f := f_ofZ in let big := (2 ^ 70)%Z in
  let '(tl, _) := BoundingBox (mkCrv (@mkPt FNum (f big) (f 0%Z)) (@mkPt FNum (f big) (f 0%Z)) (@mkPt FNum (f big) (f 4%Z)) (@mkPt FNum (f big) (f 4%Z))) in
  px tl = f (2 ^ 63)%Z.
Proof. vm_compute. reflexivity. Qed.
Print Assumptions C34_bounding_box_tight.
