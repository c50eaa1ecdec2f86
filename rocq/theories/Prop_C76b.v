(** C76 (continued): the points where two curves meet, as SegmentOperators.Intersect reports them. *)
From Coq Require Import List ZArith Reals Lra Lia.
From Verif Require Import Num RealNum RealTrig PathModel DrawModel SegOps Bezier GeomSpec GeomProofs BezierProofs RootsProofs Prop_C76.
Import ListNotations.
Local Open Scope R_scope.

(** Each point that is reported is the point of the first curve at the parameter that comes with it; five decimals from there the first curve is less than 1 away, counted along both axes, from a point of the second. *)
Theorem C76_points tr fuel dop (c d : crv RNum) l p t : finiteCrv c -> smallCrv c -> finiteCrv d -> smallCrv d ->
  Intersect (BezierOps tr RBMath fuel) dop (crvSeg c) (crvSeg d) = Ok l -> In (p, t) l ->
  exists m u w, t = (Fin (INR m / 100000) : T RNum) /\ p = pnt (curveX c (INR m / 100000)) (curveY c (INR m / 100000)) /\ 0 <= u <= 1 /\ 0 <= w <= 1 /\ rounded u m /\ apart c d u w < 1.
Proof.
  intros F S F' S' E HI. destruct c as [s cs e ce]. destruct d as [s' cs' e' ce']. unfold crvSeg in E. cbn [Intersect BezierOps co_intersectCurve c_s c_cs c_e c_ce] in E.
  assert (H2 : @half RNum = Fin (1 / 2)) by apply half_fin.
  rewrite H2 in E. destruct (IntersectsCurve tr RBMath fuel _ _ _) as [l0| | |] eqn:E0; cbn [bind] in E; try discriminate. injection E as <-. apply in_map_iff in HI. destruct HI as (v & Ev & Hv).
  destruct (C76_reported tr fuel _ _ _ _ v F S F' S' E0 Hv) as (m & n & u & w & -> & Hu & Hw & Rm & Rn & HA). cbn [fst] in Ev. unfold tP in Ev. injection Ev as Ep Et. exists m, u, w. split; [symmetry; exact Et|]. split; [rewrite <- Ep|split; [exact Hu|split; [exact Hw|split; [exact Rm|lra]]]].
  rewrite FindPoint_spec by exact F. unfold bpP. cbn [px py pnt]. apply NewPoint_fin.
Qed.
Print Assumptions C76_points.

(** two parallel lines, close together, drawn as curves: something is reported *)
Example C76_points_ex dop : exists p t, Intersect (BezierOps RTrig RBMath 104) dop (crvSeg para1) (crvSeg para2) = Ok [(p, t)].
Proof.
  assert (H2 : @half RNum = Fin (1 / 2)) by apply half_fin.
  destruct (C76_reported_refuted 104 ltac:(lia)) as [E _]. unfold crvSeg, para1, para2, line3 in *. cbn [Intersect BezierOps co_intersectCurve c_s c_cs c_e c_ce] in *. rewrite H2, E. cbn [bind map fst tP]. eexists _, _. reflexivity.
Qed.
