(** C69, continued: attributes as points. *)
From Coq Require Import String Ascii List ZArith Bool Reals Lra.
From Verif Require Import Num RealNum PathModel SegOps Bezier GeomTransforms SvgParse DynModel AttrText PathSpec GeomSpec BezierProofs GeomProofs AffineProofs HandleProofs CompProofs Prop_C69.
Import ListNotations.
Local Open Scope R_scope.

(** Whatever the text, asking for a point gives the point if the attribute is one, and an error otherwise: also if it is a number. *)
Theorem C69_as_point tr bm fuel s (p : path RNum) : Forall tame p -> let co := BezierOps tr bm fuel in
  ((exists q, PathAttributeText co s p = Ok (VPoint q) /\ PointPathAttributeText co s p = Ok q) \/
   (exists x, PathAttributeText co s p = Ok (VNum x) /\ PointPathAttributeText co s p = Err) \/
   (PathAttributeText co s p = Err /\ PointPathAttributeText co s p = Err)).
Proof.
  intros HT co. unfold PointPathAttributeText. assert (E : (exists v, PathAttributeText co s p = Ok v) \/ PathAttributeText co s p = Err).
  { unfold PathAttributeText. destruct (parsePoint s) as [q|]; [eauto|]. destruct (splitDots s) as [|w ws]; [auto|].
    destruct (trimBox co (BezierOps_boxOk tr bm fuel) p HT) as (tl & br & E). unfold PathAttribute. rewrite E. cbn [bind].
    assert (SF : forall f q, (exists v, subfield f q = Ok v) \/ @subfield RNum f q = Err) by (intros [] q; cbn; eauto).
    destruct (attrNamed w); eauto; try apply SF; [destruct p|destruct p|destruct (TrimMove p)|destruct (TrimMove p)]; eauto. }
  destruct E as [[[q|x] E]|E]; rewrite E; cbn [bind]; eauto 6.
Qed.
Print Assumptions C69_as_point.
(** a width, and the left edge, are no points; a corner is *)
Example C69_as_point_example tr bm fuel : let p := [Move (pnt 0 0) (pnt 3 4); Line (pnt 3 4) (pnt 5 6)] in let co := BezierOps tr bm fuel in Forall tame p /\
  (exists x, PathAttributeText co "$WIDTH" p = Ok (VNum x)) /\ PointPathAttributeText co "$WIDTH" p = Err /\ PointPathAttributeText co "$TOP_LEFT.X" p = Err /\ exists q, PointPathAttributeText co "$TOP_LEFT" p = Ok q.
Proof.
  intros p co. assert (HT : Forall tame p) by (repeat constructor). split; [exact HT|].
  destruct (C69_box tr bm fuel p HT ltac:(discriminate)) as (tl & br & TB & B & W & _). fold co in B, W.
  destruct (B "$TOP_LEFT"%string (0, 0) ltac:(left; reflexivity)) as (x & y & _ & P0 & PX & _). change ("$TOP_LEFT" ++ ".X")%string with "$TOP_LEFT.X"%string in PX.
  split; [eexists; exact W|]. unfold PointPathAttributeText. rewrite W, P0, PX. cbn [bind]. split; [reflexivity|]. split; [reflexivity|]. eexists. reflexivity.
Qed.
