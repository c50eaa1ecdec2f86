(** Path attributes (handles) and the move transform in exact arithmetic. *)
From Coq Require Import List ZArith Bool Reals Lra Psatz Lia.
From Verif Require Import Num RealNum PathModel SegOps Bezier GeomTransforms PathSpec PathProofs GeomSpec BezierProofs GeomProofs AffineProofs.
Import ListNotations.
Local Open Scope R_scope.

(** where a box handle lies, as fractions of the width and the height *)
Definition boxFraction (h : attr RNum) : option (R * R) :=
  match h with
  | ATopLeft => Some (0, 0) | ATopMiddle => Some (1 / 2, 0) | ATopRight => Some (1, 0)
  | AMiddleLeft => Some (0, 1 / 2) | AMiddleMiddle => Some (1 / 2, 1 / 2) | AMiddleRight => Some (1, 1 / 2)
  | ABottomLeft => Some (0, 1) | ABottomMiddle => Some (1 / 2, 1) | ABottomRight => Some (1, 1)
  | _ => None
  end.
(** the point of the box (tl, br) at the fractions fx, fy *)
Definition boxPoint (tl br : Pt RNum) (fx fy : R) : Pt RNum := pnt (X tl + fx * (X br - X tl)) (Y tl + fy * (Y br - Y tl)).

Lemma finitePt_origin : finitePt (@NewPoint RNum zero zero).
Proof. assert (E0 : @NewPoint RNum zero zero = pnt 0 0) by apply NewPoint_fin. rewrite E0. reflexivity. Qed.

Section Handles.
Variable co : CurveOps RNum.
Hypothesis HB : boxOk co.
Implicit Types p : list (seg RNum).

Lemma box_attr h fx fy tl br p : finitePt tl -> finitePt br -> BoundingBoxTrimWhitespace co p = Ok (tl, br) ->
  boxFraction h = Some (fx, fy) -> PointPathAttribute co h NoSub p = Ok (boxPoint tl br fx fy).
Proof.
  intros F1 F2 E H. unfold PointPathAttribute, PathAttribute.
  destruct h; cbn [boxFraction] in H; try discriminate; injection H as <- <-; rewrite E; cbn [bind subfield];
    unfold boxPoint, two; rewrite ?(px_fin _ F1), ?(px_fin _ F2), ?(py_fin _ F1), ?(py_fin _ F2); fin;
    rewrite ?fdiv by lra; fin; rewrite ?NewPoint_fin; f_equal.
  all: try (unfold pnt; f_equal; f_equal; lra).
  - rewrite (pnt_eta _ F1) at 1. unfold pnt. f_equal; f_equal; ring.
  - rewrite (pnt_eta _ F2) at 1. unfold pnt. f_equal; f_equal; ring.
Qed.

Lemma box_handle h fx fy p : Forall tame p -> drawn p <> [] -> boxFraction h = Some (fx, fy) ->
  exists tl br, tightBox (inDrawing p) tl br /\ BoundingBoxTrimWhitespace co p = Ok (tl, br) /\
    PointPathAttribute co h NoSub p = Ok (boxPoint tl br fx fy).
Proof.
  intros HT Hd H. destruct (BoundingBoxTrimWhitespace_tight co HB p HT Hd) as (tl & br & E & T).
  exists tl, br. split; [exact T|]. split; [exact E|]. destruct T as (F1 & F2 & _). apply (box_attr h fx fy tl br p); auto.
Qed.

(** every handle that exists is a real point *)
Lemma handle_finite h p q : Forall tame p -> (forall z, h = APoint z -> finitePt z) ->
  PointPathAttribute co h NoSub p = Ok q -> finitePt q.
Proof.
  intros HT HP E. unfold PointPathAttribute, PathAttribute in E.
  assert (HF : forall g, In g p -> finitePt (sstart g) /\ finitePt (send g)).
  { intros g Hg. eapply Forall_forall in HT; [|exact Hg]. destruct HT as [F _]. destruct g; cbn in *; tauto. }
  assert (BX : exists tl br, BoundingBoxTrimWhitespace co p = Ok (tl, br) /\ finitePt tl /\ finitePt br).
  { destruct (drawn p) eqn:Ed.
    - rewrite (BoundingBoxTrimWhitespace_empty co) by auto. eexists. eexists. split; [reflexivity|]. split; reflexivity.
    - destruct (BoundingBoxTrimWhitespace_tight co HB p HT) as (tl & br & E' & F1 & F2 & _); [rewrite Ed; discriminate|]. eauto. }
  assert (HL : forall (l : list (seg RNum)) d, l <> [] -> In (last l d) l).
  { intros l d Hl. destruct (@exists_last _ l Hl) as (i & z & ->). rewrite last_last. apply in_or_app; simpl; auto. }
  destruct BX as (tl & br & EB & F1 & F2). rewrite EB in E.
  destruct h; cbn [bind subfield] in E.
  - injection E as <-. eauto.
  - injection E as <-. exact finitePt_origin.
  - discriminate.
  - discriminate.
  - destruct p as [|g r]; [discriminate|]. injection E as <-. apply HF. left; auto.
  - destruct p as [|g r]; [discriminate|]. injection E as <-. apply HF. apply (HL (g :: r) g). discriminate.
  - destruct (TrimMove p) as [|g r] eqn:Et; [discriminate|]. injection E as <-. apply HF. apply In_TrimMove. rewrite Et. left; auto.
  - destruct (TrimMove p) as [|g r] eqn:Et; [discriminate|]. injection E as <-. apply HF. apply In_TrimMove. rewrite Et. apply (HL (g :: r) g). discriminate.
  - injection E as <-; auto.
  - injection E as <-. rewrite (px_fin _ F2), (py_fin _ F1), NewPoint_fin. reflexivity.
  - injection E as <-. unfold two. rewrite (px_fin _ F2), (px_fin _ F1), (py_fin _ F1). fin. rewrite fdiv by lra. fin. rewrite NewPoint_fin. reflexivity.
  - injection E as <-. rewrite (px_fin _ F1), (py_fin _ F2), NewPoint_fin. reflexivity.
  - injection E as <-; auto.
  - injection E as <-. unfold two. rewrite (px_fin _ F2), (px_fin _ F1), (py_fin _ F2). fin. rewrite fdiv by lra. fin. rewrite NewPoint_fin. reflexivity.
  - injection E as <-. unfold two. rewrite (px_fin _ F1), (py_fin _ F1), (py_fin _ F2). fin. rewrite fdiv by lra. fin. rewrite NewPoint_fin. reflexivity.
  - injection E as <-. unfold two. rewrite (px_fin _ F2), (py_fin _ F1), (py_fin _ F2). fin. rewrite fdiv by lra. fin. rewrite NewPoint_fin. reflexivity.
  - injection E as <-. unfold two. rewrite (px_fin _ F2), (px_fin _ F1), (py_fin _ F1), (py_fin _ F2). fin. rewrite !fdiv by lra. fin. rewrite NewPoint_fin. reflexivity.
  - discriminate.
Qed.

(** moving is shifting by the difference *)
Lemma MoveT_shift point h p q : finitePt point -> finitePt q -> PointPathAttribute co h NoSub p = Ok q ->
  MoveT co point h p = Ok (Shift (Fin (X point - X q) : T RNum) (Fin (Y point - Y q)) p).
Proof.
  intros F1 F2 E. unfold MoveT. rewrite E. cbn [bind].
  rewrite (px_fin _ F1), (py_fin _ F1), (px_fin _ F2), (py_fin _ F2). fin. reflexivity.
Qed.

Lemma TrimMove_map_aff A p : TrimMove (map (affSeg A) p) = map (affSeg A) (TrimMove p).
Proof.
  assert (HM : forall g, isMove (affSeg A g) = isMove g) by (intros []; auto).
  assert (HD : forall l, dropMoves (map (affSeg A) l) = map (affSeg A) (dropMoves l)).
  { induction l as [|g l IH]; auto. cbn [map dropMoves]. rewrite HM. destruct (isMove g); auto. }
  induction p as [|g p IH]; auto. cbn [map TrimMove]. rewrite HM. destruct (isMove g); auto.
  unfold TrimTailMove. rewrite <- map_cons, <- map_rev, HD, <- map_rev. auto.
Qed.
Lemma TrimMove_canon p : TrimMove (canon p) = TrimMove p.
Proof. destruct p as [|[] r]; auto. Qed.
Lemma TrimMove_mapPoints f A p : isAff f A -> Forall finiteSeg p -> TrimMove (mapPoints f p) = map (affSeg A) (TrimMove p).
Proof. intros HA F. rewrite (mapPoints_canon f A) by auto. rewrite TrimMove_canon. apply TrimMove_map_aff. Qed.

End Handles.
