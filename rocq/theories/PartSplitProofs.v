(** Paths of moves and lines stay such under the operations of the part splitter. *)
From Coq Require Import String List ZArith NArith Bool Lia Reals Lra.
From Verif Require Import Num NumLaws FloatNum RealNum RealTrig PathModel DrawModel SegOps TransformsModel Bezier GeomTransforms PartSplit PathSpec PathProofs CleanupProofs GeomSpec
  BezierProofs PrecisionProofs GeomProofs AffineProofs HandleProofs RotateProofs LineGeom SplitProofs SliceProofs Prop_C42 Prop_C41 Prop_C18.
Import ListNotations.
Local Open Scope R_scope.
Implicit Types p l : list (seg RNum).

Lemma isLine_finite g : isLine g -> finiteSeg g. Proof. destruct g; cbn; tauto. Qed.
Lemma isLines_finite p : Forall isLine p -> Forall finiteSeg p. Proof. apply Forall_impl, isLine_finite. Qed.
Lemma isLine_ends g : isLine g -> finitePt (sstart g) /\ finitePt (send g). Proof. destruct g; cbn; tauto. Qed.
Lemma isLine_move s e : finitePt s -> finitePt e -> isLine (Move s e). Proof. cbn; auto. Qed.
Lemma isLine_affSeg A g : isLine g -> isLine (affSeg A g).
Proof. intros H. pose proof (affSeg_finite A g) as F. destruct g; cbn in *; tauto. Qed.
Lemma isLine_canon p : Forall isLine p -> Forall isLine (canon p).
Proof.
  intros H. destruct p as [|g r]; auto. inversion H as [|? ? Hg Hr]; subst. destruct (isLine_ends g Hg).
  destruct g; cbn [canon]; repeat constructor; auto; cbn in *; tauto.
Qed.
Lemma isLine_map A p : Forall isLine p -> Forall isLine (map (affSeg A) p).
Proof. induction 1; constructor; auto. apply isLine_affSeg; auto. Qed.
Lemma mapPoints_isLine f A p : isAff f A -> Forall isLine p -> Forall isLine (mapPoints f p).
Proof. intros HA H. rewrite (mapPoints_canon f A) by (auto using isLines_finite). apply isLine_canon, isLine_map, H. Qed.
Lemma Shift_isLine dx dy p : Forall isLine p -> Forall isLine (Shift (Fin dx : T RNum) (Fin dy) p).
Proof. apply (mapPoints_isLine _ _ _ (shift_aff dx dy)). Qed.

Lemma NPFS_isLine p : Forall isLine p -> Forall isLine (NewPathFromSegments p).
Proof. intros H. rewrite NPFS_canon by (apply isLines_finite; auto). apply isLine_canon; auto. Qed.
Lemma zeroPt_finite : finitePt (@zeroPt RNum). Proof. reflexivity. Qed.
Lemma FixHeadMove_isLine p : Forall isLine p -> Forall isLine (FixHeadMove p).
Proof.
  intros H. destruct p as [|[s e|s e|s cs e ce] r]; auto. cbn [FixHeadMove]. destruct (_ || _); auto.
  inversion H as [|? ? Hg Hr]; subst. constructor; auto. destruct Hg. apply isLine_move; auto. apply zeroPt_finite.
Qed.
Lemma cleanup_loop_isLine prec p : Forall isLine p -> forall first prev, finitePt prev -> Forall isLine (cleanup_loop prec first prev p).
Proof.
  induction 1 as [|g r Hg Hr IH]; intros first prev Hp; [constructor|]. cbn [cleanup_loop].
  destruct (isLine_ends g Hg) as [Fs Fe]. destruct first.
  - apply Forall_app. split.
    + destruct (isMove g); [constructor|]. constructor; [|constructor]. apply isLine_move; auto. apply zeroPt_finite.
    + destruct (hasNaNEnd g); [apply IH; auto|constructor; auto].
  - destruct (ptEquals (sstart g) prev).
    + cbn [app]. destruct (hasNaNEnd g); [apply IH; auto|constructor; auto].
    + set (g' := if EqualsPrecision _ _ _ then _ else _).
      assert (G : isLine g').
      { subst g'. destruct (EqualsPrecision _ _ _); auto. destruct g; cbn in *; tauto. }
      destruct (isLine_ends g' G). clearbody g'. cbn [app]. constructor; [apply isLine_move; auto|].
      destruct (hasNaNEnd g'); [apply IH; auto|constructor; auto].
Qed.
Lemma merge_loop_isLine l : Forall isLine l -> forall g, isLine g -> Forall isLine (merge_loop g l).
Proof.
  induction 1 as [|h r Hh Hr IH]; intros g Hg; cbn [merge_loop]; [repeat constructor; auto|].
  destruct (_ && _); [|constructor; auto]. apply IH. destruct (isLine_ends g Hg), (isLine_ends h Hh). apply isLine_move; auto.
Qed.
Lemma Cleanup_isLine prec p : Forall isLine p -> Forall isLine (Cleanup prec p).
Proof.
  intros H. unfold Cleanup. apply NPFS_isLine. pose proof (FixHeadMove_isLine _ (cleanup_loop_isLine prec p H true zeroPt zeroPt_finite)) as G.
  destruct G as [|g r Hg Hr]; [constructor|]. apply merge_loop_isLine; auto.
Qed.

Lemma KnifeCut_isLine co n x1 y1 x2 y2 fuel : forall g l, isLine g ->
  KnifeCut co (Z.of_nat n) fuel g (Line (pnt x1 y1) (pnt x2 y2)) = Ok l -> Forall isLine l.
Proof.
  induction fuel as [|f IH]; intros g l Hg; [discriminate|]. destruct g as [s e|s e|s cs e ce]; [| |destruct Hg].
  - cbn. intros E; injection E as <-. repeat constructor; auto; apply Hg.
  - rewrite KnifeCut_step. pose proof Hg as [Fs Fe]. rewrite Fs, Fe.
    destruct (Intersect_lines co x1 y1 x2 y2 (X s) (Y s) (X e) (Y e) n) as [(x & y & _ & _ & _ & E)|[_ E]]; rewrite E; cbn [bind].
    2:{ intros Q; injection Q as <-. repeat constructor; apply finitePt_pnt. }
    unfold Split. cbn [fst sstart send]. destruct (_ || _); cbn [bind].
    { intros Q; injection Q as <-. repeat constructor; apply finitePt_pnt. }
    cbn [cutAll]. destruct (KnifeCut co (Z.of_nat n) f (Line (pnt (X s) (Y s)) (pnt x y)) _) as [l1| | |] eqn:E1; cbn [bind]; try discriminate.
    destruct (KnifeCut co (Z.of_nat n) f (Line (pnt x y) _) _) as [l2| | |] eqn:E2; cbn [bind]; try discriminate.
    intros Q; injection Q as <-. rewrite app_nil_r. apply Forall_app.
    split; [eapply IH; [|exact E1]|eapply IH; [|exact E2]]; split; apply finitePt_pnt.
Qed.

Section Ops.
Variable co : CurveOps RNum.
Hypothesis HB : boxOk co.

Lemma HSlice_isLine n fuel y prec p q : Forall isLine p -> HSlice co (Z.of_nat n) fuel (Fin y : T RNum) prec p = Ok q -> Forall isLine q.
Proof.
  intros H. destruct p as [|g0 l]; [discriminate|]. pose proof (isLine_tame _ H) as HT.
  destruct (BoundingBoxWithWhitespace_spec co HB g0 l HT) as (tl & br & _ & E). unfold HSlice. rewrite E. cbn [bind px pnt]. rewrite !NewPoint_fin.
  match goal with |- context [knifeAll co _ _ ?k _] => set (knife := k) end.
  destruct (knifeAll co (Z.of_nat n) fuel knife (g0 :: l)) as [cut| | |] eqn:EC; cbn [bind]; try discriminate.
  destruct (slice_filter co (Fin y : T RNum) prec cut) as [kept| | |] eqn:EK; cbn [bind]; try discriminate. intros Q; injection Q as <-.
  apply Cleanup_isLine, FixHeadMove_isLine. destruct (slice_filter_spec co _ _ _ _ EK) as (SUB & _).
  apply Forall_forall. intros h Hh. apply (sublist_In _ _ SUB) in Hh.
  destruct (knifeAll_In co _ _ _ _ _ EC h Hh) as (g & lg & Hg & Eg & Hl).
  eapply (KnifeCut_isLine co) in Eg; [|rewrite Forall_forall in H; apply H; exact Hg]. rewrite Forall_forall in Eg. auto.
Qed.

Lemma clonePt_finite q : finitePt q -> finitePt (clonePt q).
Proof. intros ->. unfold clonePt. cbn [px py pnt]. rewrite NewPoint_fin. apply finitePt_pnt. Qed.
Lemma clonePath_isLine p : Forall isLine p -> Forall isLine (clonePath p).
Proof. induction 1 as [|g r Hg Hr IH]; constructor; auto. destruct g; cbn in *; try tauto; destruct Hg; split; apply clonePt_finite; auto. Qed.
Lemma simpleJoinOne_isLine p l : Forall isLine p -> Forall isLine l -> Forall isLine (simpleJoinOne p l).
Proof.
  intros H1 H2. destruct l as [|s r]; auto. unfold simpleJoinOne. apply Forall_app. split; auto. apply Forall_app. split; [|apply clonePath_isLine; auto].
  destruct (Tail p) as [prev|] eqn:ET; [|constructor]. destruct (ptEquals _ _); [constructor|]. constructor; [|constructor].
  assert (isLine prev).
  { rewrite Forall_forall in H1. apply H1. clear -ET. induction p as [|g [|k m] IH]; cbn [Tail] in ET; [discriminate|injection ET as <-; left; reflexivity|].
    right. apply IH. exact ET. }
  inversion H2 as [|? ? Hs Hr]; subst. destruct (isLine_ends _ H) as [_ F1]. destruct (isLine_ends _ Hs) as [_ F2].
  apply isLine_move; [exact F1|apply clonePt_finite; exact F2].
Qed.
Lemma JoinPaths_isLine p l q : Forall isLine p -> Forall isLine l -> JoinPaths [p; l] = Ok q -> Forall isLine q.
Proof. intros H1 H2. cbn. intros E; injection E as <-. apply simpleJoinOne_isLine; auto. apply clonePath_isLine; auto. Qed.

(** the box of moves and lines *)
Definition boxed p (tl br : Pt RNum) : Prop := finitePt tl /\ finitePt br /\ BoundingBoxTrimWhitespace co p = Ok (tl, br) /\
  (drawn p = [] /\ tl = zeroPt /\ br = zeroPt \/ drawn p <> [] /\ tightBox (inDrawing p) tl br).
Lemma box_exists p : Forall isLine p -> exists tl br, boxed p tl br.
Proof.
  intros H. destruct (drawn p) eqn:Ed.
  - exists zeroPt, zeroPt. repeat split. rewrite (BoundingBoxTrimWhitespace_empty co) by auto. reflexivity. left. auto.
  - destruct (BoundingBoxTrimWhitespace_tight co HB p (isLine_tame _ H)) as (tl & br & E & T); [rewrite Ed; discriminate|].
    pose proof T as (F1 & F2 & _). exists tl, br. repeat split; auto. right. rewrite Ed. split; [discriminate|exact T].
Qed.
Lemma box_eq p tl br : Forall isLine p -> BoundingBoxTrimWhitespace co p = Ok (tl, br) -> boxed p tl br.
Proof. intros H E. destruct (box_exists p H) as (a & b & B). pose proof B as (_ & _ & E' & _). congruence. Qed.

Lemma TrimWhitespace_isLine p q : Forall isLine p -> TrimWhitespace co p = Ok q -> Forall isLine q.
Proof.
  intros H. unfold TrimWhitespace. destruct (box_exists p H) as (tl & br & F1 & _ & E & _). rewrite E. cbn [bind].
  rewrite (px_fin _ F1), (py_fin _ F1). fin. intros Q; injection Q as <-. apply Shift_isLine; auto.
Qed.

Lemma topLeft p : Forall isLine p -> exists q, PointPathAttribute co ATopLeft NoSub p = Ok q /\ finitePt q.
Proof.
  intros H. destruct (box_exists p H) as (tl & br & F1 & F2 & E & _). eexists. split; [eapply (box_attr co ATopLeft); [exact F1|exact F2|exact E|reflexivity]|]. apply finitePt_pnt.
Qed.
Lemma MirrorT_isLine hz p q : Forall isLine p -> MirrorT co hz ATopLeft p = Ok q -> Forall isLine q.
Proof.
  intros H. destruct (topLeft p H) as (z & Ez & Fz). unfold MirrorT. rewrite Ez. cbn [bind]. unfold MoveT. rewrite Ez. cbn [bind].
  assert (E0 : @NewPoint RNum zero zero = pnt 0 0) by apply NewPoint_fin. rewrite E0, (px_fin _ Fz), (py_fin _ Fz). cbn [px py pnt]. fin.
  set (p1 := Shift _ _ p). assert (H1 : Forall isLine p1) by (apply Shift_isLine; auto). clearbody p1.
  destruct p1 as [|g l]; [discriminate|].
  destruct (BoundingBoxWithWhitespace_spec co HB g l (isLine_tame _ H1)) as (tl & br & _ & E). rewrite E. cbn [bind]. intros Q; injection Q as <-.
  apply Shift_isLine. eapply mapPoints_isLine; [apply Prop_C18.mirror_aff; apply finitePt_pnt|auto].
Qed.
Lemma RotateT_isLine d p q : Forall isLine p -> RotateT co RTrig (Fin d : T RNum) ATopLeft p = Ok q -> Forall isLine q.
Proof.
  intros H. destruct (topLeft p H) as (z & Ez & Fz). unfold RotateT. rewrite Ez. cbn [bind]. unfold MoveT. rewrite Ez. cbn [bind].
  assert (E0 : @NewPoint RNum zero zero = pnt 0 0) by apply NewPoint_fin. rewrite E0, (px_fin _ Fz), (py_fin _ Fz). cbn [px py pnt]. fin.
  intros Q; injection Q as <-. apply Shift_isLine. eapply mapPoints_isLine; [apply rotate_aff|]. apply Shift_isLine; auto.
Qed.
End Ops.
