(** Bounding boxes of segments and paths in exact arithmetic are the smallest rectangles around what is drawn. *)
From Coq Require Import List ZArith Bool Reals Lra Psatz Lia.
From Verif Require Import Num RealNum PathModel SegOps Bezier PathSpec PathProofs GeomSpec BezierProofs.
Import ListNotations.
Local Open Scope R_scope.

Definition interval (a b x : R) : Prop := exists t, 0 <= t <= 1 /\ x = a + t * (b - a).
Lemma interval_range a b : range (interval a b) (Rmin a b) (Rmax a b).
Proof.
  split; [|split].
  - intros x (t & Ht & ->). unfold Rmin, Rmax. repeat destruct (Rle_dec _ _); nra.
  - unfold Rmin. destruct (Rle_dec a b); [exists 0|exists 1]; split; lra.
  - unfold Rmax. destruct (Rle_dec a b); [exists 1|exists 0]; split; lra.
Qed.

Lemma lineBox_fin s e : finitePt s -> finitePt e ->
  lineBox s e = (pnt (Rmin (X s) (X e)) (Rmin (Y s) (Y e)), pnt (Rmax (X s) (X e)) (Rmax (Y s) (Y e))).
Proof.
  intros H1 H2. unfold lineBox. rewrite !(px_fin _ H1), !(px_fin _ H2), !(py_fin _ H1), !(py_fin _ H2). fin.
  unfold Rmin, Rmax.
  destruct (Rltb_spec (X e) (X s)), (Rltb_spec (Y e) (Y s)); rewrite !NewPoint_fin;
    repeat destruct (Rle_dec _ _); unfold pnt; do 2 f_equal; f_equal; lra.
Qed.

Lemma lineBox_tight (g : seg RNum) s e : (g = Line s e \/ g = Move s e) -> finitePt s -> finitePt e ->
  tightBox (onSeg g) (fst (lineBox s e)) (snd (lineBox s e)).
Proof.
  intros Hg H1 H2. rewrite lineBox_fin by auto. cbn [fst snd]. split; [reflexivity|split; [reflexivity|]]. rewrite !pnt_X, !pnt_Y.
  split.
  - apply (range_ext (interval (X s) (X e))); [|apply interval_range]. intros x. unfold projX, onSeg, interval.
    split; [intros (t & Ht & E); exists (Y s + t * (Y e - Y s)), t; destruct Hg; subst; auto |
            intros (y & t & Ht & E); exists t; destruct Hg; subst; intuition].
  - apply (range_ext (interval (Y s) (Y e))); [|apply interval_range]. intros y. unfold projY, onSeg, interval.
    split; [intros (t & Ht & E); exists (X s + t * (X e - X s)), t; destruct Hg; subst; auto |
            intros (x & t & Ht & E); exists t; destruct Hg; subst; intuition].
Qed.

(** what the path-level code needs of the box of a curve *)
Definition boxOk (co : CurveOps RNum) : Prop :=
  forall c, finiteCrv c -> smallCrv c -> exists tl br, co_bbox co c = Ok (tl, br) /\ tightBox (onSeg (crvSeg c)) tl br.

Lemma BezierOps_boxOk tr bm fuel : boxOk (BezierOps tr bm fuel).
Proof. intros c F S. apply opBox_tight; auto. Qed.

Section Boxes.
Variable co : CurveOps RNum.
Implicit Types p l : list (seg RNum).
Hypothesis HB : boxOk co.

Lemma segBox_tight g : tame g -> exists tl br, segBox co g = Ok (tl, br) /\ tightBox (onSeg g) tl br.
Proof.
  intros [F S]. destruct g as [s e|s e|s cs e ce]; cbn [segBox].
  - exists (fst (lineBox s e)), (snd (lineBox s e)). split; [destruct (lineBox s e); auto|]. destruct F. apply lineBox_tight; auto.
  - exists (fst (lineBox s e)), (snd (lineBox s e)). split; [destruct (lineBox s e); auto|]. destruct F. apply lineBox_tight; auto.
  - destruct (HB (mkCrv s cs e ce)) as (tl & br & E & H).
    + destruct F as (F1 & F2 & F3 & F4). split; [|split; [|split]]; auto.
    + destruct S as (F1 & F2 & F3 & F4). split; [|split; [|split]]; auto.
    + exists tl, br. auto.
Qed.

Definition orSet (S S' : R -> R -> Prop) (x y : R) : Prop := S x y \/ S' x y.

Lemma boxMerge_tight S S' tl br tl' br' : tightBox S tl br -> tightBox S' tl' br' ->
  tightBox (orSet S S') (fst (boxMerge (tl, br) (tl', br'))) (snd (boxMerge (tl, br) (tl', br'))).
Proof.
  intros (F1 & F2 & R1 & R2) (F1' & F2' & R1' & R2').
  assert (E : boxMerge (tl, br) (tl', br') = (pnt (Rmin (X tl) (X tl')) (Rmin (Y tl) (Y tl')), pnt (Rmax (X br) (X br')) (Rmax (Y br) (Y br')))).
  { unfold boxMerge, gtb. rewrite !(px_fin _ F1), !(px_fin _ F2), !(py_fin _ F1), !(py_fin _ F2), !(px_fin _ F1'), !(px_fin _ F2'), !(py_fin _ F1'), !(py_fin _ F2'). fin.
    unfold pnt, Rmin, Rmax. do 2 f_equal;
      repeat match goal with |- context [Rltb ?a ?b] => destruct (Rltb_spec a b) end;
      repeat destruct (Rle_dec _ _); f_equal; lra. }
  rewrite E. cbn [fst snd]. split; [reflexivity|split; [reflexivity|]]. rewrite !pnt_X, !pnt_Y. split.
  - apply (range_ext (fun x => projX S x \/ projX S' x)); [|apply range_union; auto].
    intros x. unfold projX, orSet. split; [intros [[y H]|[y H]]; exists y; auto | intros [y [H|H]]; eauto].
  - apply (range_ext (fun x => projY S x \/ projY S' x)); [|apply range_union; auto].
    intros x. unfold projY, orSet. split; [intros [[y H]|[y H]]; exists y; auto | intros [y [H|H]]; eauto].
Qed.

Lemma boundingBox_loop_tight l : Forall tame l -> forall S tl br, tightBox S tl br ->
  exists tl' br', boundingBox_loop co (tl, br) l = Ok (tl', br') /\ tightBox (orSet S (inDrawing l)) tl' br'.
Proof.
  induction 1 as [|g l Hg Hl IH]; intros S tl br HS; cbn [boundingBox_loop].
  - exists tl, br. split; auto. eapply tightBox_ext; [|exact HS]. intros x y. unfold orSet, inDrawing. split; auto.
    intros [|(g & [] & _)]; auto.
  - destruct (isMove g) eqn:Eg.
    + destruct (IH S tl br HS) as (tl' & br' & E & H). exists tl', br'. split; auto.
      eapply tightBox_ext; [|exact H]. intros x y. unfold orSet, inDrawing. split.
      * intros [|(h & Hh & V & O)]; auto. right. exists h. simpl; auto.
      * intros [|(h & [->|Hh] & V & O)]; auto.
        -- destruct h; simpl in *; try discriminate; tauto.
        -- right. eauto.
    + destruct (segBox_tight g Hg) as (a & b & E & H). rewrite E. cbn [bind].
      pose proof (boxMerge_tight _ _ _ _ _ _ HS H) as HM. destruct (boxMerge (tl, br) (a, b)) as [tl1 br1].
      destruct (IH _ _ _ HM) as (tl' & br' & E' & H'). exists tl', br'. split; auto.
      eapply tightBox_ext; [|exact H']. intros x y. unfold orSet, inDrawing. split.
      * intros [[|]|(h & Hh & V & O)]; auto.
        -- right. exists g. split; [left; auto|]. split; auto. destruct g; simpl in *; try discriminate; auto.
        -- right. exists h. simpl; auto.
      * intros [|(h & [->|Hh] & V & O)]; auto. right. eauto.
Qed.

(** first segment whatever it is, then what is drawn *)
Lemma boundingBox_tight g l : Forall tame (g :: l) ->
  exists tl br, boundingBox co (g :: l) = Ok (tl, br) /\ tightBox (orSet (onSeg g) (inDrawing l)) tl br.
Proof.
  intros H. inversion H as [|? ? Hg Hl]; subst. cbn [boundingBox]. destruct (segBox_tight g Hg) as (a & b & E & HT). rewrite E. cbn [bind].
  apply boundingBox_loop_tight; auto.
Qed.

Lemma inDrawing_drawn l x y : inDrawing l x y <-> exists g, In g (drawn l) /\ onSeg g x y.
Proof.
  unfold inDrawing. induction l as [|h l IH]; simpl.
  - split; intros (g & [] & _).
  - split.
    + intros (g & [->|Hg] & V & O).
      * destruct g; simpl in *; try tauto; eexists; split; try (left; reflexivity); auto.
      * destruct IH as [IH _]. destruct IH as (k & Hk & Ok'); [eauto|]. exists k. destruct h; simpl; auto.
    + intros (g & Hg & O). assert (C : (h = g /\ visible h) \/ In g (drawn l)) by (destruct h; simpl in *; intuition).
      destruct C as [[-> V]|C]; [exists g; auto|]. destruct IH as [_ IH]. destruct IH as (k & Hk & V & O'); [eauto|]. exists k. auto.
Qed.

Lemma inDrawing_same l l' x y : drawn l = drawn l' -> inDrawing l x y <-> inDrawing l' x y.
Proof. intros E. rewrite !inDrawing_drawn, E. tauto. Qed.

Lemma In_TrimMove g (l : list (seg RNum)) : In g (TrimMove l) -> In g l.
Proof. destruct (TrimMove_pieces l) as (m1 & m2 & E & _). intros H. rewrite E. rewrite !in_app_iff. auto. Qed.

Lemma TrimMove_nonempty (l : list (seg RNum)) : drawn l <> [] -> exists g r, TrimMove l = g :: r /\ visible g.
Proof.
  intros H. destruct (TrimMove_ends l) as [E|[G _]]; auto.
  rewrite <- TrimMove_drawn, E in H. exfalso. apply H. reflexivity.
Qed.

(** the box without whitespace is the smallest rectangle around the drawing *)
Lemma BoundingBoxTrimWhitespace_tight p : Forall tame p -> drawn p <> [] ->
  exists tl br, BoundingBoxTrimWhitespace co p = Ok (tl, br) /\ tightBox (inDrawing p) tl br.
Proof.
  intros H Hd. unfold BoundingBoxTrimWhitespace, NewPathFromSegmentsWithoutMove.
  destruct (TrimMove_nonempty p Hd) as (g & r & E & V). rewrite E.
  assert (EF : FixHeadMove (g :: r) = g :: r) by (destruct g; simpl in V; [tauto|reflexivity|reflexivity]). rewrite EF.
  destruct (boundingBox_tight g r) as (tl & br & EB & HT).
  { rewrite <- E. apply Forall_forall. intros h Hh. eapply Forall_forall in H; [exact H|]. apply In_TrimMove; auto. }
  exists tl, br. split; auto. eapply tightBox_ext; [|exact HT]. intros x y.
  rewrite (inDrawing_same p (TrimMove p)) by (rewrite TrimMove_drawn; auto). rewrite E.
  unfold orSet, inDrawing. split.
  - intros [O|(h & Hh & Vh & O)]; [exists g|exists h]; simpl; auto.
  - intros (h & [->|Hh] & Vh & O); auto. right. eauto.
Qed.

(** a path with nothing drawn has the box (0,0)-(0,0) *)
Lemma BoundingBoxTrimWhitespace_empty p : drawn p = [] -> BoundingBoxTrimWhitespace co p = Ok (zeroPt, zeroPt).
Proof.
  intros H. unfold BoundingBoxTrimWhitespace, NewPathFromSegmentsWithoutMove.
  destruct (TrimMove_ends p) as [E|[(g & r & E & V) _]]; [rewrite E; reflexivity|].
  rewrite <- TrimMove_drawn, E in H. destruct g; simpl in *; try tauto; discriminate.
Qed.

(** the box with whitespace *)
Lemma BoundingBoxWithWhitespace_spec g l : Forall tame (g :: l) ->
  exists tl br, tightBox (orSet (onSeg g) (inDrawing l)) tl br /\
    BoundingBoxWithWhitespace co (g :: l) =
      Ok (pnt (Rmin 0 (X (sstart g))) (Rmin 0 (Y (sstart g))),
          pnt (Rmax (X br) (X (send (last (g :: l) g)))) (Rmax (Y br) (Y (send (last (g :: l) g))))).
Proof.
  intros H. destruct (boundingBox_tight g l H) as (tl & br & E & HT). exists tl, br. split; auto.
  unfold BoundingBoxWithWhitespace. rewrite E. cbn [bind].
  assert (Fs : finitePt (sstart g)). { inversion H as [|? ? [F _] _]; subst. destruct g; simpl in F |- *; tauto. }
  assert (Fe : finitePt (send (last (g :: l) g))).
  { eapply Forall_forall with (x := last (g :: l) g) in H.
    - destruct H as [F _]. destruct (last (g :: l) g); simpl in F |- *; tauto.
    - destruct (@exists_last _ (g :: l)) as (i & z & Ez); [discriminate|]. rewrite Ez, last_last. apply in_or_app. simpl. auto. }
  set (e := send (last (g :: l) g)) in *. destruct HT as (F1 & F2 & _).
  assert (E0 : @NewPoint RNum zero zero = pnt 0 0) by apply NewPoint_fin. rewrite E0.
  unfold gtb. rewrite !(px_fin _ Fs), !(py_fin _ Fs), !(px_fin _ Fe), !(py_fin _ Fe), !(px_fin _ F2), !(py_fin _ F2).
  cbn [px py pnt]. fin. unfold pnt, Rmin, Rmax. do 2 f_equal;
      repeat match goal with |- context [Rltb ?a ?b] => destruct (Rltb_spec a b) end;
      repeat destruct (Rle_dec _ _); f_equal; f_equal; lra.
Qed.

End Boxes.
