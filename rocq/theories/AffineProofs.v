(** Transforms that map every point by an affine map, in exact arithmetic: the drawing is mapped by the same affine map,
    maps compose, boxes of images. *)
From Coq Require Import List ZArith Bool Reals Lra Psatz Lia.
From Verif Require Import Num RealNum PathModel SegOps Bezier GeomTransforms PathSpec PathProofs GeomSpec BezierProofs GeomProofs.
Import ListNotations.
Local Open Scope R_scope.

(** the map (x, y) -> (a x + c y + e, b x + d y + f) *)
Record aff := mkAff { af_a : R; af_b : R; af_c : R; af_d : R; af_e : R; af_f : R }.
Definition affX (A : aff) (x y : R) : R := af_a A * x + af_c A * y + af_e A.
Definition affY (A : aff) (x y : R) : R := af_b A * x + af_d A * y + af_f A.
Definition affPt (A : aff) (p : Pt RNum) : Pt RNum := pnt (affX A (X p) (Y p)) (affY A (X p) (Y p)).
(** apply B, then A *)
Definition affComp (A B : aff) : aff :=
  mkAff (af_a A * af_a B + af_c A * af_b B) (af_b A * af_a B + af_d A * af_b B)
        (af_a A * af_c B + af_c A * af_d B) (af_b A * af_c B + af_d A * af_d B)
        (af_a A * af_e B + af_c A * af_f B + af_e A) (af_b A * af_e B + af_d A * af_f B + af_f A).
Definition affId : aff := mkAff 1 0 0 1 0 0.

Definition isAff (f : Pt RNum -> Pt RNum) (A : aff) : Prop := forall p, finitePt p -> f p = affPt A p.

Lemma affComp_X A B x y : affX (affComp A B) x y = affX A (affX B x y) (affY B x y).
Proof. unfold affX, affY, affComp; cbn. ring. Qed.
Lemma affComp_Y A B x y : affY (affComp A B) x y = affY A (affX B x y) (affY B x y).
Proof. unfold affX, affY, affComp; cbn. ring. Qed.
Lemma affPt_comp A B p : affPt A (affPt B p) = affPt (affComp A B) p.
Proof. unfold affPt. rewrite !pnt_X, !pnt_Y, affComp_X, affComp_Y. auto. Qed.
Lemma affPt_id p : finitePt p -> affPt affId p = p.
Proof. intros H. unfold affPt, affX, affY, affId; cbn. symmetry. rewrite (pnt_eta _ H) at 1. unfold pnt. f_equal; f_equal; ring. Qed.
Lemma aff_ext A B : af_a A = af_a B -> af_b A = af_b B -> af_c A = af_c B -> af_d A = af_d B -> af_e A = af_e B -> af_f A = af_f B -> A = B.
Proof. destruct A, B; cbn; intros; subst; auto. Qed.

Lemma affPt_X A p : X (affPt A p) = affX A (X p) (Y p). Proof. reflexivity. Qed.
Lemma affPt_Y A p : Y (affPt A p) = affY A (X p) (Y p). Proof. reflexivity. Qed.

Definition affSeg (A : aff) (g : seg RNum) : seg RNum := TransformPoints g (affPt A).

Lemma TransformPoints_aff f A g : isAff f A -> finiteSeg g -> TransformPoints g f = affSeg A g.
Proof. intros H F. unfold affSeg. destruct g; cbn in *; rewrite !H by tauto; auto. Qed.
Lemma affSeg_finite A g : finiteSeg (affSeg A g).
Proof. destruct g; cbn; repeat split. Qed.
Lemma affSeg_comp A B g : affSeg A (affSeg B g) = affSeg (affComp A B) g.
Proof. destruct g; cbn; rewrite !affPt_comp; auto. Qed.
Lemma affSeg_id g : finiteSeg g -> affSeg affId g = g.
Proof. destruct g; cbn; intros H; rewrite !affPt_id by tauto; auto. Qed.

Lemma cubic_affine k l m a b c d a' b' c' d' t :
  cubic (k * a + l * a' + m) (k * b + l * b' + m) (k * c + l * c' + m) (k * d + l * d' + m) t
  = k * cubic a b c d t + l * cubic a' b' c' d' t + m.
Proof. unfold cubic. ring. Qed.

(** the points of the image are the images of the points *)
Lemma onSeg_aff A g x y : onSeg (affSeg A g) x y <->
  exists x' y', onSeg g x' y' /\ x = affX A x' y' /\ y = affY A x' y'.
Proof.
  unfold onSeg. split.
  - intros (t & Ht & H). destruct g as [s e|s e|s cs e ce]; cbn [affSeg TransformPoints] in H; rewrite ?affPt_X, ?affPt_Y in H; destruct H as [-> ->].
    1, 2: exists (X s + t * (X e - X s)), (Y s + t * (Y e - Y s)); split; [exists t; auto|unfold affX, affY; split; ring].
    exists (cubic (X s) (X cs) (X ce) (X e) t), (cubic (Y s) (Y cs) (Y ce) (Y e) t). split; [exists t; auto|].
    unfold affX, affY. rewrite !cubic_affine. auto.
  - intros (x' & y' & (t & Ht & H) & -> & ->). exists t. split; auto.
    destruct g as [s e|s e|s cs e ce]; cbn [affSeg TransformPoints]; rewrite ?affPt_X, ?affPt_Y; destruct H as [-> ->].
    1, 2: unfold affX, affY; split; ring.
    unfold affX, affY. rewrite !cubic_affine. auto.
Qed.

Lemma visible_aff A g : visible (affSeg A g) <-> visible g.
Proof. destruct g; cbn; tauto. Qed.

Lemma drawn_map_aff A p : drawn (map (affSeg A) p) = map (affSeg A) (drawn p).
Proof. induction p as [|g p IH]; auto. destruct g; cbn [map affSeg TransformPoints drawn]; rewrite ?IH; auto. Qed.

(** normal form of a path: it begins with a move from the origin *)
Definition canon (p : list (seg RNum)) : list (seg RNum) :=
  match p with
  | [] => []
  | Move s e :: r => Move (pnt 0 0) e :: r
  | g :: r => Move (pnt 0 0) (sstart g) :: g :: r
  end.
Lemma NPFS_canon l : Forall finiteSeg l -> NewPathFromSegments l = canon l.
Proof.
  intros H. destruct l as [|g r]; auto. inversion H as [|? ? Hg Hr]; subst.
  unfold NewPathFromSegments. destruct g as [s e|s e|s cs e ce]; cbn [isMove FixHeadMove canon sstart].
  - destruct Hg as [Fs Fe]. rewrite (px_fin _ Fs), (py_fin _ Fs). fin.
    destruct (Reqb_spec (X s) 0) as [E1|], (Reqb_spec (Y s) 0) as [E2|]; cbn [negb orb]; auto.
    rewrite (pnt_eta _ Fs) at 1. rewrite E1, E2. auto.
  - assert (E0 : @NewPoint RNum zero zero = pnt 0 0) by apply NewPoint_fin. rewrite E0. cbn [px py pnt]. fin.
    destruct (Reqb_spec 0 0); [|lra]. cbn. auto.
  - assert (E0 : @NewPoint RNum zero zero = pnt 0 0) by apply NewPoint_fin. rewrite E0. cbn [px py pnt]. fin.
    destruct (Reqb_spec 0 0); [|lra]. cbn. auto.
Qed.
Lemma canon_finite l : Forall finiteSeg l -> Forall finiteSeg (canon l).
Proof.
  intros H. destruct l as [|g r]; auto. inversion H as [|? ? Hg Hr]; subst. destruct g; cbn [canon sstart]; constructor; auto.
  - cbn in *. split; [apply finitePt_pnt|tauto].
  - cbn in *. split; [apply finitePt_pnt|tauto].
  - cbn in *. split; [apply finitePt_pnt|tauto].
Qed.
Lemma canon_drawn l : drawn (canon l) = drawn l.
Proof. destruct l as [|[] r]; auto. Qed.
Lemma canon_map_canon A l : canon (map (affSeg A) (canon l)) = canon (map (affSeg A) l).
Proof. destruct l as [|[s e|s e|s cs e ce] r]; cbn; auto. Qed.
Lemma canon_idem l : canon (canon l) = canon l.
Proof. destruct l as [|[s e|s e|s cs e ce] r]; cbn; auto. Qed.

Lemma map_finite A l : Forall finiteSeg (map (affSeg A) l).
Proof. apply Forall_forall. intros g Hg. apply in_map_iff in Hg. destruct Hg as (h & <- & _). apply affSeg_finite. Qed.

Lemma mapPoints_canon f A p : isAff f A -> Forall finiteSeg p -> mapPoints f p = canon (map (affSeg A) p).
Proof.
  intros HA F. unfold mapPoints. replace (map (fun g => TransformPoints g f) p) with (map (affSeg A) p).
  - apply NPFS_canon, map_finite.
  - apply map_ext_in. intros g Hg. symmetry. apply TransformPoints_aff; auto. eapply Forall_forall in F; eauto.
Qed.
Lemma mapPoints_finite f A p : isAff f A -> Forall finiteSeg p -> Forall finiteSeg (mapPoints f p).
Proof. intros HA F. rewrite (mapPoints_canon f A) by auto. apply canon_finite, map_finite. Qed.
Lemma mapPoints_drawn f A p : isAff f A -> Forall finiteSeg p -> drawn (mapPoints f p) = map (affSeg A) (drawn p).
Proof. intros HA F. rewrite (mapPoints_canon f A) by auto. rewrite canon_drawn. apply drawn_map_aff. Qed.
Lemma mapPoints_comp f A g B h p : isAff f A -> isAff g B -> isAff h (affComp A B) -> Forall finiteSeg p ->
  mapPoints f (mapPoints g p) = mapPoints h p.
Proof.
  intros HA HB HC F. rewrite (mapPoints_canon f A); auto; [|apply (mapPoints_finite g B); auto].
  rewrite (mapPoints_canon g B), (mapPoints_canon h (affComp A B)) by auto. rewrite canon_map_canon, map_map. f_equal.
  apply map_ext. intros; apply affSeg_comp.
Qed.

Lemma inDrawing_aff f A p x y : isAff f A -> Forall finiteSeg p ->
  (inDrawing (mapPoints f p) x y <-> exists x' y', inDrawing p x' y' /\ x = affX A x' y' /\ y = affY A x' y').
Proof.
  intros HA F. rewrite inDrawing_drawn, (mapPoints_drawn f A) by auto. split.
  - intros (g & Hg & O). apply in_map_iff in Hg. destruct Hg as (h & <- & Hh). apply onSeg_aff in O.
    destruct O as (x' & y' & O & E). exists x', y'. rewrite inDrawing_drawn. eauto.
  - intros (x' & y' & D & E). apply inDrawing_drawn in D. destruct D as (h & Hh & O). exists (affSeg A h).
    split; [apply in_map; auto|]. apply onSeg_aff. eauto.
Qed.

(** boxes under maps that keep the axes: x -> k x + m, y -> l y + n *)
Definition diag (k l m n : R) : aff := mkAff k 0 0 l m n.
Lemma diag_X k l m n x y : affX (diag k l m n) x y = k * x + m. Proof. unfold affX; cbn. ring. Qed.
Lemma diag_Y k l m n x y : affY (diag k l m n) x y = l * y + n. Proof. unfold affY; cbn. ring. Qed.

Definition lowEnd (k a b m : R) : R := if Rle_dec 0 k then k * a + m else k * b + m.
Definition highEnd (k a b m : R) : R := if Rle_dec 0 k then k * b + m else k * a + m.
Lemma range_affine S a b k m : range S a b -> range (fun x => exists z, S z /\ x = k * z + m) (lowEnd k a b m) (highEnd k a b m).
Proof. intros H. unfold lowEnd, highEnd. destruct (Rle_dec 0 k); [apply range_affine_pos|apply range_affine_neg]; auto; lra. Qed.

Lemma tightBox_diag f k l m n p tl br : isAff f (diag k l m n) -> Forall finiteSeg p -> tightBox (inDrawing p) tl br ->
  tightBox (inDrawing (mapPoints f p))
           (pnt (lowEnd k (X tl) (X br) m) (lowEnd l (Y tl) (Y br) n))
           (pnt (highEnd k (X tl) (X br) m) (highEnd l (Y tl) (Y br) n)).
Proof.
  intros HA F (F1 & F2 & R1 & R2). split; [reflexivity|split; [reflexivity|]]. rewrite !pnt_X, !pnt_Y. split.
  - apply (range_ext (fun x => exists z, projX (inDrawing p) z /\ x = k * z + m)); [|apply range_affine; auto].
    intros x. unfold projX. split.
    + intros (z & (y & D) & ->). exists (l * y + n). apply (inDrawing_aff f _ p _ _ HA F). exists z, y. rewrite diag_X, diag_Y. auto.
    + intros (y & D). apply (inDrawing_aff f _ p _ _ HA F) in D. destruct D as (x' & y' & D & E1 & E2). rewrite diag_X in E1. eauto.
  - apply (range_ext (fun x => exists z, projY (inDrawing p) z /\ x = l * z + n)); [|apply range_affine; auto].
    intros y. unfold projY. split.
    + intros (z & (x & D) & ->). exists (k * x + m). apply (inDrawing_aff f _ p _ _ HA F). exists x, z. rewrite diag_X, diag_Y. auto.
    + intros (x & D). apply (inDrawing_aff f _ p _ _ HA F) in D. destruct D as (x' & y' & D & E1 & E2). rewrite diag_Y in E2. eauto.
Qed.

(** the individual transforms are affine *)
Lemma shift_aff dx dy : isAff (fun q => NewPoint (px q + Fin dx : T RNum)%num (py q + Fin dy)%num) (diag 1 1 dx dy).
Proof.
  intros p H. unfold affPt. rewrite diag_X, diag_Y, (px_fin _ H), (py_fin _ H). fin. rewrite NewPoint_fin. f_equal; ring.
Qed.
Lemma Shift_canon dx dy p : Forall finiteSeg p -> Shift (Fin dx : T RNum) (Fin dy) p = canon (map (affSeg (diag 1 1 dx dy)) p).
Proof. intros F. apply mapPoints_canon; auto. apply shift_aff. Qed.
Lemma Shift_finite dx dy p : Forall finiteSeg p -> Forall finiteSeg (Shift (Fin dx : T RNum) (Fin dy) p).
Proof. intros F. eapply mapPoints_finite; eauto. apply shift_aff. Qed.
Lemma Shift_drawn dx dy p : Forall finiteSeg p -> drawn (Shift (Fin dx : T RNum) (Fin dy) p) = map (affSeg (diag 1 1 dx dy)) (drawn p).
Proof. intros F. apply mapPoints_drawn; auto. apply shift_aff. Qed.
Lemma scale_aff sx sy : isAff (fun q => NewPoint (px q * Fin sx : T RNum)%num (py q * Fin sy)%num) (diag sx sy 0 0).
Proof.
  intros p H. unfold affPt. rewrite diag_X, diag_Y, (px_fin _ H), (py_fin _ H). fin. rewrite NewPoint_fin. f_equal; ring.
Qed.
Lemma tightBox_shift dx dy p tl br : Forall finiteSeg p -> tightBox (inDrawing p) tl br ->
  tightBox (inDrawing (Shift (Fin dx : T RNum) (Fin dy) p)) (pnt (X tl + dx) (Y tl + dy)) (pnt (X br + dx) (Y br + dy)).
Proof.
  intros F H. pose proof (tightBox_diag _ 1 1 dx dy p tl br (shift_aff dx dy) F H) as G.
  unfold lowEnd, highEnd in G. destruct (Rle_dec 0 1); [|lra]. rewrite !Rmult_1_l in G. exact G.
Qed.
Lemma Forall_tame_finite p : Forall tame p -> Forall finiteSeg p.
Proof. intros H. eapply Forall_impl; [|exact H]. intros g [F _]; auto. Qed.
