(** C18: mirroring twice restores the drawing. *)
From Coq Require Import List ZArith Bool Reals Lra.
From Verif Require Import Num RealNum FloatNum PathModel SegOps Bezier GeomTransforms PathSpec GeomSpec BezierProofs GeomProofs AffineProofs HandleProofs Within Witness.
Import ListNotations.
Local Open Scope R_scope.

(** where the path begins once the pen is on the paper, and where it ends *)
Definition headPos (p : list (seg RNum)) : Pt RNum :=
  match p with [] => pnt 0 0 | Move _ e :: _ => e | g :: _ => sstart g end.
Definition tailPos (p : list (seg RNum)) : Pt RNum :=
  match p with [] => pnt 0 0 | g :: _ => send (last p g) end.
Definition inBox (tl br q : Pt RNum) : Prop := X tl <= X q <= X br /\ Y tl <= Y q <= Y br.

(** the mirror image in the horizontal or vertical line through the middle of the box *)
Definition mirrored (horizontal : bool) (tl br q : Pt RNum) : Pt RNum :=
  if horizontal then pnt (X q) (Y tl + Y br - Y q) else pnt (X tl + X br - X q) (Y q).

Definition mirA (horizontal : bool) (tl br : Pt RNum) : aff :=
  if horizontal then diag 1 (-1) 0 (Y tl + Y br) else diag (-1) 1 (X tl + X br) 0.
Lemma mirA_spec hz tl br q : affPt (mirA hz tl br) q = mirrored hz tl br q.
Proof. unfold affPt, mirA, mirrored. destruct hz; rewrite diag_X, diag_Y; unfold pnt; f_equal; f_equal; ring. Qed.

Lemma headPos_canon A p : p <> [] -> headPos (canon (map (affSeg A) p)) = affPt A (headPos p).
Proof. destruct p as [|[] r]; intros H; auto. contradiction. Qed.
Lemma tailPos_canon A p : p <> [] -> tailPos (canon (map (affSeg A) p)) = affPt A (tailPos p).
Proof.
  intros H. assert (K : forall l (g d : seg RNum), last (g :: l) d = last (g :: l) g).
  { induction l as [|h l IH]; intros; auto. change (last (h :: l) d = last (h :: l) g). rewrite (IH h d), (IH h g). auto. }
  assert (M : forall l (g : seg RNum), last (map (affSeg A) (g :: l)) (affSeg A g) = affSeg A (last (g :: l) g)).
  { induction l as [|h l IH]; intros; auto. cbn [map]. change (last (map (affSeg A) (h :: l)) (affSeg A g) = affSeg A (last (h :: l) g)).
    cbn [map]. rewrite K. change (last (map (affSeg A) (h :: l)) (affSeg A h) = affSeg A (last (h :: l) g)). rewrite IH, (K l h g). auto. }
  assert (S : forall g, send (affSeg A g) = affPt A (send g)) by (intros []; auto).
  destruct p as [|g r]; [contradiction|]. unfold tailPos at 2. rewrite <- S, <- M.
  destruct g as [s e|s e|s cs e ce]; cbn [map affSeg TransformPoints canon sstart tailPos].
  - destruct r as [|h r]; auto. cbn [map].
    change (send (last (affSeg A h :: map (affSeg A) r) (Move (pnt 0 0) (affPt A e))) = send (last (affSeg A h :: map (affSeg A) r) (Move (affPt A s) (affPt A e)))).
    rewrite (K _ _ (Move (pnt 0 0) (affPt A e))), (K _ _ (Move (affPt A s) (affPt A e))). auto.
  - change (last (Move (pnt 0 0) (affPt A s) :: Line (affPt A s) (affPt A e) :: map (affSeg A) r) (Move (pnt 0 0) (affPt A s))) with
      (last (Line (affPt A s) (affPt A e) :: map (affSeg A) r) (Move (pnt 0 0) (affPt A s))). rewrite K. auto.
  - change (last (Move (pnt 0 0) (affPt A s) :: Curve (affPt A s) (affPt A cs) (affPt A e) (affPt A ce) :: map (affSeg A) r) (Move (pnt 0 0) (affPt A s))) with
      (last (Curve (affPt A s) (affPt A cs) (affPt A e) (affPt A ce) :: map (affSeg A) r) (Move (pnt 0 0) (affPt A s))). rewrite K. auto.
Qed.

Lemma canon_head p : p <> [] -> exists l, canon p = Move (pnt 0 0) (headPos p) :: l.
Proof. destruct p as [|[] r]; intros H; [contradiction| | |]; eexists; reflexivity. Qed.

Lemma mirror_aff hz B : finitePt B -> isAff (mirrorPoint hz B) (if hz then diag 1 (-1) 0 (Y B) else diag (-1) 1 (X B) 0).
Proof.
  intros FB q F. unfold mirrorPoint. rewrite (clonePt_finite q F), (px_fin _ F), (py_fin _ F), (px_fin _ FB), (py_fin _ FB). fin.
  unfold affPt. destruct hz; rewrite diag_X, diag_Y; unfold pnt; f_equal; f_equal; ring.
Qed.

Lemma tame_finiteEnds p q : Forall tame p -> q = headPos p \/ q = tailPos p -> finitePt q.
Proof.
  intros HT H. destruct p as [|g r]; [destruct H; subst; reflexivity|].
  assert (K : forall h, In h (g :: r) -> finitePt (sstart h) /\ finitePt (send h)).
  { intros h Hh. eapply Forall_forall in HT; [|exact Hh]. destruct HT as [F _]. destruct h; cbn in *; tauto. }
  destruct H as [->| ->].
  - specialize (K g (or_introl eq_refl)). destruct g; cbn in *; tauto.
  - apply K. destruct (@exists_last _ (g :: r)) as (i & z & Ez); [discriminate|]. rewrite Ez, last_last. apply in_or_app; simpl; auto.
Qed.

(** what the transform does, path and all *)
Lemma MirrorT_spec tr bm fuel hz (p : list (seg RNum)) tl br :
  Forall (within (2 ^ 62)) p -> tightBox (inDrawing p) tl br -> inBox tl br (headPos p) -> inBox tl br (tailPos p) ->
  MirrorT (BezierOps tr bm fuel) hz ATopLeft p = Ok (canon (map (affSeg (mirA hz tl br)) p)).
Proof.
  intros W TB HH HE. set (co := BezierOps tr bm fuel).
  assert (HT : Forall tame p) by (eapply Forall_impl; [|exact W]; intros; eapply within_tame; eauto; lra).
  assert (Hd : drawn p <> []).
  { intros E. destruct TB as (_ & _ & (_ & (y & D) & _) & _). apply inDrawing_drawn in D. destruct D as (g & I & _). rewrite E in I. destruct I. }
  assert (Hp : p <> []) by (intros ->; apply Hd; reflexivity).
  pose proof (Forall_tame_finite p HT) as F. pose proof TB as (F1 & F2 & RX & RY).
  destruct (box_handle co (BezierOps_boxOk tr bm fuel) ATopLeft 0 0 p HT Hd eq_refl) as (tl1 & br1 & T1 & _ & EA).
  destruct (tightBox_unique _ _ _ _ _ TB T1) as [<- <-]. clear T1.
  assert (E1 : boxPoint tl br 0 0 = tl). { unfold boxPoint. symmetry. rewrite (pnt_eta _ F1) at 1. unfold pnt. f_equal; f_equal; ring. }
  rewrite E1 in EA. unfold MirrorT. fold co. rewrite EA. cbn [bind].
  rewrite (MoveT_shift co _ _ p tl finitePt_origin F1 EA). cbn [bind].
  assert (E0 : @NewPoint RNum zero zero = pnt 0 0) by apply NewPoint_fin. rewrite !E0, !pnt_X, !pnt_Y.
  replace (0 - X tl) with (- X tl) by ring. replace (0 - Y tl) with (- Y tl) by ring.
  assert (B12 : Rabs (X tl) < 2 ^ 62 /\ Rabs (Y tl) < 2 ^ 62).
  { destruct RX as (_ & (y0 & (g1 & I1 & _ & O1)) & _). destruct RY as (_ & (x0 & (g2 & I2 & _ & O2)) & _). split.
    - eapply Forall_forall in W; [|exact I1]. eapply onSeg_within in O1; eauto. tauto.
    - eapply Forall_forall in W; [|exact I2]. eapply onSeg_within in O2; eauto. tauto. }
  set (S := diag 1 1 (- X tl) (- Y tl)).
  assert (ES : Shift (Fin (- X tl) : T RNum) (Fin (- Y tl)) p = canon (map (affSeg S) p)) by (apply Shift_canon; auto).
  pose proof (tightBox_shift (- X tl) (- Y tl) p tl br F TB) as T1. rewrite ES in T1 |- *.
  assert (HT1 : Forall tame (canon (map (affSeg S) p))).
  { assert (W' : Forall (within (2 ^ 63)) (canon (map (affSeg S) p))).
    { apply within_canon; [lra|]. apply Forall_forall. intros g Hg.
      apply in_map_iff in Hg. destruct Hg as (h & <- & Hh). replace (2 ^ 63) with (2 * 2 ^ 62) by ring.
      eapply Forall_forall in W; [|exact Hh]. apply within_shift; auto; rewrite Rabs_Ropp; tauto. }
    eapply Forall_impl; [|exact W']; intros; eapply within_tame; eauto; lra. }
  assert (Hm : map (affSeg S) p <> []) by (destruct p; [contradiction|discriminate]).
  destruct (canon_head _ Hm) as (l & El).
  assert (HP : headPos (map (affSeg S) p) = affPt S (headPos p)) by (rewrite <- (headPos_canon S p Hp); destruct (map (affSeg S) p) as [|[] ?]; auto).
  rewrite HP in El.
  assert (TP : send (last (canon (map (affSeg S) p)) (Move (pnt 0 0) (affPt S (headPos p)))) = affPt S (tailPos p)).
  { rewrite <- (tailPos_canon S p Hp). rewrite El. reflexivity. }
  rewrite El in HT1, T1, TP |- *.
  destruct (BoundingBoxWithWhitespace_spec co (BezierOps_boxOk tr bm fuel) _ _ HT1) as (a & b & TA & EB).
  rewrite EB. cbn [bind]. rewrite TP. clear EB TP.
  pose proof (tame_finiteEnds p _ HT (or_introl eq_refl)) as FH. pose proof (tame_finiteEnds p _ HT (or_intror eq_refl)) as FE.
  destruct T1 as (_ & _ & R1 & R2). rewrite !pnt_X in R1. rewrite !pnt_Y in R2.
  destruct TA as (_ & _ & R3 & R4). destruct HH as [HHx HHy], HE as [HEx HEy].
  assert (EBX : Rmax (X b) (X (affPt S (tailPos p))) = X br - X tl).
  { rewrite affPt_X. unfold S. rewrite diag_X.
    assert (U : X b <= X br - X tl).
    { destruct R3 as (_ & _ & (y & [(t & Ht & Ex & _)|D])).
      - rewrite pnt_X, affPt_X in Ex. unfold S in Ex. rewrite diag_X in Ex. rewrite Ex. nra.
      - assert (DD : inDrawing (Move (pnt 0 0) (affPt S (headPos p)) :: l) (X b) y) by (destruct D as (g & I & V); exists g; simpl; auto).
        destruct R1 as (M & _). specialize (M (X b)). destruct M as [_ M]; [exists y; auto|]. lra. }
    assert (L : X br - X tl <= X b).
    { destruct R1 as (_ & _ & (y & (g & I & V & O))). destruct I as [<-|I]; [destruct V|].
      destruct R3 as (M & _). destruct (M (X br + - X tl)) as [_ M']; [exists y; right; exists g; auto|]. lra. }
    rewrite Rmax_left; lra. }
  assert (EBY : Rmax (Y b) (Y (affPt S (tailPos p))) = Y br - Y tl).
  { rewrite affPt_Y. unfold S. rewrite diag_Y.
    assert (U : Y b <= Y br - Y tl).
    { destruct R4 as (_ & _ & (x & [(t & Ht & _ & Ex)|D])).
      - rewrite pnt_Y, affPt_Y in Ex. unfold S in Ex. rewrite diag_Y in Ex. rewrite Ex. nra.
      - assert (DD : inDrawing (Move (pnt 0 0) (affPt S (headPos p)) :: l) x (Y b)) by (destruct D as (g & I & V); exists g; simpl; auto).
        destruct R2 as (M & _). specialize (M (Y b)). destruct M as [_ M]; [exists x; auto|]. lra. }
    assert (L : Y br - Y tl <= Y b).
    { destruct R2 as (_ & _ & (x & (g & I & V & O))). destruct I as [<-|I]; [destruct V|].
      destruct R4 as (M & _). destruct (M (Y br + - Y tl)) as [_ M']; [exists x; right; exists g; auto|]. lra. }
    rewrite Rmax_left; lra. }
  rewrite EBX, EBY. f_equal. rewrite <- El.
  assert (FC : Forall finiteSeg (canon (map (affSeg S) p))) by apply canon_finite, map_finite.
  pose proof (mirror_aff hz (pnt (X br - X tl) (Y br - Y tl)) (finitePt_pnt _ _)) as MA. rewrite pnt_X, pnt_Y in MA.
  rewrite (px_fin _ F1), (py_fin _ F1). rewrite Shift_canon by (eapply mapPoints_finite; eauto).
  rewrite (mapPoints_canon _ _ _ MA FC). set (M := if hz then _ else _).
  rewrite (canon_map_canon M), canon_map_canon, !map_map. f_equal. apply map_ext. intros g. rewrite !affSeg_comp. f_equal.
  unfold M, mirA, S. destruct hz; apply aff_ext; cbn; ring.
Qed.

(** One mirroring with the default handle: every drawn segment is replaced by its mirror image in the middle line of the
    drawing's box, so the box stays in place. *)
Theorem C18_mirror_keeps_box tr bm fuel hz (p : list (seg RNum)) tl br :
  Forall (within (2 ^ 62)) p -> tightBox (inDrawing p) tl br -> inBox tl br (headPos p) -> inBox tl br (tailPos p) ->
  exists p', MirrorT (BezierOps tr bm fuel) hz ATopLeft p = Ok p' /\
    drawn p' = map (fun g => TransformPoints g (mirrored hz tl br)) (drawn p) /\ tightBox (inDrawing p') tl br.
Proof.
  intros W TB HH HE. eexists. split; [apply MirrorT_spec; eauto|].
  assert (F : Forall finiteSeg p).
  { eapply Forall_impl; [|exact W]. intros g Wg. apply (within_tame (2 ^ 62)) in Wg; [|lra]. destruct Wg; auto. }
  rewrite canon_drawn, drawn_map_aff. split.
  - apply map_ext. intros g. unfold affSeg. destruct g; cbn; rewrite !mirA_spec; auto.
  - rewrite <- (mapPoints_canon (affPt (mirA hz tl br)) _ p); [|intros q Hq; reflexivity|auto].
    pose proof TB as (F1 & F2 & _). unfold mirA. destruct hz.
    + pose proof (tightBox_diag (affPt (diag 1 (-1) 0 (Y tl + Y br))) 1 (-1) 0 (Y tl + Y br) p tl br (fun q _ => eq_refl) F TB) as G.
      unfold lowEnd, highEnd in G. destruct (Rle_dec 0 1); [|lra]. destruct (Rle_dec 0 (-1)); [lra|].
      replace (pnt (1 * X tl + 0) (-1 * Y br + (Y tl + Y br))) with tl in G; [|rewrite (pnt_eta _ F1) at 1; unfold pnt; f_equal; f_equal; ring].
      replace (pnt (1 * X br + 0) (-1 * Y tl + (Y tl + Y br))) with br in G; [|rewrite (pnt_eta _ F2) at 1; unfold pnt; f_equal; f_equal; ring].
      exact G.
    + pose proof (tightBox_diag (affPt (diag (-1) 1 (X tl + X br) 0)) (-1) 1 (X tl + X br) 0 p tl br (fun q _ => eq_refl) F TB) as G.
      unfold lowEnd, highEnd in G. destruct (Rle_dec 0 1); [|lra]. destruct (Rle_dec 0 (-1)); [lra|].
      replace (pnt (-1 * X br + (X tl + X br)) (1 * Y tl + 0)) with tl in G; [|rewrite (pnt_eta _ F1) at 1; unfold pnt; f_equal; f_equal; ring].
      replace (pnt (-1 * X tl + (X tl + X br)) (1 * Y br + 0)) with br in G; [|rewrite (pnt_eta _ F2) at 1; unfold pnt; f_equal; f_equal; ring].
      exact G.
Qed.

(** Twice restores the drawn segments, and the whole path if it began with a move from the origin. *)
Theorem C18_mirror_twice tr bm fuel hz (p : list (seg RNum)) tl br :
  Forall (within (2 ^ 60)) p -> tightBox (inDrawing p) tl br -> inBox tl br (headPos p) -> inBox tl br (tailPos p) ->
  exists p' p'', MirrorT (BezierOps tr bm fuel) hz ATopLeft p = Ok p' /\ MirrorT (BezierOps tr bm fuel) hz ATopLeft p' = Ok p'' /\
    drawn p'' = drawn p /\ ((exists e r, p = Move (pnt 0 0) e :: r) -> p'' = p).
Proof.
  intros W TB HH HE.
  assert (W62 : Forall (within (2 ^ 62)) p) by (eapply Forall_impl; [|exact W]; intros g; apply within_mono; lra).
  assert (F : Forall finiteSeg p).
  { eapply Forall_impl; [|exact W]. intros g Wg. apply (within_tame (2 ^ 60)) in Wg; [|lra]. destruct Wg; auto. }
  assert (Hp : p <> []).
  { intros ->. destruct TB as (_ & _ & (_ & (y & (g & [] & _)) & _) & _). }
  destruct (C18_mirror_keeps_box tr bm fuel hz p tl br W62 TB HH HE) as (p1 & E1 & _ & TB1).
  rewrite (MirrorT_spec tr bm fuel hz p tl br W62 TB HH HE) in E1. injection E1 as <-.
  exists (canon (map (affSeg (mirA hz tl br)) p)), (canon p). split; [apply MirrorT_spec; auto|].
  assert (B : Rabs (X tl + X br) < 2 * 2 ^ 60 /\ Rabs (Y tl + Y br) < 2 * 2 ^ 60).
  { destruct TB as (_ & _ & (_ & (y0 & (g1 & I1 & _ & O1)) & (y1 & (g3 & I3 & _ & O3))) & (_ & (x0 & (g2 & I2 & _ & O2)) & (x1 & (g4 & I4 & _ & O4)))).
    apply (onSeg_within (2 ^ 60)) in O1; [|eapply Forall_forall in W; [exact W|auto]].
    apply (onSeg_within (2 ^ 60)) in O2; [|eapply Forall_forall in W; [exact W|auto]].
    apply (onSeg_within (2 ^ 60)) in O3; [|eapply Forall_forall in W; [exact W|auto]].
    apply (onSeg_within (2 ^ 60)) in O4; [|eapply Forall_forall in W; [exact W|auto]].
    destruct O1 as [O1 _], O2 as [_ O2], O3 as [O3 _], O4 as [_ O4]. apply Rabs_def2 in O1, O2, O3, O4.
    split; apply Rabs_def1; lra. }
  assert (W1 : Forall (within (2 ^ 62)) (canon (map (affSeg (mirA hz tl br)) p))).
  { apply within_canon; [lra|]. apply Forall_forall. intros g Hg. apply in_map_iff in Hg. destruct Hg as (h & <- & Hh).
    eapply Forall_forall in W; [|exact Hh]. apply (within_mono (2 ^ 60 + 2 * 2 ^ 60)); [lra|].
    unfold mirA. destruct hz; apply within_diag; auto; try tauto; rewrite ?Rabs_R0, ?Rabs_Ropp, ?Rabs_R1; try lra;
      replace (-1) with (- (1)) by ring; rewrite Rabs_Ropp, Rabs_R1; lra. }
  split; [|split].
  - rewrite (MirrorT_spec tr bm fuel hz _ tl br W1 TB1).
    + f_equal. rewrite canon_map_canon, map_map. f_equal. rewrite <- (map_id p) at 2. apply map_ext_in. intros g Hg.
      eapply Forall_forall in F; [|exact Hg]. rewrite affSeg_comp. rewrite <- (affSeg_id g F) at 2. f_equal.
      unfold mirA. destruct hz; apply aff_ext; cbn; ring.
    + rewrite headPos_canon, mirA_spec by auto. unfold inBox, mirrored in *. destruct hz; rewrite ?pnt_X, ?pnt_Y; lra.
    + rewrite tailPos_canon, mirA_spec by auto. unfold inBox, mirrored in *. destruct hz; rewrite ?pnt_X, ?pnt_Y; lra.
  - apply canon_drawn.
  - intros (e & r & ->). reflexivity.
Qed.

(** the ordinary case: one move, then drawn segments; its ends are in the box *)
Theorem C18_ends_in_box (s e : Pt RNum) (r : list (seg RNum)) tl br :
  r <> [] -> Forall visible r -> (match r with g :: _ => sstart g = e | [] => True end) -> tightBox (inDrawing (Move s e :: r)) tl br ->
  inBox tl br (headPos (Move s e :: r)) /\ inBox tl br (tailPos (Move s e :: r)).
Proof.
  intros Hr V C (_ & _ & (MX & _) & (MY & _)).
  assert (K : forall x y, inDrawing (Move s e :: r) x y -> X tl <= x <= X br /\ Y tl <= y <= Y br).
  { intros x y D. split; [apply MX; exists y; auto|apply MY; exists x; auto]. }
  assert (ES : forall g : seg RNum, onSeg g (X (sstart g)) (Y (sstart g))).
  { intros []; exists 0; (split; [lra|]); cbn [sstart]; unfold cubic; split; ring. }
  assert (EE : forall g : seg RNum, onSeg g (X (send g)) (Y (send g))).
  { intros []; exists 1; (split; [lra|]); cbn [send]; unfold cubic; split; ring. }
  destruct r as [|g r']; [contradiction|]. split.
  - cbn [headPos]. subst e. apply K. exists g. split; [right; left; auto|]. split; [inversion V; auto|apply ES].
  - cbn [tailPos]. destruct (@exists_last _ (g :: r')) as (i & z & Ez); [discriminate|].
    rewrite Ez in *. change (Move s e :: i ++ [z]) with ((Move s e :: i) ++ [z]). rewrite last_last.
    apply K. exists z. split; [right; apply in_or_app; simpl; auto|]. split; [|apply EE].
    apply Forall_app in V. destruct V as [_ V]. inversion V; auto.
Qed.

(** A trailing move that leaves the box changes the result: the box is moved, and the second mirroring does not bring it back. *)
Theorem C18_trailing_move_refuted :
  let co := BezierOps noTrig (mkBMath (fun x => x) (fun x _ => x) (fun x => x)) 5 in
  let p := [Move (pt 0 0) (pt 0 0); Line (pt 0 0) (pt 1 1); Move (pt 1 1) (pt 5 5)] in
  exists p' p'', MirrorT co false ATopLeft p = Ok p' /\ MirrorT co false ATopLeft p' = Ok p'' /\
    drawn p' = [Line (pt 5 0) (pt 4 1)] /\ drawn p'' = [Line (pt 4 0) (pt 5 1)].
Proof.
  exists [Move (pt 0 0) (pt 5 0); Line (pt 5 0) (pt 4 1); Move (pt 4 1) (pt 0 5)],
         [Move (pt 0 0) (pt 4 0); Line (pt 4 0) (pt 5 1); Move (pt 5 1) (pt 9 5)].
  split; [byr|]. split; [byr|]. split; byp.
Qed.

(** A handle other than the top left corner displaces the drawing instead of mirroring it in place. *)
Theorem C18_other_handle_refuted :
  let co := BezierOps noTrig (mkBMath (fun x => x) (fun x _ => x) (fun x => x)) 5 in
  let p := [Move (pt 0 0) (pt 0 0); Line (pt 0 0) (pt 1 1)] in
  exists p' p'', MirrorT co false ABottomRight p = Ok p' /\ MirrorT co false ABottomRight p' = Ok p'' /\
    drawn p' = [Line (pt 2 0) (pt 1 1)] /\ drawn p'' = [Line (pt 2 0) (pt 3 1)].
Proof.
  exists [Move (pt 0 0) (pt 2 0); Line (pt 2 0) (pt 1 1)],
         [Move (pt 0 0) (pt 2 0); Line (pt 2 0) (pt 3 1)].
  split; [byr|]. split; [byr|]. split; byp.
Qed.

(** mirroring the empty path panics (p.Segments()[0] in BoundingBoxWithWhitespace) *)
Theorem C18_empty_panics (co : CurveOps RNum) hz : MirrorT co hz ATopLeft [] = Panic.
Proof. reflexivity. Qed.

Example C18_example :
  let co := BezierOps noTrig (mkBMath (fun x => x) (fun x _ => x) (fun x => x)) 5 in
  let p := [Move (pt 0 0) (pt 2 1); Line (pt 2 1) (pt 6 9); Line (pt 6 9) (pt 5 3)] in
  (dres (MirrorT co false ATopLeft p), dres (MirrorT co true ATopLeft p))
  = (dres (Ok [Move (pt 0 0) (pt 6 1); Line (pt 6 1) (pt 2 9); Line (pt 2 9) (pt 3 3)]),
     dres (Ok [Move (pt 0 0) (pt 2 9); Line (pt 2 9) (pt 6 1); Line (pt 6 1) (pt 5 7)])).
Proof. vm_compute. reflexivity. Qed.
Example C18_hypotheses : exists (p : list (seg RNum)) tl br,
  Forall (within (2 ^ 60)) p /\ tightBox (inDrawing p) tl br /\ inBox tl br (headPos p) /\ inBox tl br (tailPos p) /\ X tl < X br.
Proof.
  exists [Move (pnt 0 0) (pnt 2 1); Line (pnt 2 1) (pnt 6 9)], (pnt 2 1), (pnt 6 9). split.
  - repeat constructor; cbn; apply Rabs_def1; lra.
  - split; [|unfold inBox; cbn [headPos tailPos last send]; rewrite !pnt_X, !pnt_Y; repeat split; lra].
    apply (tightBox_ext (onSeg (Line (pnt 2 1) (pnt 6 9)))).
    + intros x y. rewrite inDrawing_drawn. cbn [drawn]. split; [intros O; eexists; split; [left; reflexivity|auto]|intros (g & [<-|[]] & O); auto].
    + pose proof (lineBox_tight (Line (pnt 2 1) (pnt 6 9)) _ _ (or_introl eq_refl) (finitePt_pnt _ _) (finitePt_pnt _ _)) as G.
      rewrite lineBox_fin in G by reflexivity. cbn [fst snd] in G. rewrite !pnt_X, !pnt_Y in G.
      rewrite !Rmin_left, !Rmax_right in G by lra. exact G.
Qed.
Print Assumptions C18_mirror_twice.
