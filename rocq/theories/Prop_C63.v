(** C63: drawing a given shape up to a point (draw commands svg_connect_to and svg_scale_to). *)
From Coq Require Import List ZArith Bool Reals Lra Lia.
From Verif Require Import Num NumLaws RealNum RealTrig PathModel DrawModel SegOps TransformsModel Bezier GeomTransforms PathSpec GeomSpec PathProofs CleanupProofs DedupProofs BezierProofs GeomProofs AffineProofs HandleProofs RotateProofs Prop_C50 Components CompProofs Witness.
Import ListNotations.
Local Open Scope R_scope.

(** stretching in X and Y by factors, then displacing *)
Definition stretch (a b u v : R) (q : Pt RNum) : Pt RNum := pnt (a * X q + u) (b * Y q + v).
(** both go the same way along an axis, or neither goes anywhere *)
Definition sameWay (u v : R) : Prop := 0 < u * v \/ (u = 0 /\ v = 0).

(** *** adding a connected path to a drawing *)
Lemma AddSegments_moved {N : Num} (d : path N) o s r : d <> [] -> chain s r ->
  exists c, AddSegments d (Move o s :: r) = d ++ Move c s :: r.
Proof.
  intros Hd Hc. change (AddSegments d (Move o s :: r)) with (AddSegments (AddSegment d (Move o s)) r).
  assert (E : exists c, AddSegment d (Move o s) = d ++ [Move c s]).
  { unfold AddSegment. destruct d as [|g d]; [congruence|]. destruct (ptEquals _ _); cbn [setStart]; eauto. }
  destruct E as (c & ->). exists c. rewrite AddSegments_connected.
  - rewrite <- app_assoc. reflexivity.
  - destruct d; discriminate.
  - rewrite pen_app. exact Hc.
Qed.
Lemma same_place_fin a b : finitePt a -> finitePt b -> same_place (N := RNum) a b -> a = b.
Proof.
  intros Fa Fb [H|[H1 H2]]; [exact H|]. rewrite (px_fin _ Fa), (px_fin _ Fb) in H1. rewrite (py_fin _ Fa), (py_fin _ Fb) in H2. rewrite !feqb in *. apply Reqb_true in H1, H2.
  rewrite (pnt_eta _ Fa), (pnt_eta _ Fb), H1, H2. reflexivity.
Qed.
Lemma chain_aff A r : forall s, finitePt s -> Forall finiteSeg r -> chain s r -> chain (affPt A s) (map (affSeg A) r).
Proof.
  induction r as [|g r IH]; intros s Fs F H; [constructor|]. inversion F; subst. inversion H; subst. cbn [map]. 
  assert (Fg : finitePt (sstart g) /\ finitePt (send g)) by (destruct g; cbn in *; tauto). destruct Fg as [Fg Fe].
  constructor.
  - left. rewrite (same_place_fin s (sstart g)) by assumption. destruct g; reflexivity.
  - replace (send (affSeg A g)) with (affPt A (send g)) by (destruct g; reflexivity). apply IH; assumption.
Qed.
Lemma AddSegments_aff (d : path RNum) A p z : d <> [] -> Forall finiteSeg p -> connected p -> ends p z ->
  drawn (AddSegments d (canon (map (affSeg A) p))) = drawn d ++ map (affSeg A) (drawn p) /\ ends (AddSegments d (canon (map (affSeg A) p))) (affPt A z).
Proof.
  intros Hd F Hc Hz. assert (K : exists s r o, canon (map (affSeg A) p) = Move o s :: r /\ chain s r /\ drawn r = map (affSeg A) (drawn p) /\ (forall w, ends (Move w s :: r) (affPt A z))).
  { destruct p as [|g p]; [destruct Hz as (r & h & E & _); destruct r; discriminate|]. apply connected_cons in Hc. inversion F; subst.
    assert (Fg : finitePt (sstart g) /\ finitePt (send g)) by (destruct g; cbn in *; tauto). destruct Fg as [Fs Fe]. pose proof (chain_aff A p _ Fe ltac:(assumption) Hc) as C. destruct Hz as (i & h & E & <-).
    destruct g as [s e|s e|s cs e ce]; cbn [map affSeg TransformPoints canon sstart send].
    - exists (affPt A e), (map (affSeg A) p), (pnt 0 0). split; [reflexivity|]. split; [exact C|]. split; [cbn [drawn]; apply drawn_map_aff|]. intros w. destruct i as [|j i]; injection E as Ej E.
      + subst. exists [], (Move w (affPt A e)). split; reflexivity.
      + rewrite E, map_app. exists (Move w (affPt A e) :: map (affSeg A) i), (affSeg A h). split; [reflexivity|]. destruct h; reflexivity.
    - exists (affPt A s), (map (affSeg A) (Line s e :: p)), (pnt 0 0). split; [reflexivity|]. split; [apply (chain_aff A (Line s e :: p) s Fs F); constructor; [left; reflexivity|exact Hc]|]. split; [apply (drawn_map_aff A (Line s e :: p))|].
      intros w. rewrite E, map_app. exists (Move w (affPt A s) :: map (affSeg A) i), (affSeg A h). split; [reflexivity|]. destruct h; reflexivity.
    - exists (affPt A s), (map (affSeg A) (Curve s cs e ce :: p)), (pnt 0 0). split; [reflexivity|]. split; [apply (chain_aff A (Curve s cs e ce :: p) s Fs F); constructor; [left; reflexivity|exact Hc]|]. split; [apply (drawn_map_aff A (Curve s cs e ce :: p))|].
      intros w. rewrite E, map_app. exists (Move w (affPt A s) :: map (affSeg A) i), (affSeg A h). split; [reflexivity|]. destruct h; reflexivity. }
  destruct K as (s & r & o & -> & C & D & Z). destruct (AddSegments_moved d o s r Hd C) as (c & ->). rewrite drawn_app. cbn [drawn]. rewrite D. split; [reflexivity|].
  destruct (Z c) as (i & h & E & Es). rewrite E. exists (d ++ i), h. rewrite app_assoc. split; [reflexivity|exact Es].
Qed.
Lemma pen_of (d : path RNum) a : ends d a -> d <> [] /\ snd (GetStartAndEnd d) = a.
Proof. intros (r & g & -> & <-). split; [destruct r; discriminate|]. destruct r; [reflexivity|]. cbn [app GetStartAndEnd snd]. rewrite app_comm_cons, last_last. reflexivity. Qed.

(** *** svg_connect_to *)
(** The shape is turned, enlarged and moved, not deformed; it starts at the pen and reaches the point asked for.  The pen is left where the shape's own path leaves it. *)
Theorem C63_connect bm fuel (d p : path RNum) s e z a to :
  Forall tame p -> connected p -> firstPoint p s -> lastPoint p e -> ends p z -> s <> e -> ends d a -> finitePt a -> finitePt to ->
  exists q k l u v, svgRotateScaleTo (BezierOps RTrig bm fuel) RTrig d p to false = Ok q /\
    drawn q = drawn d ++ map (fun g => TransformPoints g (similar k l u v)) (drawn p) /\
    similar k l u v s = a /\ similar k l u v e = to /\ ends q (similar k l u v z).
Proof.
  intros HT HC H1 H2 Hz Hse Ha Fa Ft. destruct (pen_of d a Ha) as [Hd Hp]. destruct (RotateScale_whole bm fuel p s e a to HT H1 H2 Hse Fa Ft) as (M & k & l & u & v & E & KM & S1 & S2).
  unfold svgRotateScaleTo. destruct (GetStartAndEnd d) as [x y]. cbn [snd] in Hp. subst y. rewrite E. cbn [bind]. eexists _, k, l, u, v. split; [reflexivity|].
  destruct (AddSegments_aff d M p z Hd (Forall_tame_finite p HT) HC Hz) as [D Z]. rewrite KM in Z. split; [|auto]. rewrite D. f_equal. apply map_ext. intros g. unfold affSeg. destruct g; cbn [TransformPoints]; rewrite !KM; reflexivity.
Qed.

(** *** svg_scale_to *)
Lemma scale_whole bm fuel tr (p : path RNum) o s r e a to : p = Move o s :: r -> Forall tame p -> firstPoint p s -> lastPoint p e -> ends p e -> finitePt a -> finitePt to ->
  sameWay (X to - X a) (X e - X s) -> sameWay (Y to - Y a) (Y e - Y s) -> a <> to ->
  exists M k l u v, bind (ScaleT (BezierOps tr bm fuel) (mkScale (zero : T RNum) zero a to zero zero) p) (fun pth => MoveT (BezierOps tr bm fuel) a AStartPoint pth) = Ok (canon (map (affSeg M) p)) /\
    0 < k /\ 0 < l /\ (forall z, affPt M z = stretch k l u v z) /\ stretch k l u v s = a /\ stretch k l u v e = to.
Proof.
  intros Ep HT H1 H2 He Fa Ft SX SY Hne. pose proof (Forall_tame_finite p HT) as F. destruct (drawn_finite p s e F H1 H2) as [Fs Fe]. set (co := BezierOps tr bm fuel).
  assert (K : exists k l, 0 < k /\ 0 < l /\ X to - X a = k * (X e - X s) /\ Y to - Y a = l * (Y e - Y s) /\ scaleFactors co (mkScale (zero : T RNum) zero a to zero zero) p = Ok (Fin k, Fin l)).
  { unfold scaleFactors. cbn [sc_w sc_h sc_x sc_y sc_start sc_end]. unfold gtb. fin. destruct (Rltb_spec 0 0); [lra|]. cbn [orb].
    assert (EN : ptEquals a to = false).
    { destruct (ptEquals a to) eqn:E; [|reflexivity]. exfalso. apply Hne. apply same_place_fin; auto. right. unfold ptEquals in E. apply andb_true_iff in E. exact E. }
    rewrite EN. cbn [negb]. assert (EE : GetStartAndEnd p = (s, e)) by (destruct (pen_of p e He) as [_ E]; rewrite Ep in *; cbn [GetStartAndEnd snd] in *; rewrite E; reflexivity). rewrite EE.
    rewrite (px_fin _ Fa), (px_fin _ Ft), (px_fin _ Fs), (px_fin _ Fe), (py_fin _ Fa), (py_fin _ Ft), (py_fin _ Fs), (py_fin _ Fe). fin. change (@nabs RNum) with er_abs. unfold er_abs. rewrite !feqb.
    assert (RT : forall u v, 0 < u * v -> 0 < u / v /\ u = u / v * v /\ Rabs u / Rabs v = u / v /\ Rabs u <> 0 /\ Rabs v <> 0).
    { intros u v H. assert (v <> 0) by (intros ->; lra). assert (u <> 0) by (intros ->; lra). assert (P : 0 < u / v) by (replace (u / v) with (u * v * (/ v * / v)) by (field; auto); apply Rmult_lt_0_compat; [exact H|]; pose proof (Rinv_neq_0_compat v H0); nra).
      split; [exact P|]. split; [field; auto|]. split; [|split; apply Rabs_no_R0; assumption]. unfold Rdiv. rewrite <- Rabs_inv, <- Rabs_mult by assumption. apply Rabs_pos_eq. unfold Rdiv in P. lra. }
    destruct SX as [SX|[X1 X2]], SY as [SY|[Y1 Y2]].
    - destruct (RT _ _ SX) as (A1 & A2 & A3 & A4 & A5). destruct (RT _ _ SY) as (B1 & B2 & B3 & B4 & B5). rewrite !fdiv by assumption. rewrite A3, B3.
      destruct (Reqb_spec (Rabs (X to - X a)) 0); [contradiction|]. destruct (Reqb_spec (Rabs (X e - X s)) 0); [contradiction|]. destruct (Reqb_spec (Rabs (Y to - Y a)) 0); [contradiction|]. destruct (Reqb_spec (Rabs (Y e - Y s)) 0); [contradiction|]. cbn [orb]. eauto 10.
    - destruct (RT _ _ SX) as (A1 & A2 & A3 & A4 & A5). rewrite Y1, Y2, Rabs_R0. destruct (Reqb_spec (Rabs (X to - X a)) 0); [contradiction|]. destruct (Reqb_spec (Rabs (X e - X s)) 0); [contradiction|]. destruct (Reqb_spec 0 0); [|lra]. cbn [orb]. rewrite !fdiv by assumption. rewrite A3.
      eexists _, _. split; [exact A1|]. split; [exact A1|]. split; [exact A2|]. split; [ring|reflexivity].
    - destruct (RT _ _ SY) as (B1 & B2 & B3 & B4 & B5). rewrite X1, X2, Rabs_R0. destruct (Reqb_spec (Rabs (Y to - Y a)) 0); [contradiction|]. destruct (Reqb_spec (Rabs (Y e - Y s)) 0); [contradiction|]. destruct (Reqb_spec 0 0); [|lra]. cbn [orb]. rewrite !fdiv by assumption. rewrite B3.
      eexists _, _. split; [exact B1|]. split; [exact B1|]. split; [ring|]. split; [exact B2|reflexivity].
    - exfalso. apply Hne. rewrite (pnt_eta _ Fa), (pnt_eta _ Ft). unfold pnt. f_equal; f_equal; lra. }
  destruct K as (k & l & Hk & Hl & KX & KY & EK). unfold ScaleT. rewrite EK. cbn [bind]. rewrite (mapPoints_canon _ (diag k l 0 0)) by (auto using scale_aff).
  set (p2 := canon (map (affSeg (diag k l 0 0)) p)). assert (D2 : drawn p2 = map (affSeg (diag k l 0 0)) (drawn p)) by (unfold p2; rewrite canon_drawn; apply drawn_map_aff).
  pose proof (firstPoint_map _ p p2 _ D2 H1) as H5. pose proof (lastPoint_map _ p p2 _ D2 H2) as H6. destruct (ends_attr' tr bm fuel p2 _ _ H5 H6) as [A5 _].
  rewrite (MoveT_shift co a AStartPoint p2 _ Fa (finitePt_pnt _ _) A5). assert (F2 : Forall finiteSeg p2) by apply canon_finite, map_finite. rewrite Shift_canon by exact F2. unfold p2. rewrite canon_comp.
  set (dx := X a - X (affPt (diag k l 0 0) s)). set (dy := Y a - Y (affPt (diag k l 0 0) s)).
  assert (EX : dx = X a - k * X s) by (unfold dx; rewrite affPt_X, diag_X; ring). assert (EY : dy = Y a - l * Y s) by (unfold dy; rewrite affPt_Y, diag_Y; ring).
  eexists _, k, l, dx, dy. split; [reflexivity|]. split; [exact Hk|]. split; [exact Hl|]. split; [|split].
  - intros z. rewrite <- affPt_comp. unfold stretch, affPt. rewrite !diag_X, !diag_Y, !pnt_X, !pnt_Y. unfold pnt. f_equal; f_equal; [rewrite EX|rewrite EY]; ring.
  - rewrite (pnt_eta _ Fa). unfold stretch. rewrite EX, EY. unfold pnt. f_equal; f_equal; ring.
  - rewrite (pnt_eta _ Ft). unfold stretch. rewrite EX, EY. unfold pnt. f_equal; f_equal; lra.
Qed.
(** The shape is stretched along the axes; if it runs the way it is asked to run, it starts at the pen and ends at the point asked for.
    Full claim: it does so for every shape and every point.  Missing: shapes whose run has another sign along an axis than the run asked for, see C63_backwards_refuted and C63_level_refuted. *)
Theorem C63_scale_partial bm fuel tr (d p : path RNum) o s r e a to : p = Move o s :: r ->
  Forall tame p -> connected p -> firstPoint p s -> lastPoint p e -> ends p e -> ends d a -> finitePt a -> finitePt to ->
  sameWay (X to - X a) (X e - X s) -> sameWay (Y to - Y a) (Y e - Y s) -> a <> to ->
  exists q k l u v, svgScaleTo (BezierOps tr bm fuel) d p to false = Ok q /\ 0 < k /\ 0 < l /\
    drawn q = drawn d ++ map (fun g => TransformPoints g (stretch k l u v)) (drawn p) /\
    stretch k l u v s = a /\ stretch k l u v e = to /\ ends q to.
Proof.
  intros Ep HT HC H1 H2 Hz Ha Fa Ft SX SY Hne. destruct (pen_of d a Ha) as [Hd Hp]. destruct (scale_whole bm fuel tr p o s r e a to Ep HT H1 H2 Hz Fa Ft SX SY Hne) as (M & k & l & u & v & E & Hk & Hl & KM & S1 & S2).
  unfold svgScaleTo. destruct (GetStartAndEnd d) as [x y]. cbn [snd] in Hp. subst y. destruct (ScaleT _ _ p) as [pth| | |]; try discriminate. cbn [bind] in *. rewrite E. cbn [bind]. eexists _, k, l, u, v. split; [reflexivity|].
  destruct (AddSegments_aff d M p e Hd (Forall_tame_finite p HT) HC Hz) as [D Z]. rewrite KM, S2 in Z. split; [exact Hk|]. split; [exact Hl|]. split; [|auto]. rewrite D. f_equal. apply map_ext. intros g. unfold affSeg. destruct g; cbn [TransformPoints]; rewrite !KM; reflexivity.
Qed.

(** *** reversed *)
Lemma PathReverse_exact (p : path RNum) i g : p = i ++ [g] -> visible g -> connected p -> PathReverse p = Move (pnt 0 0) (send g) :: rev (map flip p).
Proof.
  intros E V HC. rewrite PathReverse_flip. assert (C : connected (rev (map flip p))) by (destruct p as [|h q]; [exact I|]; apply (flip_chain RNum_eq_laws (h :: q) (sstart h)); exact HC).
  rewrite E, map_app, rev_app_distr in *. cbn [map rev app] in *. apply connected_cons in C.
  assert (M : isMove (flip g) = false) by (destruct g; [destruct V| |]; reflexivity). change (AddSegments NewDraw (flip g :: rev (map flip i))) with (AddSegments (AddSegment NewDraw (flip g)) (rev (map flip i))).
  rewrite AddSegment_new_visible by exact M. rewrite AddSegments_connected; [|discriminate|exact C]. cbn [app]. rewrite sstart_flip. f_equal. f_equal. apply NewPoint_fin.
Qed.
Lemma drawn_visible (p : path RNum) i g : p = i ++ [g] -> visible g -> drawn p = drawn i ++ [g].
Proof. intros -> V. rewrite drawn_app. destruct g; [destruct V| |]; reflexivity. Qed.
Lemma tame_flip g : tame g -> tame (flip g). Proof. destruct g; cbn; unfold tame; cbn; tauto. Qed.
Lemma reversed_shape (p : path RNum) o s r i g : p = Move o s :: r -> p = i ++ [g] -> visible g -> Forall tame p -> connected p -> firstPoint p s ->
  exists r', PathReverse p = Move (pnt 0 0) (send g) :: r' /\ Forall tame (PathReverse p) /\ connected (PathReverse p) /\
    firstPoint (PathReverse p) (send g) /\ lastPoint (PathReverse p) s /\ ends (PathReverse p) o /\ drawn (PathReverse p) = rev (map flip (drawn p)).
Proof.
  intros Es E V HT HC (h & t & Eh & Hs). pose proof (PathReverse_exact p i g E V HC) as ER. pose proof (PathReverse_drawn RNum_eq_laws p HC) as D. exists (rev (map flip p)).
  split; [exact ER|]. split; [|split; [eapply chain_connected, PathReverse_connected|split; [|split; [|split; [|exact D]]]]].
  - rewrite ER. apply Forall_cons.
    + split; [|exact I]. split; [apply finitePt_pnt|]. assert (T : tame g) by (rewrite E in HT; apply Forall_app in HT; destruct HT as [_ T]; inversion T; assumption). destruct T as [T _]. destruct g; cbn in *; tauto.
    + apply Forall_rev. apply Forall_map. eapply Forall_impl; [|exact HT]. apply tame_flip.
  - exists (flip g), (rev (map flip (drawn i))). rewrite D, (drawn_visible p i g E V), map_app, rev_app_distr. split; [reflexivity|]. rewrite sstart_flip. reflexivity.
  - exists (rev (map flip t)), (flip h). rewrite D, Eh. split; [reflexivity|]. rewrite send_flip. exact Hs.
  - rewrite ER, Es. cbn [map rev flip]. exists (Move (pnt 0 0) (send g) :: rev (map flip r)), (Move s o). split; reflexivity.
Qed.
(** Reversed, the shape is drawn from its end to its start, otherwise as before.  The pen is left at the image of the place from where the shape's path moves to its start. *)
Theorem C63_connect_reversed bm fuel (d p : path RNum) o s r i g a to :
  p = Move o s :: r -> p = i ++ [g] -> visible g -> Forall tame p -> connected p -> firstPoint p s -> s <> send g -> ends d a -> finitePt a -> finitePt to ->
  exists q k l u v, svgRotateScaleTo (BezierOps RTrig bm fuel) RTrig d p to true = Ok q /\
    drawn q = drawn d ++ map (fun g => TransformPoints g (similar k l u v)) (rev (map flip (drawn p))) /\
    similar k l u v (send g) = a /\ similar k l u v s = to /\ ends q (similar k l u v o).
Proof.
  intros Es E V HT HC H1 Hne Ha Fa Ft. destruct (reversed_shape p o s r i g Es E V HT HC H1) as (r' & _ & T & C & F & L & Z & D). rewrite <- D.
  apply (C63_connect bm fuel d (PathReverse p) (send g) s o a to); auto.
Qed.
(** For stretching the shape has to start where its path moves from, that is at the origin of its text.
    Full claim: as for C63_scale_partial, with every start.  Missing: other starts (C63_reversed_refuted) and shapes running another way. *)
Theorem C63_scale_reversed_partial bm fuel tr (d p : path RNum) s r i g a to :
  p = Move s s :: r -> p = i ++ [g] -> visible g -> Forall tame p -> connected p -> firstPoint p s -> ends d a -> finitePt a -> finitePt to ->
  sameWay (X to - X a) (X s - X (send g)) -> sameWay (Y to - Y a) (Y s - Y (send g)) -> a <> to ->
  exists q k l u v, svgScaleTo (BezierOps tr bm fuel) d p to true = Ok q /\ 0 < k /\ 0 < l /\
    drawn q = drawn d ++ map (fun g => TransformPoints g (stretch k l u v)) (rev (map flip (drawn p))) /\
    stretch k l u v (send g) = a /\ stretch k l u v s = to /\ ends q to.
Proof.
  intros Es E V HT HC H1 Ha Fa Ft SX SY Hne. destruct (reversed_shape p s s r i g Es E V HT HC H1) as (r' & ER & T & C & F & L & Z & D). rewrite <- D.
  apply (C63_scale_partial bm fuel tr d (PathReverse p) (pnt 0 0) (send g) r' s a to); auto.
Qed.

(** *** where svg_scale_to does not reach the point *)
(** to the left, but the shape runs to the right: it ends at (2,2) instead of (-2,2) *)
Theorem C63_backwards_refuted : svgScaleTo noCurves [mv 0 0 0 0] [mv 0 0 0 0; ln 0 0 1 1] (pt (-2) 2) false = Ok [mv 0 0 0 0; mv 0 0 0 0; ln 0 0 2 2].
Proof. byr. Qed.
(** straight to the right, but the shape also runs downwards: it ends at (2,2) instead of (2,0) *)
Theorem C63_level_refuted : svgScaleTo noCurves [mv 0 0 0 0] [mv 0 0 0 0; ln 0 0 1 1] (pt 2 0) false = Ok [mv 0 0 0 0; mv 0 0 0 0; ln 0 0 2 2].
Proof. byr. Qed.
(** reversed, a shape that does not start at the origin is measured from its end to the origin: it ends at (-2,0) instead of (-4,0), and the pen is left at (-4,0) *)
Theorem C63_reversed_refuted : svgScaleTo noCurves [mv 0 0 0 0] [mv 0 0 2 0; ln 2 0 4 0] (pt (-4) 0) true = Ok [mv 0 0 0 0; mv 0 0 0 0; ln 0 0 (-2) 0; mv (-2) 0 (-4) 0].
Proof. byr. Qed.
(** the pen after a reversed shape that does not start at the origin of its text: (12,0) although the shape was asked to end at (4,0) *)
Theorem C63_pen_refuted : forall bm fuel, exists q, svgRotateScaleTo (BezierOps RTrig bm fuel) RTrig [Move (pnt 0 0) (pnt 0 0)] [Move (pnt 0 0) (pnt 2 0); Line (pnt 2 0) (pnt 3 0)] (pnt 4 0) true = Ok q /\
  drawn q = [Line (pnt 0 0) (pnt 4 0)] /\ ends q (pnt 12 0).
Proof.
  intros bm fuel. destruct (C63_connect_reversed bm fuel [Move (pnt 0 0) (pnt 0 0)] [Move (pnt 0 0) (pnt 2 0); Line (pnt 2 0) (pnt 3 0)] (pnt 0 0) (pnt 2 0) [Line (pnt 2 0) (pnt 3 0)] [Move (pnt 0 0) (pnt 2 0)] (Line (pnt 2 0) (pnt 3 0)) (pnt 0 0) (pnt 4 0)) as (q & k & l & u & v & E & D & S1 & S2 & Z); try reflexivity.
  - repeat constructor.
  - repeat constructor.
  - eexists _, _. split; reflexivity.
  - intros H. injection H. lra.
  - exists [], (Move (pnt 0 0) (pnt 0 0)). split; reflexivity.
  - exists q. split; [exact E|]. cbn [send] in S1. unfold similar in *. rewrite !pnt_X, !pnt_Y in *. injection S1 as A1 A2. injection S2 as B1 B2. assert (k = -4) by lra. assert (u = 12) by lra. assert (l = 0) by lra. assert (v = 0) by lra. subst. split.
    + rewrite D. cbn [drawn map rev flip app TransformPoints]. rewrite !pnt_X, !pnt_Y. unfold pnt. repeat (f_equal; try lra).
    + replace (pnt 12 0) with (pnt (-4 * 0 - 0 * 0 + 12) (0 * 0 + -4 * 0 + 0)) by (unfold pnt; f_equal; f_equal; lra). exact Z.
Qed.

(** *** examples *)
(** a corner connected from (1,1) to (1,7), turned by a right angle and doubled *)
Definition corner : path RNum := [Move (pnt 0 0) (pnt 5 5); Line (pnt 5 5) (pnt 5 4); Line (pnt 5 4) (pnt 8 5)].
Example C63_connect_example bm fuel : exists q, svgRotateScaleTo (BezierOps RTrig bm fuel) RTrig [Move (pnt 0 0) (pnt 1 1)] corner (pnt 1 7) false = Ok q /\
  drawn q = [Line (pnt 1 1) (pnt 3 1); Line (pnt 3 1) (pnt 1 7)] /\ ends q (pnt 1 7).
Proof.
  destruct (C63_connect bm fuel [Move (pnt 0 0) (pnt 1 1)] corner (pnt 5 5) (pnt 8 5) (pnt 8 5) (pnt 1 1) (pnt 1 7)) as (q & k & l & u & v & E & D & S1 & S2 & Z); try reflexivity.
  - repeat constructor.
  - repeat constructor.
  - eexists _, _. split; reflexivity.
  - exists [Line (pnt 5 5) (pnt 5 4)]. eexists. split; reflexivity.
  - exists [Move (pnt 0 0) (pnt 5 5); Line (pnt 5 5) (pnt 5 4)]. eexists. split; reflexivity.
  - intros H. injection H. lra.
  - exists [], (Move (pnt 0 0) (pnt 1 1)). split; reflexivity.
  - exists q. split; [exact E|]. rewrite S2 in Z. split; [|exact Z]. unfold similar in *. rewrite !pnt_X, !pnt_Y in *. injection S1 as A1 A2. injection S2 as B1 B2. assert (k = 0) by lra. assert (l = 2) by lra. assert (u = 11) by lra. assert (v = -9) by lra. subst.
    rewrite D. cbn [corner drawn map app TransformPoints]. rewrite !pnt_X, !pnt_Y. unfold pnt. repeat (f_equal; try lra).
Qed.
(** the same corner stretched from (1,1) to (7,1), only sideways the same way: nothing vertical to compare, so the theorem leaves the vertical factor open, but positive *)
Example C63_scale_example bm fuel tr : exists q, svgScaleTo (BezierOps tr bm fuel) [Move (pnt 0 0) (pnt 1 1)] corner (pnt 7 1) false = Ok q /\ exists k, 0 < k /\
  drawn q = [Line (pnt 1 1) (pnt 1 (1 - k)); Line (pnt 1 (1 - k)) (pnt 7 1)].
Proof.
  destruct (C63_scale_partial bm fuel tr [Move (pnt 0 0) (pnt 1 1)] corner (pnt 0 0) (pnt 5 5) [Line (pnt 5 5) (pnt 5 4); Line (pnt 5 4) (pnt 8 5)] (pnt 8 5) (pnt 1 1) (pnt 7 1)) as (q & k & l & u & v & E & Hk & Hl & D & S1 & S2 & Z); try reflexivity; rewrite ?pnt_X, ?pnt_Y.
  - repeat constructor.
  - repeat constructor.
  - eexists _, _. split; reflexivity.
  - exists [Line (pnt 5 5) (pnt 5 4)]. eexists. split; reflexivity.
  - exists [Move (pnt 0 0) (pnt 5 5); Line (pnt 5 5) (pnt 5 4)]. eexists. split; reflexivity.
  - exists [], (Move (pnt 0 0) (pnt 1 1)). split; reflexivity.
  - left. lra.
  - right. lra.
  - intros H. injection H. lra.
  - exists q. split; [exact E|]. exists l. split; [exact Hl|]. unfold stretch in *. rewrite !pnt_X, !pnt_Y in *. injection S1 as A1 A2. injection S2 as B1 B2. assert (k = 2) by lra. assert (u = -9) by lra. subst.
    rewrite D. cbn [corner drawn map app TransformPoints]. rewrite !pnt_X, !pnt_Y. unfold pnt. repeat (f_equal; try lra).
Qed.
(** a shape from the origin, reversed, from (0,0) to (-2,-4) *)
Example C63_reversed_example : svgScaleTo noCurves [mv 0 0 0 0] [mv 0 0 0 0; ln 0 0 1 0; ln 1 0 1 1] (pt (-2) (-4)) true = Ok [mv 0 0 0 0; mv 0 0 0 0; ln 0 0 0 (-4); ln 0 (-4) (-2) (-4); mv (-2) (-4) (-2) (-4)].
Proof. byr. Qed.
Example C63_reversed_hypotheses bm fuel tr : exists q, svgScaleTo (BezierOps tr bm fuel) [Move (pnt 0 0) (pnt 0 0)] [Move (pnt 0 0) (pnt 0 0); Line (pnt 0 0) (pnt 1 0); Line (pnt 1 0) (pnt 1 1)] (pnt (-2) (-4)) true = Ok q /\ ends q (pnt (-2) (-4)).
Proof.
  destruct (C63_scale_reversed_partial bm fuel tr [Move (pnt 0 0) (pnt 0 0)] [Move (pnt 0 0) (pnt 0 0); Line (pnt 0 0) (pnt 1 0); Line (pnt 1 0) (pnt 1 1)] (pnt 0 0) [Line (pnt 0 0) (pnt 1 0); Line (pnt 1 0) (pnt 1 1)] [Move (pnt 0 0) (pnt 0 0); Line (pnt 0 0) (pnt 1 0)] (Line (pnt 1 0) (pnt 1 1)) (pnt 0 0) (pnt (-2) (-4))) as (q & k & l & u & v & E & _ & _ & _ & _ & _ & Z); try reflexivity; cbn [send]; rewrite ?pnt_X, ?pnt_Y.
  - repeat constructor.
  - repeat constructor.
  - eexists _, _. split; reflexivity.
  - exists [], (Move (pnt 0 0) (pnt 0 0)). split; reflexivity.
  - left. lra.
  - left. lra.
  - intros H. injection H. lra.
  - eauto.
Qed.
