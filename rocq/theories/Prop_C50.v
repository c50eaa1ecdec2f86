(** C50: RotateScaleTransform fits the drawing between two points. *)
From Coq Require Import List ZArith Bool Reals Lra Psatz.
From Verif Require Import Num RealNum FloatNum RealTrig PathModel SegOps Bezier GeomTransforms PathSpec PathProofs GeomSpec BezierProofs GeomProofs AffineProofs HandleProofs RotateProofs Witness.
Import ListNotations.
Local Open Scope R_scope.

(** the point where the drawing starts, and the one where it ends *)
Definition firstPoint (p : list (seg RNum)) (s : Pt RNum) : Prop := exists g r, drawn p = g :: r /\ s = sstart g.
Definition lastPoint (p : list (seg RNum)) (e : Pt RNum) : Prop := exists r g, drawn p = r ++ [g] /\ e = send g.

(** an orientation-preserving similarity of the plane: turn and enlarge by (a, b), then displace *)
Definition similar (a b u v : R) (q : Pt RNum) : Pt RNum := pnt (a * X q - b * Y q + u) (b * X q + a * Y q + v).

Lemma box_total tr bm fuel (l : list (seg RNum)) : exists b, boundingBox (BezierOps tr bm fuel) l = Ok b.
Proof.
  assert (S : forall g : seg RNum, exists b, segBox (BezierOps tr bm fuel) g = Ok b).
  { intros []; cbn [segBox]; eauto. unfold BezierOps; cbn [co_bbox]. unfold opBox. destruct (BoundingBox _). eauto. }
  destruct l as [|g r]; cbn [boundingBox]; eauto. destruct (S g) as (b & ->). cbn [bind].
  revert b. induction r as [|h r IH]; intros b; cbn [boundingBox_loop]; eauto.
  destruct (isMove h); auto. destruct (S h) as (c & ->). cbn [bind]. auto.
Qed.

Lemma ends_attr tr bm fuel (p : list (seg RNum)) : drawn p <> [] ->
  exists g r i z, drawn p = g :: r /\ drawn p = i ++ [z] /\
    PointPathAttribute (BezierOps tr bm fuel) AStartPoint NoSub p = Ok (sstart g) /\
    PointPathAttribute (BezierOps tr bm fuel) AEndPoint NoSub p = Ok (send z).
Proof.
  intros Hd. destruct (TrimMove_ends p) as [E|[(g & r & E & V) (i & z & E' & V')]].
  { exfalso. apply Hd. rewrite <- TrimMove_drawn, E. reflexivity. }
  destruct (box_total tr bm fuel (NewPathFromSegmentsWithoutMove (TrimMove p))) as ((tl & br) & EB).
  exists g, (drawn r), (drawn i), z. rewrite <- TrimMove_drawn.
  split; [rewrite E; destruct g; cbn in *; tauto|]. split.
  { rewrite E', drawn_app. destruct z; cbn in *; tauto. }
  unfold PointPathAttribute, PathAttribute, BoundingBoxTrimWhitespace. rewrite EB. cbn [bind]. split; rewrite E; auto.
  rewrite <- E, E', last_last. auto.
Qed.

Lemma firstPoint_unique p s s' : firstPoint p s -> firstPoint p s' -> s = s'.
Proof. intros (g & r & E & ->) (g' & r' & E' & ->). rewrite E in E'. injection E' as <- _. auto. Qed.
Lemma lastPoint_unique p s s' : lastPoint p s -> lastPoint p s' -> s = s'.
Proof. intros (r & g & E & ->) (r' & g' & E' & ->). rewrite E in E'. apply app_inj_tail in E'. destruct E' as [_ <-]. auto. Qed.
Lemma firstPoint_map A p q s : drawn q = map (affSeg A) (drawn p) -> firstPoint p s -> firstPoint q (affPt A s).
Proof. intros Eq (g & r & E & ->). exists (affSeg A g), (map (affSeg A) r). rewrite Eq, E. split; auto. destruct g; auto. Qed.
Lemma lastPoint_map A p q s : drawn q = map (affSeg A) (drawn p) -> lastPoint p s -> lastPoint q (affPt A s).
Proof. intros Eq (r & g & E & ->). exists (map (affSeg A) r), (affSeg A g). rewrite Eq, E, map_app. split; auto. destruct g; auto. Qed.

Lemma ends_attr' tr bm fuel (p : list (seg RNum)) s e : firstPoint p s -> lastPoint p e ->
    PointPathAttribute (BezierOps tr bm fuel) AStartPoint NoSub p = Ok s /\
    PointPathAttribute (BezierOps tr bm fuel) AEndPoint NoSub p = Ok e.
Proof.
  intros H1 H2. assert (Hd : drawn p <> []) by (destruct H1 as (g & r & E & _); rewrite E; discriminate).
  destruct (ends_attr tr bm fuel p Hd) as (g & r & i & z & E1 & E2 & A1 & A2).
  rewrite A1, A2. split; f_equal; [eapply firstPoint_unique|eapply lastPoint_unique]; eauto; red; eauto.
Qed.

Lemma drawn_finite p s e : Forall finiteSeg p -> firstPoint p s -> lastPoint p e -> finitePt s /\ finitePt e.
Proof.
  intros F (g & r & E1 & ->) (r' & g' & E2 & ->).
  assert (K : forall h, In h (drawn p) -> finitePt (sstart h) /\ finitePt (send h)).
  { intros h Hh. rewrite drawn_filter in Hh. apply filter_In in Hh. destruct Hh as [Hh _]. eapply Forall_forall in F; [|exact Hh]. destruct h; cbn in *; tauto. }
  split; [apply K; rewrite E1; left; auto|apply K; rewrite E2; apply in_or_app; simpl; auto].
Qed.

Lemma LineAngle_fin s e : finitePt s -> finitePt e -> LineAngle RTrig s e = Fin (180 / PI * Ratan2 (Y e - Y s) (X e - X s)).
Proof.
  intros F1 F2. unfold LineAngle. rewrite fpi. fin. rewrite fdiv by (pose proof PI_RGT_0; lra).
  rewrite (px_fin _ F1), (py_fin _ F1), (px_fin _ F2), (py_fin _ F2). fin.
  change (natan2 RTrig (Fin (Y e - Y s)) (Fin (X e - X s))) with (Fin (Ratan2 (Y e - Y s) (X e - X s))). fin. reflexivity.
Qed.

Lemma fabs x : @nabs RNum (Fin x) = Fin (Rabs x). Proof. reflexivity. Qed.

(** the factor: the ratio of the lengths *)
Lemma ratio (L L' c s : R) : 0 < L -> 0 <= L' -> c * c + s * s = 1 ->
  let old a := Rabs (L * a) in let new a := Rabs (L' * a) in
  let k a := if negb (Reqb (old a) 0) then Fin (new a / old a) else Fin 0 in
  @nmax RNum (k c) (k s) = Fin (L' / L).
Proof.
  intros HL HL' Hcs. cbn beta zeta.
  assert (K : forall a, a <> 0 -> negb (Reqb (Rabs (L * a)) 0) = true /\ Rabs (L' * a) / Rabs (L * a) = L' / L).
  { intros a Ha. rewrite !Rabs_mult, (Rabs_pos_eq L), (Rabs_pos_eq L') by lra. pose proof (Rabs_pos_lt a Ha). split.
    - destruct (Reqb_spec (L * Rabs a) 0); [nra|auto].
    - field. split; lra. }
  assert (Z : negb (Reqb (Rabs (L * 0)) 0) = false) by (rewrite Rmult_0_r, Rabs_R0; destruct (Reqb_spec 0 0); [auto|lra]).
  assert (P : 0 <= L' / L) by (apply Rmult_le_pos; [auto|apply Rlt_le, Rinv_0_lt_compat; auto]).
  unfold nmax. destruct (Req_dec c 0) as [->|Hc].
  - rewrite Z. destruct (K s) as [K1 K2]; [intros ->; lra|]. rewrite K1, K2. fin.
    destruct (Rltb_spec 0 (L' / L)); auto. f_equal. lra.
  - destruct (K c Hc) as [K1 K2]. rewrite K1, K2. destruct (Req_dec s 0) as [->|Hs].
    + rewrite Z. fin. destruct (Rltb_spec (L' / L) 0); [lra|auto].
    + destruct (K s Hs) as [K3 K4]. rewrite K3, K4. fin. destruct (Rltb_spec (L' / L) (L' / L)); auto.
Qed.

Lemma canon_comp A B l : canon (map (affSeg A) (canon (map (affSeg B) l))) = canon (map (affSeg (affComp A B)) l).
Proof. rewrite canon_map_canon, map_map. f_equal. apply map_ext. intros g. apply affSeg_comp. Qed.
Lemma RotateScale_whole bm fuel (p : list (seg RNum)) s e start en :
  Forall tame p -> firstPoint p s -> lastPoint p e -> s <> e -> finitePt start -> finitePt en ->
  exists M a b u v, RotateScaleT (BezierOps RTrig bm fuel) RTrig start en p = Ok (canon (map (affSeg M) p)) /\
    (forall z, affPt M z = similar a b u v z) /\ similar a b u v s = start /\ similar a b u v e = en.
Proof.
  intros HT H1 H2 Hse Fst Fen. set (co := BezierOps RTrig bm fuel).
  pose proof (Forall_tame_finite p HT) as F. destruct (drawn_finite p s e F H1 H2) as [Fs Fe].
  assert (Hd : drawn p <> []) by (destruct H1 as (g & r & E & _); rewrite E; discriminate).
  destruct (ends_attr' RTrig bm fuel p s e H1 H2) as [A1 A2].
  destruct (box_handle co (BezierOps_boxOk RTrig bm fuel) ATopLeft 0 0 p HT Hd eq_refl) as (tl & br & _ & _ & EA).
  set (q := boxPoint tl br 0 0) in *.
  set (al := Ratan2 (Y e - Y s) (X e - X s)). set (al' := Ratan2 (Y en - Y start) (X en - X start)).
  set (d := 180 / PI * al' - 180 / PI * al).
  assert (HPI : PI <> 0) by (pose proof PI_RGT_0; lra).
  assert (Hd' : d * PI / 180 = al' - al) by (unfold d; field; auto).
  unfold RotateScaleT. fold co. unfold co at 1 2. rewrite A1, A2. cbn [bind]. rewrite !LineAngle_fin by auto. fin. fold al al' d.
  rewrite (RotateT_mapPoints co d ATopLeft p q F (finitePt_pnt _ _) EA). cbn [bind].
  set (A := rotAbout d (X q) (Y q)). set (p1 := canon (map (affSeg A) p)).
  assert (D1 : drawn p1 = map (affSeg A) (drawn p)) by (unfold p1; rewrite canon_drawn; apply drawn_map_aff).
  assert (F1 : Forall finiteSeg p1) by apply canon_finite, map_finite.
  pose proof (firstPoint_map A p p1 s D1 H1) as H3. pose proof (lastPoint_map A p p1 e D1 H2) as H4.
  destruct (ends_attr' RTrig bm fuel p1 _ _ H3 H4) as [A3 A4]. unfold co at 1 2. rewrite A3, A4. cbn [bind].
  (* lengths and directions *)
  set (vx := X e - X s) in *. set (vy := Y e - Y s) in *. set (wx := X en - X start) in *. set (wy := Y en - Y start) in *.
  assert (Hv : vx <> 0 \/ vy <> 0).
  { destruct (Req_dec vx 0) as [E1|]; auto. destruct (Req_dec vy 0) as [E2|]; auto. exfalso. apply Hse. unfold vx, vy in *.
    rewrite (pnt_eta _ Fs), (pnt_eta _ Fe). unfold pnt. f_equal; f_equal; lra. }
  set (L := sqrt (vx * vx + vy * vy)). set (L' := sqrt (wx * wx + wy * wy)).
  assert (HL : 0 < L). { apply sqrt_lt_R0. destruct Hv as [H|H]; nra. }
  assert (HL' : 0 <= L') by apply sqrt_pos.
  destruct (Ratan2_spec vx vy Hv) as [V1 V2]. fold L al in V1, V2.
  assert (WE : wx = L' * cos al' /\ wy = L' * sin al').
  { destruct (Req_dec wx 0) as [E1|E1], (Req_dec wy 0) as [E2|E2]; try (apply Ratan2_spec; tauto).
    assert (EL : L' = 0) by (unfold L'; rewrite E1, E2; replace (0 * 0 + 0 * 0) with 0 by ring; apply sqrt_0).
    rewrite EL. split; lra. }
  destruct WE as [W1 W2].
  assert (R1 : X (affPt A e) - X (affPt A s) = L * cos al').
  { rewrite !affPt_X. unfold A, rotAbout, affX; cbn [af_a af_b af_c af_d af_e af_f]. rewrite Hd'.
    transitivity (cos (al' - al) * vx - sin (al' - al) * vy); [unfold vx, vy; ring|]. rewrite V1, V2.
    transitivity (L * cos ((al' - al) + al)); [rewrite (cos_plus (al' - al) al); ring|]. do 2 f_equal. ring. }
  assert (R2 : Y (affPt A e) - Y (affPt A s) = L * sin al').
  { rewrite !affPt_Y. unfold A, rotAbout, affY; cbn [af_a af_b af_c af_d af_e af_f]. rewrite Hd'.
    transitivity (sin (al' - al) * vx + cos (al' - al) * vy); [unfold vx, vy; ring|]. rewrite V1, V2.
    transitivity (L * sin ((al' - al) + al)); [rewrite (sin_plus (al' - al) al); ring|]. do 2 f_equal. ring. }
  assert (Fa : forall z, finitePt (affPt A z)) by reflexivity.
  rewrite !(px_fin _ (Fa e)), !(px_fin _ (Fa s)), !(py_fin _ (Fa e)), !(py_fin _ (Fa s)), (px_fin _ Fst), (py_fin _ Fst), (px_fin _ Fen), (py_fin _ Fen). fin.
  rewrite !fabs, R1, R2. fold wx wy. rewrite !feqb.
  assert (EK : nmax (if negb (Reqb (Rabs (L * cos al')) 0) then div (Fin (Rabs wx) : T RNum) (Fin (Rabs (L * cos al'))) else Fin 0)
                    (if negb (Reqb (Rabs (L * sin al')) 0) then div (Fin (Rabs wy) : T RNum) (Fin (Rabs (L * sin al'))) else Fin 0) = (Fin (L' / L) : T RNum)).
  { rewrite W1, W2. rewrite <- (ratio L L' (cos al') (sin al') HL HL'); [|pose proof (sin2_cos2 al') as SC; unfold Rsqr in SC; lra].
    cbn beta zeta. f_equal.
    - destruct (Reqb_spec (Rabs (L * cos al')) 0); cbn [negb]; auto. rewrite fdiv; auto.
    - destruct (Reqb_spec (Rabs (L * sin al')) 0); cbn [negb]; auto. rewrite fdiv; auto. }
  rewrite EK. set (k := L' / L) in *.
  assert (ES : ScaleT co (mkScale (Fin k : T RNum) (Fin k) zeroPt zeroPt (Fin 0) (Fin 0)) p1 = Ok (canon (map (affSeg (diag k k 0 0)) p1))).
  { unfold ScaleT, scaleFactors; cbn [sc_w sc_h sc_x sc_y sc_start sc_end]. unfold gtb. fin. destruct (Rltb_spec 0 0); [lra|]. cbn [orb].
    assert (EZ : ptEquals (@zeroPt RNum) zeroPt = true) by (unfold ptEquals, zeroPt; cbn [px py]; fin; destruct (Reqb_spec 0 0); [auto|lra]).
    rewrite EZ. cbn [negb bind]. f_equal. apply mapPoints_canon; auto. apply scale_aff. }
  rewrite ES. cbn [bind]. set (p2 := canon (map (affSeg (diag k k 0 0)) p1)).
  assert (D2 : drawn p2 = map (affSeg (diag k k 0 0)) (drawn p1)) by (unfold p2; rewrite canon_drawn; apply drawn_map_aff).
  assert (F2 : Forall finiteSeg p2) by apply canon_finite, map_finite.
  pose proof (firstPoint_map _ p1 p2 _ D2 H3) as H5. pose proof (lastPoint_map _ p1 p2 _ D2 H4) as H6.
  destruct (ends_attr' RTrig bm fuel p2 _ _ H5 H6) as [A5 _].
  rewrite (MoveT_shift co start AStartPoint p2 _ Fst (finitePt_pnt _ _) A5).
  set (h := affPt (diag k k 0 0) (affPt A s)).
  set (M := affComp (affComp (diag 1 1 (X start - X h) (Y start - Y h)) (diag k k 0 0)) A).
  assert (KM : forall z, affPt M z = similar (k * cos (al' - al)) (k * sin (al' - al)) (af_e M) (af_f M) z).
  { intros z. unfold affPt, similar, affX, affY, M, affComp, diag, A, rotAbout; cbn [af_a af_b af_c af_d af_e af_f]. rewrite Hd'.
    unfold pnt. f_equal; f_equal; ring. }
  assert (HX : X h = k * X (affPt A s)) by (unfold h; rewrite affPt_X, diag_X; ring).
  assert (HY : Y h = k * Y (affPt A s)) by (unfold h; rewrite affPt_Y, diag_Y; ring).
  assert (MX : forall z, X (affPt M z) = k * X (affPt A z) + (X start - X h)).
  { intros z. unfold M. rewrite <- !affPt_comp. rewrite affPt_X, diag_X, affPt_X, diag_X. ring. }
  assert (MY : forall z, Y (affPt M z) = k * Y (affPt A z) + (Y start - Y h)).
  { intros z. unfold M. rewrite <- !affPt_comp. rewrite affPt_Y, diag_Y, affPt_Y, diag_Y. ring. }
  exists M, (k * cos (al' - al)), (k * sin (al' - al)), (af_e M), (af_f M).
  rewrite <- !KM. split; [|split; [exact KM|split]].
  - rewrite Shift_canon by auto. unfold p2, p1. rewrite !canon_comp. fold M. reflexivity.
  - symmetry. rewrite (pnt_eta _ Fst) at 1. rewrite (pnt_eta (affPt M s)) by reflexivity. rewrite MX, MY, HX, HY. unfold pnt. f_equal; f_equal; ring.
  - symmetry. rewrite (pnt_eta _ Fen) at 1. rewrite (pnt_eta (affPt M e)) by reflexivity. rewrite MX, MY, HX, HY.
    replace (X (affPt A e)) with (L * cos al' + X (affPt A s)) by lra. replace (Y (affPt A e)) with (L * sin al' + Y (affPt A s)) by lra.
    assert (KL : k * L = L') by (unfold k; field; lra).
    unfold pnt. f_equal; f_equal.
    + replace (X en) with (wx + X start) by (unfold wx; ring). rewrite W1, <- KL. ring.
    + replace (Y en) with (wy + Y start) by (unfold wy; ring). rewrite W2, <- KL. ring.
Qed.

(** what the transform does to the drawn segments: a similarity determined by its effect on the two ends *)
Theorem C50_ends_placed bm fuel (p : list (seg RNum)) s e start en :
  Forall tame p -> firstPoint p s -> lastPoint p e -> s <> e -> finitePt start -> finitePt en ->
  exists p' a b u v, RotateScaleT (BezierOps RTrig bm fuel) RTrig start en p = Ok p' /\
    drawn p' = map (fun g => TransformPoints g (similar a b u v)) (drawn p) /\
    similar a b u v s = start /\ similar a b u v e = en.
Proof.
  intros HT H1 H2 Hse Fst Fen. destruct (RotateScale_whole bm fuel p s e start en HT H1 H2 Hse Fst Fen) as (M & a & b & u & v & E & KM & S1 & S2).
  eexists _, a, b, u, v. split; [exact E|]. split; [|auto]. rewrite canon_drawn, drawn_map_aff. apply map_ext. intros g. unfold affSeg. destruct g; cbn [TransformPoints]; rewrite !KM; auto.
Qed.

(** A drawing that ends where it started has no direction to fit; the transform collapses it to the requested start point. *)
Theorem C50_closed_collapses bm fuel (p : list (seg RNum)) s start en :
  Forall tame p -> firstPoint p s -> lastPoint p s -> finitePt start -> finitePt en ->
  exists p', RotateScaleT (BezierOps RTrig bm fuel) RTrig start en p = Ok p' /\
    drawn p' = map (fun g => TransformPoints g (fun _ => start)) (drawn p).
Proof.
  intros HT H1 H2 Fst Fen. set (co := BezierOps RTrig bm fuel).
  pose proof (Forall_tame_finite p HT) as F. destruct (drawn_finite p s s F H1 H2) as [Fs _].
  assert (Hd : drawn p <> []) by (destruct H1 as (g & r & E & _); rewrite E; discriminate).
  destruct (ends_attr' RTrig bm fuel p s s H1 H2) as [A1 A2].
  destruct (box_handle co (BezierOps_boxOk RTrig bm fuel) ATopLeft 0 0 p HT Hd eq_refl) as (tl & br & _ & _ & EA).
  set (q := boxPoint tl br 0 0) in *.
  unfold RotateScaleT. fold co. unfold co at 1 2. rewrite A1, A2. cbn [bind]. rewrite !LineAngle_fin by auto. fin. set (d := _ - _ * Ratan2 (Y s - Y s) _).
  rewrite (RotateT_mapPoints co d ATopLeft p q F (finitePt_pnt _ _) EA). cbn [bind].
  set (A := rotAbout d (X q) (Y q)). set (p1 := canon (map (affSeg A) p)).
  assert (D1 : drawn p1 = map (affSeg A) (drawn p)) by (unfold p1; rewrite canon_drawn; apply drawn_map_aff).
  assert (F1 : Forall finiteSeg p1) by apply canon_finite, map_finite.
  pose proof (firstPoint_map A p p1 s D1 H1) as H3. pose proof (lastPoint_map A p p1 s D1 H2) as H4.
  destruct (ends_attr' RTrig bm fuel p1 _ _ H3 H4) as [A3 A4]. unfold co at 1 2. rewrite A3, A4. cbn [bind].
  assert (Fa : forall z, finitePt (affPt A z)) by reflexivity.
  rewrite !(px_fin _ (Fa s)), !(py_fin _ (Fa s)). fin.
  rewrite !fabs. replace (X (affPt A s) - X (affPt A s)) with 0 by ring. replace (Y (affPt A s) - Y (affPt A s)) with 0 by ring.
  rewrite Rabs_R0. fin. assert (Z0 : Reqb 0 0 = true) by (apply Reqb_true; auto). rewrite Z0. cbn [negb].
  assert (EK : @nmax RNum (Fin 0) (Fin 0) = Fin 0) by (unfold nmax; fin; destruct (Rltb_spec 0 0); auto). rewrite EK.
  assert (ES : ScaleT co (mkScale (Fin 0 : T RNum) (Fin 0) zeroPt zeroPt (Fin 0) (Fin 0)) p1 = Ok (canon (map (affSeg (diag 0 0 0 0)) p1))).
  { unfold ScaleT, scaleFactors; cbn [sc_w sc_h sc_x sc_y sc_start sc_end]. unfold gtb. fin. destruct (Rltb_spec 0 0); [lra|]. cbn [orb].
    assert (EZ : ptEquals (@zeroPt RNum) zeroPt = true) by (unfold ptEquals, zeroPt; cbn [px py]; fin; rewrite Z0; auto).
    rewrite EZ. cbn [negb bind]. f_equal. apply mapPoints_canon; auto. apply scale_aff. }
  rewrite ES. cbn [bind]. set (p2 := canon (map (affSeg (diag 0 0 0 0)) p1)).
  assert (D2 : drawn p2 = map (affSeg (diag 0 0 0 0)) (drawn p1)) by (unfold p2; rewrite canon_drawn; apply drawn_map_aff).
  assert (F2 : Forall finiteSeg p2) by apply canon_finite, map_finite.
  pose proof (firstPoint_map _ p1 p2 _ D2 H3) as H5. pose proof (lastPoint_map _ p1 p2 _ D2 H4) as H6.
  destruct (ends_attr' RTrig bm fuel p2 _ _ H5 H6) as [A5 _].
  rewrite (MoveT_shift co start AStartPoint p2 _ Fst (finitePt_pnt _ _) A5).
  eexists. split; [reflexivity|]. rewrite Shift_drawn by auto. rewrite D2, D1, !map_map. apply map_ext. intros g.
  assert (K : forall z, affPt (diag 1 1 (X start - X (affPt (diag 0 0 0 0) (affPt A s))) (Y start - Y (affPt (diag 0 0 0 0) (affPt A s)))) (affPt (diag 0 0 0 0) (affPt A z)) = start).
  { intros z. symmetry. rewrite (pnt_eta _ Fst) at 1. unfold affPt at 1. rewrite !diag_X, !diag_Y, !affPt_X, !affPt_Y, !diag_X, !diag_Y. unfold pnt. f_equal; f_equal; ring. }
  unfold affSeg. destruct g; cbn [TransformPoints]; rewrite !K; auto.
Qed.

Example C50_hypotheses : exists (p : list (seg RNum)) s e, Forall tame p /\ firstPoint p s /\ lastPoint p e /\ s <> e.
Proof.
  exists [Move (pnt 0 0) (pnt 1 1); Line (pnt 1 1) (pnt 2 5); Line (pnt 2 5) (pnt 4 1)], (pnt 1 1), (pnt 4 1).
  split; [repeat constructor|]. split; [eexists; eexists; split; reflexivity|].
  split; [exists [Line (pnt 1 1) (pnt 2 5)]; eexists; split; reflexivity|]. intros E. injection E; lra.
Qed.
(** the triangle above fitted between (0,0) and (0,6): its apex goes to (-8,2) *)
Example C50_example : exists p', RotateScaleT (BezierOps RTrig (mkBMath (fun x => x) (fun x _ => x) (fun x => x)) 5) RTrig (pnt 0 0) (pnt 0 6)
    [Move (pnt 0 0) (pnt 1 1); Line (pnt 1 1) (pnt 2 5); Line (pnt 2 5) (pnt 4 1)] = Ok p' /\
  drawn p' = [Line (pnt 0 0) (pnt (-8) 2); Line (pnt (-8) 2) (pnt 0 6)].
Proof.
  destruct (C50_ends_placed (mkBMath (fun x => x) (fun x _ => x) (fun x => x)) 5
    [Move (pnt 0 0) (pnt 1 1); Line (pnt 1 1) (pnt 2 5); Line (pnt 2 5) (pnt 4 1)] (pnt 1 1) (pnt 4 1) (pnt 0 0) (pnt 0 6)) as (p' & a & b & u & v & E & D & S1 & S2).
  - repeat constructor.
  - eexists; eexists; split; reflexivity.
  - exists [Line (pnt 1 1) (pnt 2 5)]; eexists; split; reflexivity.
  - intros E. injection E; lra.
  - reflexivity.
  - reflexivity.
  - exists p'. split; [exact E|]. rewrite D. cbn [drawn map TransformPoints].
    unfold similar in *. rewrite !pnt_X, !pnt_Y in *. injection S1 as S1 S3. injection S2 as S2 S4.
    assert (a = 0) by lra. assert (b = 2) by lra. assert (u = 2) by lra. assert (v = -2) by lra. subst.
    assert (Q : forall x y x' y', x = x' -> y = y' -> pnt x y = pnt x' y') by (intros; subst; auto).
    f_equal; [|f_equal]; f_equal; apply Q; lra.
Qed.
Print Assumptions C50_ends_placed.
