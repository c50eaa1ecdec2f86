(** Paths in binary64: what a path of machine numbers draws, and transforms that map every point, with the rounding of the points bounded. *)
From Coq Require Import List ZArith Bool Lia Reals Lra Psatz.
From Coq.Floats Require Import SpecFloat.
From Flocq Require Import Core.
From Flocq.IEEE754 Require BinarySingleNaN.
From Verif Require Import Num NumLaws FloatNum RealNum PrecisionProofs IeeeProofs IeeeArith RelError BinPackFloat.
From Verif Require Import PathModel SegOps Bezier GeomTransforms PathSpec PathProofs GeomSpec BezierProofs GeomProofs AffineProofs Prop_C05.
Import ListNotations.
Local Open Scope R_scope.

(** ** specification *)
(** the points that a segment is made of *)
Definition points {N : Num} (g : seg N) : list (Pt N) := match g with Move s e | Line s e => [s; e] | Curve s cs e ce => [s; cs; e; ce] end.
(** a point with finite coordinates *)
Definition goodPt (q : Pt FNum) : Prop := gofin (px q) /\ gofin (py q).
Definition goodSeg (g : seg FNum) : Prop := Forall goodPt (points g).
(** the real numbers that the machine numbers are *)
Definition realPt (q : Pt FNum) : Pt RNum := pnt (#(px q)) (#(py q)).
Definition realSeg (g : seg FNum) : seg RNum :=
  match g with
  | Move s e => Move (realPt s) (realPt e)
  | Line s e => Line (realPt s) (realPt e)
  | Curve s cs e ce => Curve (realPt s) (realPt cs) (realPt e) (realPt ce)
  end.
(** the point of a segment at t *)
Definition atX (g : seg RNum) (t : R) : R := match g with Move s e | Line s e => X s + t * (X e - X s) | Curve s cs e ce => cubic (X s) (X cs) (X ce) (X e) t end.
Definition atY (g : seg RNum) (t : R) : R := match g with Move s e | Line s e => Y s + t * (Y e - Y s) | Curve s cs e ce => cubic (Y s) (Y cs) (Y ce) (Y e) t end.
Definition sameKind (g g' : seg FNum) : Prop := match g, g' with Move _ _, Move _ _ | Line _ _, Line _ _ | Curve _ _ _ _, Curve _ _ _ _ => True | _, _ => False end.
(** g' is drawn where the map takes the points of g, all along the segment, up to d *)
Definition follows (d : R) (fx fy : R -> R -> R) (g g' : seg FNum) : Prop := sameKind g g' /\
  forall t, 0 <= t <= 1 -> Rabs (atX (realSeg g') t - fx (atX (realSeg g) t) (atY (realSeg g) t)) <= d /\ Rabs (atY (realSeg g') t - fy (atX (realSeg g) t) (atY (realSeg g) t)) <= d.
(** all points of the drawn segments *)
Definition everyPoint (P : Pt FNum -> Prop) (p : path FNum) : Prop := forall g q, In g (drawn p) -> In q (points g) -> P q.

(** ** proofs *)
Lemma onSeg_at g x y : onSeg g x y <-> exists t, 0 <= t <= 1 /\ x = atX g t /\ y = atY g t.
Proof. unfold onSeg. destruct g; cbn [atX atY]; split; intros (t & Ht & H); exists t; tauto. Qed.
Lemma norm0_val (x : T FNum) : gofin x -> gofin (norm0 x) /\ #(norm0 x) = #x.
Proof.
  intros G. unfold norm0. destruct (eqb x zero) eqn:E; [|auto]. split; [exact gofin_zero|]. apply eqb_R in E; [|exact G|exact gofin_zero]. rewrite E. reflexivity.
Qed.
Lemma mul_near e a b : (-1020 <= e <= 1023)%Z -> gofin a -> gofin b -> Rabs (#a * #b) <= bpow radix2 e -> gofin (@mul FNum a b) /\ Rabs (#(@mul FNum a b) - #a * #b) <= half_ulp e /\ #(@mul FNum a b) = rnd (#a * #b).
Proof. intros He Ga Gb H. destruct (f_mul_correct a b Ga Gb (rnd_fits e _ He H)) as [G E]. split; [exact G|]. change (@mul FNum a b) with (f_mul a b). rewrite E. split; [apply rnd_near; assumption|reflexivity]. Qed.
Lemma div_near e a b : (-1020 <= e <= 1023)%Z -> gofin a -> gofin b -> #b <> 0 -> Rabs (#a / #b) <= bpow radix2 e -> gofin (@div FNum a b) /\ Rabs (#(@div FNum a b) - #a / #b) <= half_ulp e /\ #(@div FNum a b) = rnd (#a / #b).
Proof. intros He Ga Gb N0 H. destruct (f_div_correct a b Ga Gb N0 (rnd_fits e _ He H)) as [G E]. split; [exact G|]. change (@div FNum a b) with (f_div a b). rewrite E. split; [apply rnd_near; assumption|reflexivity]. Qed.

Lemma cubic_le a b c d t M : Rabs a <= M -> Rabs b <= M -> Rabs c <= M -> Rabs d <= M -> 0 <= t <= 1 -> Rabs (cubic a b c d t) <= M.
Proof.
  intros Ha Hb Hc Hd Ht. apply Rnot_lt_le. intros L. pose proof (cubic_bounded a b c d t ((M + Rabs (cubic a b c d t)) / 2)) as B. specialize (B ltac:(lra) ltac:(lra) ltac:(lra) ltac:(lra) Ht). lra.
Qed.
Lemma cubic_diff a b c d a' b' c' d' t : cubic a' b' c' d' t - cubic a b c d t = cubic (a' - a) (b' - b) (c' - c) (d' - d) t.
Proof. unfold cubic. ring. Qed.
Lemma line_le a b t M : Rabs a <= M -> Rabs b <= M -> 0 <= t <= 1 -> Rabs (a + t * (b - a)) <= M.
Proof. intros Ha Hb Ht. apply abs_le in Ha, Hb. apply Rabs_le. nra. Qed.
Lemma line_diff a b a' b' t : (a' + t * (b' - a')) - (a + t * (b - a)) = (a' - a) + t * ((b' - b) - (a' - a)). Proof. ring. Qed.
Definition nearPt (d : R) (a b : Pt RNum) : Prop := Rabs (X a - X b) <= d /\ Rabs (Y a - Y b) <= d.
Lemma at_affX A g t : atX (affSeg A g) t = affX A (atX g t) (atY g t).
Proof. destruct g; cbn [affSeg TransformPoints atX atY]; rewrite ?affPt_X; unfold affX; [ring|ring|rewrite cubic_affine; reflexivity]. Qed.
Lemma at_affY A g t : atY (affSeg A g) t = affY A (atX g t) (atY g t).
Proof. destruct g; cbn [affSeg TransformPoints atX atY]; rewrite ?affPt_Y; unfold affY; [ring|ring|rewrite cubic_affine; reflexivity]. Qed.
Lemma near_follows d A f g : (forall q, In q (points g) -> nearPt d (realPt (f q)) (affPt A (realPt q))) -> follows d (affX A) (affY A) g (TransformPoints g f).
Proof.
  intros H. split; [destruct g; exact I|]. intros t Ht. rewrite <- at_affX, <- at_affY.
  destruct g as [s e|s e|s cs e ce]; cbn [points] in H; cbn [TransformPoints realSeg affSeg atX atY].
  1, 2: destruct (H s ltac:(cbn; auto)) as [S1 S2]; destruct (H e ltac:(cbn; auto)) as [E1 E2]; rewrite !line_diff; split; apply line_le; assumption.
  destruct (H s ltac:(cbn; auto)) as [S1 S2]. destruct (H e ltac:(cbn; auto)) as [E1 E2]. destruct (H cs ltac:(cbn; auto)) as [C1 C2]. destruct (H ce ltac:(cbn; auto)) as [D1 D2].
  rewrite !cubic_diff. split; apply cubic_le; assumption.
Qed.
Lemma drawn_points {N : Num} (f : Pt N -> Pt N) p : drawn (map (fun g => TransformPoints g f) p) = map (fun g => TransformPoints g f) (drawn p).
Proof. induction p as [|g p IH]; [reflexivity|]. destruct g; cbn [map TransformPoints drawn]; rewrite ?IH; reflexivity. Qed.
Lemma mapPoints_F f A d (p : path FNum) : everyPoint (fun q => goodPt (f q) /\ nearPt d (realPt (f q)) (affPt A (realPt q))) p ->
  Forall2 (follows d (affX A) (affY A)) (drawn p) (drawn (mapPoints f p)) /\ Forall goodSeg (drawn (mapPoints f p)).
Proof.
  intros H. unfold mapPoints. rewrite C05_NewPathFromSegments_drawn, drawn_points. unfold everyPoint in H. induction (drawn p) as [|g l IH]; [split; constructor|].
  destruct IH as [I1 I2]; [intros g' q I1 I2; apply (H g' q); [right; exact I1|exact I2]|]. split; constructor; auto.
  - apply near_follows. intros q I. apply (H g q); [left; reflexivity|exact I].
  - unfold goodSeg. assert (E : points (TransformPoints g f) = map f (points g)) by (destruct g; reflexivity). rewrite E. apply Forall_forall. intros q Iq. apply in_map_iff in Iq as (q0 & <- & I0). apply (H g q0); [left; reflexivity|exact I0].
Qed.
(** what it means for the drawing as a set of points *)
Lemma follows_drawing d fx fy (p p' : path FNum) : Forall2 (follows d fx fy) (drawn p) (drawn p') ->
  (forall x y, inDrawing (map realSeg p) x y -> exists x' y', inDrawing (map realSeg p') x' y' /\ Rabs (x' - fx x y) <= d /\ Rabs (y' - fy x y) <= d) /\
  (forall x' y', inDrawing (map realSeg p') x' y' -> exists x y, inDrawing (map realSeg p) x y /\ Rabs (x' - fx x y) <= d /\ Rabs (y' - fy x y) <= d).
Proof.
  intros H. assert (D : forall (q : path FNum) x y, inDrawing (map realSeg q) x y <-> exists g, In g (drawn q) /\ onSeg (realSeg g) x y).
  { intros q x y. rewrite inDrawing_drawn. assert (E : drawn (map realSeg q) = map realSeg (drawn q)) by (induction q as [|g q IH]; [reflexivity|]; destruct g; cbn [map realSeg drawn]; rewrite ?IH; reflexivity).
    rewrite E. split; [intros (g & I & O); apply in_map_iff in I as (g0 & <- & I); eauto|intros (g & I & O); exists (realSeg g); split; [apply in_map; exact I|exact O]]. }
  split; intros x y O; apply D in O as (g & I & O); apply onSeg_at in O as (t & Ht & -> & ->).
  - assert (exists g', In g' (drawn p') /\ follows d fx fy g g') as (g' & I' & _ & F). { clear - H I. induction H; [destruct I|]. destruct I as [->|I]; [eexists; split; [left; reflexivity|assumption]|]. destruct (IHForall2 I) as (g' & I' & F). exists g'. split; [right; exact I'|exact F]. }
    specialize (F t Ht). exists (atX (realSeg g') t), (atY (realSeg g') t). split; [|exact F]. apply D. exists g'. split; [exact I'|]. apply onSeg_at. eauto.
  - assert (exists g', In g' (drawn p) /\ follows d fx fy g' g) as (g' & I' & _ & F). { clear - H I. induction H; [destruct I|]. destruct I as [->|I]; [eexists; split; [left; reflexivity|assumption]|]. destruct (IHForall2 I) as (g' & I' & F). exists g'. split; [right; exact I'|exact F]. }
    specialize (F t Ht). exists (atX (realSeg g') t), (atY (realSeg g') t). split; [|exact F]. apply D. exists g'. split; [exact I'|]. apply onSeg_at. eauto.
Qed.
Lemma follows_ext d fx fy fx' fy' : (forall x y, fx x y = fx' x y) -> (forall x y, fy x y = fy' x y) -> forall g g', follows d fx fy g g' -> follows d fx' fy' g g'.
Proof. intros EX EY g g' [K F]. split; [exact K|]. intros t Ht. rewrite <- EX, <- EY. apply F, Ht. Qed.
Lemma Forall2_imp {A B} (P Q : A -> B -> Prop) : (forall a b, P a b -> Q a b) -> forall l l', Forall2 P l l' -> Forall2 Q l l'.
Proof. intros H l l' F. induction F; constructor; auto. Qed.
Lemma NewPoint_good (x y : T FNum) : gofin x -> gofin y -> goodPt (NewPoint x y) /\ realPt (NewPoint x y) = pnt (#x) (#y).
Proof. intros Gx Gy. destruct (norm0_val x Gx) as [A1 A2], (norm0_val y Gy) as [B1 B2]. split; [split; assumption|]. unfold realPt, NewPoint. cbn [px py]. rewrite A2, B2. reflexivity. Qed.
(** multiples of 2^k that fit into 53 bits are machine numbers *)
Lemma rnd_grid k (m : Z) : (-1074 <= k)%Z -> (Z.abs m <= 2 ^ 53)%Z -> rnd (IZR m * bpow radix2 k) = IZR m * bpow radix2 k.
Proof.
  intros Hk Hm. apply round_generic; [apply valid_rnd_N|]. destruct (Z.eq_dec (Z.abs m) (2 ^ 53)) as [E|NE].
  - assert (B : generic_format radix2 fexp64 (bpow radix2 (53 + k))) by (apply generic_format_bpow; change (FLT_exp (-1074) 53 (53 + k + 1) <= 53 + k)%Z; unfold FLT_exp; lia).
    rewrite bpow_plus in B. change (bpow radix2 53) with (IZR (2 ^ 53)) in B. destruct (Z.abs_spec m) as [[_ A]|[_ A]].
    + replace m with (2 ^ 53)%Z by lia. exact B.
    + replace m with (- 2 ^ 53)%Z by lia. rewrite opp_IZR. replace (- IZR (2 ^ 53) * bpow radix2 k) with (- (IZR (2 ^ 53) * bpow radix2 k)) by ring. apply generic_format_opp. exact B.
  - change fexp64 with (FLT_exp (-1074) 53). apply generic_format_FLT. exists (Float radix2 m k); [reflexivity|cbn [Fnum]; change (radix_val radix2 ^ 53)%Z with (2 ^ 53)%Z; lia|cbn [Fexp]; lia].
Qed.
(** the numbers of the examples *)
Definition dyad (m e : Z) : T FNum := SpecFloat.binary_normalize f64_prec f64_emax m e false.
Lemma dyad_val m e : (-1074 <= e <= 960)%Z -> (Z.abs m <= 2 ^ 53)%Z -> gofin (dyad m e) /\ #(dyad m e) = IZR m * bpow radix2 e.
Proof.
  intros He Hm. unfold dyad. rewrite binary_normalize_equiv. pose proof (BinarySingleNaN.binary_normalize_correct f64_prec f64_emax prec_ok emax_ok BinarySingleNaN.mode_NE m e false) as C. cbv zeta in C.
  assert (E : F2R (Float radix2 m e) = IZR m * bpow radix2 e) by reflexivity. rewrite E in C. change (round radix2 (SpecFloat.fexp f64_prec f64_emax) (BinarySingleNaN.round_mode BinarySingleNaN.mode_NE)) with rnd in C. rewrite (rnd_grid e m) in C by lia.
  rewrite Rlt_bool_true in C.
  - destruct C as (C1 & C2 & _). split; [split; [apply go_of_B|rewrite fin_B; exact C2]|rewrite fval_B; exact C1].
  - rewrite Rabs_mult, <- abs_IZR, (Rabs_pos_eq (bpow radix2 e)) by apply bpow_ge_0. apply Rle_lt_trans with (IZR (2 ^ 53) * bpow radix2 e); [apply Rmult_le_compat_r; [apply bpow_ge_0|apply IZR_le; exact Hm]|].
    change (IZR (2 ^ 53)) with (bpow radix2 53). rewrite <- bpow_plus. apply bpow_lt. change f64_emax with 1024%Z. lia.
Qed.

(** ** boxes of drawings of straight lines: they only compare coordinates, so nothing is rounded *)
Definition straight (g : seg FNum) : Prop := goodSeg g /\ match g with Curve _ _ _ _ => False | _ => True end.
Lemma ltb_real (a b : T FNum) : gofin a -> gofin b -> @ltb FNum a b = @ltb RNum (Fin (#a)) (Fin (#b)).
Proof. intros Ga Gb. rewrite ltb_R by assumption. rewrite fltb. unfold Rlt_bool. destruct (Rcompare_spec (#a) (#b)), (Rltb_spec (#a) (#b)); try reflexivity; lra. Qed.
Lemma realNew (x y : T FNum) : gofin x -> gofin y -> realPt (NewPoint x y) = @NewPoint RNum (Fin (#x)) (Fin (#y)).
Proof. intros Gx Gy. rewrite (proj2 (NewPoint_good x y Gx Gy)). symmetry. apply NewPoint_fin. Qed.
Lemma lineBox_real (s e : Pt FNum) : goodPt s -> goodPt e -> let '(tl, br) := lineBox s e in goodPt tl /\ goodPt br /\ lineBox (realPt s) (realPt e) = (realPt tl, realPt br).
Proof.
  intros [S1 S2] [E1 E2]. unfold lineBox. cbn [px py realPt pnt]. rewrite <- !ltb_real by assumption.
  destruct (ltb (px e) (px s)), (ltb (py e) (py s)); rewrite !realNew by assumption; (split; [apply NewPoint_good; assumption|]; split; [apply NewPoint_good; assumption|reflexivity]).
Qed.
Lemma boxMerge_real (a b c d : Pt FNum) : goodPt a -> goodPt b -> goodPt c -> goodPt d -> let '(tl, br) := boxMerge (a, b) (c, d) in goodPt tl /\ goodPt br /\ boxMerge (realPt a, realPt b) (realPt c, realPt d) = (realPt tl, realPt br).
Proof.
  intros [A1 A2] [B1 B2] [C1 C2] [D1 D2]. unfold boxMerge, gtb. cbn [px py realPt pnt]. rewrite <- !ltb_real by assumption.
  unfold goodPt, realPt, pnt. cbn [px py]. destruct (ltb (px c) (px a)), (ltb (py c) (py a)), (ltb (px b) (px d)), (ltb (py b) (py d)); auto.
Qed.
Lemma loop_real coF coR l : Forall straight (drawn l) -> forall a b, goodPt a -> goodPt b ->
  exists tl br, boundingBox_loop coF (a, b) l = Ok (tl, br) /\ goodPt tl /\ goodPt br /\ boundingBox_loop coR (realPt a, realPt b) (map realSeg l) = Ok (realPt tl, realPt br).
Proof.
  induction l as [|g l IH]; intros F a b Ga Gb; [exists a, b; auto|]. destruct g as [s e|s e|s cs e ce]; cbn [drawn] in F; [| |inversion F as [|? ? [_ K] _]; destruct K].
  - cbn [boundingBox_loop isMove map realSeg]. apply IH; assumption.
  - inversion F as [|? ? [G K] F']; subst. cbn [boundingBox_loop isMove map realSeg segBox bind]. inversion G as [|? ? Gs G']; subst. inversion G' as [|? ? Ge _]; subst.
    pose proof (lineBox_real s e Gs Ge) as L. destruct (lineBox s e) as [t1 b1]. destruct L as (L1 & L2 & L3). rewrite L3. cbn [bind].
    pose proof (boxMerge_real a b t1 b1 Ga Gb L1 L2) as M. destruct (boxMerge (a, b) (t1, b1)) as [t2 b2]. destruct M as (M1 & M2 & M3). rewrite M3. apply IH; assumption.
Qed.
Lemma dropMoves_real (l : path FNum) : dropMoves (map realSeg l) = map realSeg (dropMoves l).
Proof. induction l as [|g l IH]; [reflexivity|]. destruct g; cbn [dropMoves map isMove realSeg]; auto. Qed.
Lemma TrimMove_real (p : path FNum) : TrimMove (map realSeg p) = map realSeg (TrimMove p).
Proof.
  assert (TT : forall l : path FNum, TrimTailMove (map realSeg l) = map realSeg (TrimTailMove l)) by (intros l; unfold TrimTailMove; rewrite <- map_rev, dropMoves_real, map_rev; reflexivity).
  induction p as [|g p IH]; [reflexivity|]. cbn [TrimMove map]. destruct g as [s e|s e|s cs e ce]; cbn [isMove realSeg]; [exact IH| |].
  - exact (TT (Line s e :: p)).
  - exact (TT (Curve s cs e ce :: p)).
Qed.
Lemma straight_box coF coR (okR : boxOk coR) (p : path FNum) : Forall straight (drawn p) -> drawn p <> [] ->
  exists tl br, BoundingBoxTrimWhitespace coF p = Ok (tl, br) /\ goodPt tl /\ goodPt br /\ tightBox (inDrawing (map realSeg p)) (realPt tl) (realPt br).
Proof.
  intros F Hd. assert (E : exists tl br, BoundingBoxTrimWhitespace coF p = Ok (tl, br) /\ goodPt tl /\ goodPt br /\ BoundingBoxTrimWhitespace coR (map realSeg p) = Ok (realPt tl, realPt br)).
  { unfold BoundingBoxTrimWhitespace, NewPathFromSegmentsWithoutMove. rewrite TrimMove_real. 
    assert (FT : Forall straight (drawn (TrimMove p))) by (rewrite TrimMove_drawn; exact F).
    destruct (TrimMove_ends p) as [E|[(g & r & E & V) _]]; [exfalso; apply Hd; rewrite <- TrimMove_drawn, E; reflexivity|].
    rewrite E in *. destruct g as [s e|s e|s cs e ce]; [destruct V| |cbn [drawn] in FT; inversion FT as [|? ? [_ K] _]; destruct K]. cbn [drawn] in FT. inversion FT as [|? ? [G K] F2]; subst. cbn [FixHeadMove map realSeg boundingBox segBox bind].
    inversion G as [|? ? Gs G']; subst. inversion G' as [|? ? Ge _]; subst.
    pose proof (lineBox_real s e Gs Ge) as L. destruct (lineBox s e) as [t1 b1]. destruct L as (L1 & L2 & L3). rewrite L3. cbn [bind]. apply loop_real; assumption. }
  destruct E as (tl & br & E1 & G1 & G2 & E2). exists tl, br. split; [exact E1|]. split; [exact G1|]. split; [exact G2|].
  destruct (BoundingBoxTrimWhitespace_tight coR okR (map realSeg p)) as (tl' & br' & E3 & TB).
  - apply Forall_forall. intros g I. apply in_map_iff in I as (g0 & <- & I). destruct g0 as [s e|s e|s cs e ce]; [split; [split; apply finitePt_pnt|exact Logic.I]..|]. exfalso.
    assert (I2 : In (Curve s cs e ce) (drawn p)) by (rewrite drawn_filter; apply filter_In; auto). eapply Forall_forall in F; [|exact I2]. destruct F as [_ K]. exact K.
  - assert (E : drawn (map realSeg p) = map realSeg (drawn p)) by (clear; induction p as [|g q IH]; [reflexivity|]; destruct g; cbn [map realSeg drawn]; rewrite ?IH; reflexivity). rewrite E. destruct (drawn p); [congruence|discriminate].
  - rewrite E2 in E3. injection E3 as <- <-. exact TB.
Qed.
Lemma inDrawing_real (q : path FNum) x y : inDrawing (map realSeg q) x y <-> exists g, In g (drawn q) /\ onSeg (realSeg g) x y.
Proof.
  rewrite inDrawing_drawn. assert (E : drawn (map realSeg q) = map realSeg (drawn q)) by (induction q as [|g q IH]; [reflexivity|]; destruct g; cbn [map realSeg drawn]; rewrite ?IH; reflexivity).
  rewrite E. split; [intros (g & I & O); apply in_map_iff in I as (g0 & <- & I); eauto|intros (g & I & O); exists (realSeg g); split; [apply in_map; exact I|exact O]].
Qed.
(** maps that keep the order of the coordinates take the box of a straight drawing to the box *)
Lemma mono_box (f : Pt FNum -> Pt FNum) (FX FY : R -> R) (p : path FNum) a b c d : Forall straight (drawn p) ->
  (forall u v, u <= v -> FX u <= FX v) -> (forall u v, u <= v -> FY u <= FY v) ->
  everyPoint (fun q => goodPt (f q) /\ realPt (f q) = pnt (FX (#(px q))) (FY (#(py q)))) p ->
  tightBox (inDrawing (map realSeg p)) (pnt a b) (pnt c d) -> Forall straight (drawn (mapPoints f p)) /\ tightBox (inDrawing (map realSeg (mapPoints f p))) (pnt (FX a) (FY b)) (pnt (FX c) (FY d)).
Proof.
  intros F MX MY H (_ & _ & (RX & [ya AX] & [yc CX]) & (RY & [xb BY] & [xd DY])). rewrite !pnt_X, !pnt_Y in *.
  assert (DR : drawn (mapPoints f p) = map (fun g => TransformPoints g f) (drawn p)) by (unfold mapPoints; rewrite C05_NewPathFromSegments_drawn, drawn_points; reflexivity).
  assert (LN : forall g, In g (drawn p) -> exists s e, g = Line s e /\ In s (points g) /\ In e (points g)).
  { intros g I. assert (I2 : In g p /\ visible g) by (rewrite drawn_filter in I; apply filter_In in I as [I2 V]; split; [exact I2|destruct g; [discriminate|exact Logic.I|exact Logic.I]]). destruct I2 as [I2 V]. eapply Forall_forall in F; [|exact I]. destruct F as [_ K]. destruct g as [s e|s e|s cs e ce]; [destruct V| |destruct K]. exists s, e. cbn. auto. }
  split.
  { rewrite DR. apply Forall_forall. intros g I. apply in_map_iff in I as (g0 & <- & I). destruct (LN g0 I) as (s & e & E & I1 & I2). destruct (H g0 s I I1) as [G1 _], (H g0 e I I2) as [G2 _]. subst g0. split; [|exact Logic.I]. apply Forall_cons; [assumption|]. apply Forall_cons; [assumption|apply Forall_nil]. }
  assert (INX : forall s e, In (Line s e) (drawn p) -> a <= #(px s) <= c /\ a <= #(px e) <= c /\ b <= #(py s) <= d /\ b <= #(py e) <= d).
  { intros s e I.
    assert (O1 : inDrawing (map realSeg p) (#(px s)) (#(py s))) by (apply inDrawing_real; exists (Line s e); split; [exact I|]; exists 0; split; [lra|]; cbn [realSeg]; unfold realPt; rewrite !pnt_X, !pnt_Y; split; ring).
    assert (O2 : inDrawing (map realSeg p) (#(px e)) (#(py e))) by (apply inDrawing_real; exists (Line s e); split; [exact I|]; exists 1; split; [lra|]; cbn [realSeg]; unfold realPt; rewrite !pnt_X, !pnt_Y; split; ring).
    repeat split; first [apply (RX (#(px s)))|apply (RX (#(px e)))|apply (RY (#(py s)))|apply (RY (#(py e)))]; eexists; eassumption. }
  assert (IMG : forall s e, In (Line s e) (drawn p) -> In (Line (f s) (f e)) (drawn (mapPoints f p)) /\ realPt (f s) = pnt (FX (#(px s))) (FY (#(py s))) /\ realPt (f e) = pnt (FX (#(px e))) (FY (#(py e)))).
  { intros s e I. split; [rewrite DR; apply (in_map (fun g => TransformPoints g f) _ _ I)|]. split; [apply (H _ s I); cbn; auto|apply (H _ e I); cbn; auto]. }
  assert (EX : forall x y, inDrawing (map realSeg (mapPoints f p)) x y -> exists s e t, In (Line s e) (drawn p) /\ 0 <= t <= 1 /\ x = FX (#(px s)) + t * (FX (#(px e)) - FX (#(px s))) /\ y = FY (#(py s)) + t * (FY (#(py e)) - FY (#(py s)))).
  { intros x y O. apply inDrawing_real in O as (g & I & t & Ht & O). rewrite DR in I. apply in_map_iff in I as (g0 & <- & I). destruct (LN g0 I) as (s & e & -> & _ & _). destruct (IMG s e I) as (_ & I1 & I2).
    cbn [TransformPoints realSeg] in O. rewrite I1, I2, !pnt_X, !pnt_Y in O. exists s, e, t. tauto. }
  assert (PT : forall s e, In (Line s e) (drawn p) -> inDrawing (map realSeg (mapPoints f p)) (FX (#(px s))) (FY (#(py s))) /\ inDrawing (map realSeg (mapPoints f p)) (FX (#(px e))) (FY (#(py e)))).
  { intros s e I. destruct (IMG s e I) as (I0 & I1 & I2). split; apply inDrawing_real; exists (Line (f s) (f e)); (split; [exact I0|]); [exists 0|exists 1]; (split; [lra|]); cbn [realSeg]; rewrite I1, I2, !pnt_X, !pnt_Y; split; ring. }
  assert (EN : forall u v t w, 0 <= t <= 1 -> w = u + t * (v - u) -> (w <= u /\ w <= v) \/ (u <= w /\ v <= w) -> w = u \/ w = v).
  { intros u v t w Ht E C. destruct (Req_dec w u); [auto|]. destruct (Req_dec w v); [auto|]. exfalso.
    assert (S : (1 - t) * (u - w) + t * (v - w) = 0) by (rewrite E; ring). destruct (Req_dec t 0) as [->|T0]; [nra|]. destruct C as [[C1 C2]|[C1 C2]]; [assert (0 < t * (v - w)) by (apply Rmult_lt_0_compat; lra)|assert (0 < t * (w - v)) by (apply Rmult_lt_0_compat; lra)]; nra. }
  assert (GET : forall x y, inDrawing (map realSeg p) x y -> exists s e t, In (Line s e) (drawn p) /\ 0 <= t <= 1 /\ x = #(px s) + t * (#(px e) - #(px s)) /\ y = #(py s) + t * (#(py e) - #(py s))).
  { intros x y O. apply inDrawing_real in O as (g & I & t & Ht & O). destruct (LN g I) as (s & e & -> & _ & _). cbn [realSeg] in O. unfold realPt in O. rewrite !pnt_X, !pnt_Y in O. exists s, e, t. tauto. }
  split; [reflexivity|]. split; [reflexivity|]. rewrite !pnt_X, !pnt_Y. split; (split; [|split]).
  - intros x [y O]. destruct (EX x y O) as (s & e & t & I & Ht & -> & _). destruct (INX s e I) as (Q1 & Q2 & _). pose proof (MX _ _ (proj1 Q1)). pose proof (MX _ _ (proj2 Q1)). pose proof (MX _ _ (proj1 Q2)). pose proof (MX _ _ (proj2 Q2)). nra.
  - destruct (GET _ _ AX) as (s & e & t & I & Ht & E & _). destruct (INX s e I) as (Q1 & Q2 & _). destruct (PT s e I) as [P1 P2]. destruct (EN _ _ t a Ht E ltac:(left; lra)) as [->| ->]; eexists; eassumption.
  - destruct (GET _ _ CX) as (s & e & t & I & Ht & E & _). destruct (INX s e I) as (Q1 & Q2 & _). destruct (PT s e I) as [P1 P2]. destruct (EN _ _ t c Ht E ltac:(right; lra)) as [->| ->]; eexists; eassumption.
  - intros y [x O]. destruct (EX x y O) as (s & e & t & I & Ht & _ & ->). destruct (INX s e I) as (_ & _ & Q1 & Q2). pose proof (MY _ _ (proj1 Q1)). pose proof (MY _ _ (proj2 Q1)). pose proof (MY _ _ (proj1 Q2)). pose proof (MY _ _ (proj2 Q2)). nra.
  - destruct (GET _ _ BY) as (s & e & t & I & Ht & _ & E). destruct (INX s e I) as (_ & _ & Q1 & Q2). destruct (PT s e I) as [P1 P2]. destruct (EN _ _ t b Ht E ltac:(left; lra)) as [->| ->]; eexists; eassumption.
  - destruct (GET _ _ DY) as (s & e & t & I & Ht & _ & E). destruct (INX s e I) as (_ & _ & Q1 & Q2). destruct (PT s e I) as [P1 P2]. destruct (EN _ _ t d Ht E ltac:(right; lra)) as [->| ->]; eexists; eassumption.
Qed.

Lemma opp_val (x : T FNum) : gofin x -> gofin (@opp FNum x) /\ #(@opp FNum x) = - #x.
Proof.
  intros [G1 G2]. change (@opp FNum x) with (SFopp x). destruct x as [[]|[]| |[] m e]; try discriminate; (split; [split; [exact G1|exact G2]|]); unfold fval; cbn; unfold F2R; cbn [Fnum Fexp cond_Zopp]; rewrite ?opp_IZR; try lra.
Qed.
(** translations of straight drawings *)
Lemma shift_points e (dx dy : T FNum) (p : path FNum) : (-1020 <= e <= 1023)%Z -> gofin dx -> gofin dy ->
  everyPoint (fun q => goodPt q /\ Rabs (#(px q) + #dx) <= bpow radix2 e /\ Rabs (#(py q) + #dy) <= bpow radix2 e) p ->
  everyPoint (fun q => goodPt (NewPoint (add (px q) dx) (add (py q) dy)) /\ realPt (NewPoint (add (px q) dx) (add (py q) dy)) = pnt (rnd (#(px q) + #dx)) (rnd (#(py q) + #dy))) p.
Proof.
  intros He Gx Gy H g q I1 I2. destruct (H g q I1 I2) as ([G1 G2] & B1 & B2). destruct (add_near e _ _ He G1 Gx B1) as (A1 & _ & A2), (add_near e _ _ He G2 Gy B2) as (C1 & _ & C2).
  destruct (NewPoint_good _ _ A1 C1) as [N1 N2]. split; [exact N1|]. rewrite N2, A2, C2. reflexivity.
Qed.
Lemma shift_box e (dx dy : T FNum) (p : path FNum) a b c d : (-1020 <= e <= 1023)%Z -> gofin dx -> gofin dy -> Forall straight (drawn p) ->
  everyPoint (fun q => goodPt q /\ Rabs (#(px q) + #dx) <= bpow radix2 e /\ Rabs (#(py q) + #dy) <= bpow radix2 e) p ->
  tightBox (inDrawing (map realSeg p)) (pnt a b) (pnt c d) ->
  Forall straight (drawn (Shift dx dy p)) /\ tightBox (inDrawing (map realSeg (Shift dx dy p))) (pnt (rnd (a + #dx)) (rnd (b + #dy))) (pnt (rnd (c + #dx)) (rnd (d + #dy))).
Proof.
  intros He Gx Gy F H TB. unfold Shift. apply (mono_box _ (fun x => rnd (x + #dx)) (fun y => rnd (y + #dy)) p a b c d F); [intros u v Q; apply rnd_mono; lra|intros u v Q; apply rnd_mono; lra|apply (shift_points e); assumption|exact TB].
Qed.
Lemma rnd_val (x : T FNum) : gofin x -> rnd (#x) = #x.
Proof.
  intros [G1 G2]. rewrite (go_B x G1), fval_B. apply round_generic; [apply valid_rnd_N|]. apply BinarySingleNaN.generic_format_B2R.
Qed.
Lemma drawn_good (p : path FNum) g q : Forall straight (drawn p) -> In g (drawn p) -> In q (points g) -> goodPt q.
Proof. intros F I1 I2. eapply Forall_forall in F; [|exact I1]. destruct F as [F _]. eapply Forall_forall in F; [|exact I2]. exact F. Qed.
Lemma straight_point (p : path FNum) g q : Forall straight (drawn p) -> In g (drawn p) -> In q (points g) -> inDrawing (map realSeg p) (#(px q)) (#(py q)).
Proof.
  intros F I1 I2. apply inDrawing_real. exists g. split; [exact I1|]. eapply Forall_forall in F; [|exact I1]. destruct F as [_ K]. destruct g as [s e|s e|s cs e ce]; [| |destruct K]; destruct I2 as [<-|[<-|[]]]; [exists 0|exists 1|exists 0|exists 1]; (split; [lra|]); cbn [realSeg]; unfold realPt; rewrite !pnt_X, !pnt_Y; split; ring.
Qed.
(** at most 2^e wide and high *)
Definition extent (e : Z) (D : R -> R -> Prop) : Prop := forall x y x' y', D x y -> D x' y' -> Rabs (x - x') <= bpow radix2 e /\ Rabs (y - y') <= bpow radix2 e.
Lemma extent_points e (p : path FNum) : everyPoint (fun q => Rabs (#(px q)) <= bpow radix2 (e - 1) /\ Rabs (#(py q)) <= bpow radix2 (e - 1)) p -> extent e (inDrawing (map realSeg p)).
Proof.
  intros H. assert (B : forall x y, inDrawing (map realSeg p) x y -> Rabs x <= bpow radix2 (e - 1) /\ Rabs y <= bpow radix2 (e - 1)).
  { intros x y D. apply inDrawing_real in D as (g & I & O). apply onSeg_at in O as (t & Ht & -> & ->). destruct g as [s n|s n|s cs n cn]; cbn [realSeg atX atY]; unfold realPt; rewrite !pnt_X, !pnt_Y.
    1, 2: split; apply line_le; try exact Ht; first [apply (H _ s I)|apply (H _ n I)]; cbn; auto.
    split; apply cubic_le; try exact Ht; first [apply (H _ s I)|apply (H _ n I)|apply (H _ cs I)|apply (H _ cn I)]; cbn; auto. }
  assert (E2 : bpow radix2 e = 2 * bpow radix2 (e - 1)) by (replace e with (1 + (e - 1))%Z at 1 by lia; rewrite bpow_plus; reflexivity).
  intros x y x' y' D D'. destruct (B _ _ D) as [B1 B2], (B _ _ D') as [B3 B4]. apply abs_le in B1, B2, B3, B4. split; apply Rabs_le; lra.
Qed.
(** a point with coordinates in eighths, for the examples *)
Definition p8 (a b : Z) : Pt FNum := @mkPt FNum (dyad a (-3)) (dyad b (-3)).
Lemma p8_val a b : (Z.abs a <= 2 ^ 53)%Z -> (Z.abs b <= 2 ^ 53)%Z -> goodPt (p8 a b) /\ #(px (p8 a b)) = IZR a / 8 /\ #(py (p8 a b)) = IZR b / 8.
Proof.
  intros Ha Hb. destruct (dyad_val a (-3) ltac:(lia) Ha) as [G1 E1], (dyad_val b (-3) ltac:(lia) Hb) as [G2 E2]. split; [split; assumption|]. unfold p8. cbn [px py]. rewrite E1, E2. change (bpow radix2 (-3)) with (/ IZR 8). split; reflexivity.
Qed.
(** a triangle with a move to its first corner *)
Definition corner : path FNum := [Move (p8 0 0) (p8 3 20); Line (p8 3 20) (p8 64 20); Line (p8 64 20) (p8 3 (-14)); Line (p8 3 (-14)) (p8 3 20)].
Lemma corner_points (P : Pt FNum -> Prop) : (forall a b, (Z.abs a <= 64)%Z -> (Z.abs b <= 64)%Z -> P (p8 a b)) -> everyPoint P corner.
Proof. intros H g q I1 I2. unfold corner in I1. cbn [drawn] in I1. destruct I1 as [<-|[<-|[<-|[]]]]; cbn [points] in I2; destruct I2 as [<-|[<-|[]]]; apply H; lia. Qed.
Lemma corner_straight : Forall straight (drawn corner).
Proof.
  unfold corner. cbn [drawn]. repeat (apply Forall_cons; [split; [|exact I]; apply Forall_cons; [apply p8_val; lia|]; apply Forall_cons; [apply p8_val; lia|apply Forall_nil]|]). apply Forall_nil.
Qed.
Lemma corner_box : tightBox (inDrawing (map realSeg corner)) (pnt (3 / 8) (-14 / 8)) (pnt (64 / 8) (20 / 8)).
Proof.
  assert (V : forall a b, (Z.abs a <= 64)%Z -> (Z.abs b <= 64)%Z -> realPt (p8 a b) = pnt (IZR a / 8) (IZR b / 8)).
  { intros a b Ha Hb. destruct (p8_val a b ltac:(lia) ltac:(lia)) as (_ & E1 & E2). unfold realPt. rewrite E1, E2. reflexivity. }
  assert (D : forall x y, inDrawing (map realSeg corner) x y -> 3 / 8 <= x <= 64 / 8 /\ -14 / 8 <= y <= 20 / 8).
  { intros x y O. apply inDrawing_real in O as (g & I & t & Ht & O). unfold corner in I. cbn [drawn] in I. destruct I as [<-|[<-|[<-|[]]]]; cbn [realSeg] in O; rewrite !V, !pnt_X, !pnt_Y in O by lia; destruct O as [-> ->]; lra. }
  assert (C : forall a b, In (a, b) [(3, 20); (64, 20); (3, -14)]%Z -> inDrawing (map realSeg corner) (IZR a / 8) (IZR b / 8)).
  { intros a b I. assert (Q : exists s n, In (Line s n) (drawn corner) /\ s = p8 a b) by (unfold corner; cbn [drawn]; destruct I as [I|[I|[I|[]]]]; injection I as <- <-; eexists; eexists; (split; [|reflexivity]); cbn [In]; auto 6).
    destruct Q as (s & n & Q & ->). apply inDrawing_real. exists (Line (p8 a b) n). split; [exact Q|]. exists 0. split; [lra|]. cbn [realSeg]. rewrite V by (destruct I as [I|[I|[I|[]]]]; injection I as <- <-; lia). rewrite pnt_X, pnt_Y. split; ring. }
  split; [reflexivity|]. split; [reflexivity|]. rewrite !pnt_X, !pnt_Y. split; (split; [intros u [v O]; apply D in O; tauto|]).
  - split; eexists; [apply (C 3 20)%Z|apply (C 64 20)%Z]; cbn; auto.
  - split; eexists; [apply (C 3 (-14))%Z|apply (C 3 20)%Z]; cbn; auto.
Qed.
Lemma rnd_eighths m : (Z.abs m <= 2 ^ 53)%Z -> rnd (IZR m / 8) = IZR m / 8.
Proof. intros H. apply (rnd_grid (-3) m); [lia|exact H]. Qed.
