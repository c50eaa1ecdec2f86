(** C40: parallel offsets are parallel at the requested distance. *)
From Coq Require Import String List ZArith NArith Bool Lia Reals Lra Psatz.
From Verif Require Import Num FloatNum RealNum PathModel DrawModel SegOps TransformsModel SvgParse OffsetModel Bezier PathSpec PathProofs GeomSpec BezierProofs GeomProofs
  TextProofs PrecisionProofs SvgProofs LineGeom Witness.
Import ListNotations.
Local Open Scope R_scope.

(** (ax, ay) - (bx, by) is the line (x1, y1) - (x2, y2) displaced at right angles by the distance |d|, to the side
    given by the sign of d (the sign of the cross product of the direction with the displacement) *)
Definition parallelAt (d x1 y1 x2 y2 ax ay bx by_ : R) : Prop :=
  exists ux uy, ax = x1 + ux /\ ay = y1 + uy /\ bx = x2 + ux /\ by_ = y2 + uy /\
    ux * (x2 - x1) + uy * (y2 - y1) = 0 /\ sqrt (ux ^ 2 + uy ^ 2) = Rabs d /\
    (x2 - x1) * uy - (y2 - y1) * ux = - d * sqrt ((x2 - x1) ^ 2 + (y2 - y1) ^ 2).

Lemma length_pos x1 y1 x2 y2 : (x1, y1) <> (x2, y2) -> 0 < (x1 - x2) * (x1 - x2) + (y1 - y2) * (y1 - y2).
Proof.
  intros H. assert (x1 - x2 <> 0 \/ y1 - y2 <> 0).
  { destruct (Req_dec x1 x2); [right|left]; [|lra]. intros E. apply H. f_equal; lra. }
  pose proof (Rle_0_sqr (x1 - x2)) as A. pose proof (Rle_0_sqr (y1 - y2)) as B. unfold Rsqr in *.
  destruct H0 as [Z|Z]; pose proof (Rsqr_pos_lt _ Z) as C; unfold Rsqr in C; lra.
Qed.

Lemma Parallel_fin d x1 y1 x2 y2 : (x1, y1) <> (x2, y2) ->
  let l := sqrt ((x1 - x2) * (x1 - x2) + (y1 - y2) * (y1 - y2)) in
  Parallel (pnt x1 y1) (pnt x2 y2) (Fin d : T RNum) =
  (pnt (x1 + d * (y2 - y1) / l) (y1 + d * (x1 - x2) / l), pnt (x2 + d * (y2 - y1) / l) (y2 + d * (x1 - x2) / l)).
Proof.
  intros H l. pose proof (length_pos _ _ _ _ H) as P. assert (0 < l) by (apply sqrt_lt_R0; exact P).
  unfold Parallel. cbn [px py pnt]. fin. rewrite fsqrt by lra. fold l. rewrite !fdiv by lra. fin. rewrite !NewPoint_fin. reflexivity.
Qed.

Theorem C40_parallel d x1 y1 x2 y2 : (x1, y1) <> (x2, y2) -> exists ax ay bx by_,
  Parallel (pnt x1 y1) (pnt x2 y2) (Fin d : T RNum) = (pnt ax ay, pnt bx by_) /\ parallelAt d x1 y1 x2 y2 ax ay bx by_.
Proof.
  intros H. do 4 eexists. split; [apply Parallel_fin; auto|]. pose proof (length_pos _ _ _ _ H) as P.
  set (q := (x1 - x2) * (x1 - x2) + (y1 - y2) * (y1 - y2)) in *. set (l := sqrt q).
  assert (L : 0 < l) by (apply sqrt_lt_R0; exact P). assert (LL : l * l = q) by (apply sqrt_sqrt; lra).
  exists (d * (y2 - y1) / l), (d * (x1 - x2) / l). do 4 (split; [reflexivity|]). split; [field; lra|]. split.
  - rewrite <- sqrt_Rsqr_abs. f_equal. unfold Rsqr.
    replace ((d * (y2 - y1) / l) ^ 2 + (d * (x1 - x2) / l) ^ 2) with (d * d * q / (l * l)) by (unfold q; field; lra).
    rewrite LL. field. lra.
  - replace ((x2 - x1) ^ 2 + (y2 - y1) ^ 2) with q by (unfold q; ring). fold l.
    replace ((x2 - x1) * (d * (x1 - x2) / l) - (y2 - y1) * (d * (y2 - y1) / l)) with (- d * q / l) by (unfold q; field; lra).
    rewrite <- LL. field. lra.
Qed.
Print Assumptions C40_parallel.

(** Offset of a line (or move) that has an extent to the operators' precision is that parallel, at distance -d; shorter ones vanish *)
Theorem C40_offset_line co n d x1 y1 x2 y2 :
  (agree n x1 x2 /\ agree n y1 y2 -> Offset co (Z.of_nat n) (Line (pnt x1 y1) (pnt x2 y2)) (Fin d : T RNum) = Ok []) /\
  (~ (agree n x1 x2 /\ agree n y1 y2) -> exists ax ay bx by_,
     Offset co (Z.of_nat n) (Line (pnt x1 y1) (pnt x2 y2)) (Fin d : T RNum) = Ok [Line (pnt ax ay) (pnt bx by_)] /\
     Offset co (Z.of_nat n) (Move (pnt x1 y1) (pnt x2 y2)) (Fin d : T RNum) = Ok [Move (pnt ax ay) (pnt bx by_)] /\
     parallelAt (- d) x1 y1 x2 y2 ax ay bx by_).
Proof.
  unfold Offset. cbn [sstart send].
  assert (E : EqualsPrecision (pnt x1 y1) (pnt x2 y2) (Z.of_nat n) = true <-> agree n x1 x2 /\ agree n y1 y2) by apply EqualsPrecision_coord.
  destruct (EqualsPrecision _ _ _).
  - split; [reflexivity|]. intros H. exfalso. apply H, E. reflexivity.
  - split; [intros H; apply E in H; discriminate|]. intros H.
    assert (D : (x1, y1) <> (x2, y2)) by (intros Q; injection Q as -> ->; apply H; split; apply agree_refl).
    fin. destruct (C40_parallel (- d) x1 y1 x2 y2 D) as (ax & ay & bx & by_ & E' & PA). rewrite E'. eauto 10.
Qed.
Print Assumptions C40_offset_line.

(** distance zero changes nothing: any float type, any path *)
Theorem C40_zero_distance (N : Num) (co : CurveOps N) dop jfuel roomy fuel size prec d (p : path N) : eqb d zero = true ->
  OffsetT co dop jfuel roomy fuel size prec d p = Ok p.
Proof. intros E. destruct fuel; cbn [OffsetT]; rewrite E; reflexivity. Qed.
Print Assumptions C40_zero_distance.

(** a path of moves only is returned as it is *)
Theorem C40_nothing_drawn (N : Num) (co : CurveOps N) dop jfuel roomy fuel size prec d (p : path N) :
  drawn p = [] -> connected p -> OffsetT co dop jfuel roomy (S fuel) size prec d p = Ok p.
Proof.
  intros E C. cbn [OffsetT]. destruct (eqb d zero); [reflexivity|].
  destruct (SplitPathOnMove_spec p C) as [S1 S2].
  assert (SP : SplitPathOnMove p = []).
  { destruct (SplitPathOnMove p) as [|q r]; auto. exfalso. cbn in S1. 
    inversion S2 as [|? ? Hq Hr]; subst. apply Hq. rewrite E in S1. apply app_eq_nil in S1. apply S1. }
  rewrite SP. cbn [length Nat.ltb Nat.leb]. destruct (TrimMove_ends p) as [T|[(g & r & T & V) _]]; [rewrite T; reflexivity|].
  exfalso. pose proof (TrimMove_drawn p) as D. rewrite T, E, drawn_cons in D. apply visible_isMove in V. rewrite V in D. discriminate.
Qed.
Print Assumptions C40_nothing_drawn.

(** what is printed with n decimals is read back within half a unit of the last one *)
Lemma readback_near n x : exists y, readback (N:=RNum) n (Fin x) = Some (Fin y) /\ Rabs (x - y) <= / 10 ^ n.
Proof.
  unfold readback. cbn [fmtd RNum er_fmtd ofdec er_ofdec]. eexists. split; [reflexivity|].
  set (m := Rround_he (Rabs x * 10 ^ n)).
  assert (P : 0 < 10 ^ n) by (apply pow_lt; lra).
  assert (B : Rabs (IZR (Z.of_N m) - Rabs x * 10 ^ n) <= 1).
  { rewrite Rabs_minus_sym. apply Rle_trans with (1/2); [|lra]. apply Rround_he_spec. apply Rmult_le_pos; [apply Rabs_pos|lra]. }
  assert (E : powerRZ 10 (- Z.of_nat n) = / 10 ^ n).
  { destruct n; [cbn; field|]. cbn [Z.of_nat Z.opp powerRZ]. rewrite SuccNat2Pos.id_succ. reflexivity. }
  rewrite E. 
  assert (G : Rabs (Rabs x - IZR (Z.of_N m) * / 10 ^ n) <= / 10 ^ n).
  { replace (Rabs x - IZR (Z.of_N m) * / 10 ^ n) with (- ((IZR (Z.of_N m) - Rabs x * 10 ^ n) * / 10 ^ n)) by (field; lra).
    rewrite Rabs_Ropp, Rabs_mult, (Rabs_right (/ 10 ^ n)) by (apply Rle_ge, Rlt_le, Rinv_0_lt_compat; lra).
    rewrite <- (Rmult_1_l (/ 10 ^ n)) at 2. apply Rmult_le_compat_r; [apply Rlt_le, Rinv_0_lt_compat; lra|exact B]. }
  destruct (Rltb x 0) eqn:S.
  - apply Rltb_true in S. rewrite (Rabs_left x S) in G. 
    replace (x - -1 * IZR (Z.of_N m) * / 10 ^ n) with (- (- x - IZR (Z.of_N m) * / 10 ^ n)) by ring. rewrite Rabs_Ropp. exact G.
  - apply Rltb_false in S. rewrite (Rabs_right x) in G by lra. rewrite Rmult_1_l. exact G.
Qed.

(** *** strokes made of lines *)
(** a move, or a line between finite points *)
Definition lineOrMove (g : seg RNum) : Prop :=
  match g with Move _ _ => True | Line s e => finitePt s /\ finitePt e | Curve _ _ _ _ => False end.
(** the two ends of the segment differ to n decimals *)
Definition hasExtent (n : nat) (g : seg RNum) : bool := negb (EqualsPrecision (sstart g) (send g) (Z.of_nat n)).

(** h is the parallel of the line g at distance d, with coordinates off by at most eps *)
Definition nearParallel (eps d : R) (g h : seg RNum) : Prop :=
  exists x1 y1 x2 y2 ax ay bx by_ ax' ay' bx' by_',
    g = Line (pnt x1 y1) (pnt x2 y2) /\ parallelAt d x1 y1 x2 y2 ax ay bx by_ /\ h = Line (pnt ax' ay') (pnt bx' by_') /\
    Rabs (ax - ax') <= eps /\ Rabs (ay - ay') <= eps /\ Rabs (bx - bx') <= eps /\ Rabs (by_ - by_') <= eps.

Definition stroke (l : Pt RNum * Pt RNum) : list (seg RNum) := [Move zeroPt (fst l); Line (fst l) (snd l)].
Definition parOf (d : R) (g : seg RNum) (l : Pt RNum * Pt RNum) : Prop :=
  exists x1 y1 x2 y2 ax ay bx by_, g = Line (pnt x1 y1) (pnt x2 y2) /\ parallelAt d x1 y1 x2 y2 ax ay bx by_ /\ l = (pnt ax ay, pnt bx by_).

Lemma offsetSegs_lines co n d p : Forall lineOrMove p -> exists ls,
  offsetSegs co (Z.of_nat n) (Fin d : T RNum) p = Ok (flat_map stroke ls) /\
  Forall2 (parOf (- d)) (filter (hasExtent n) (drawn p)) ls.
Proof.
  induction p as [|g r IH]; intros H; [exists []; split; [reflexivity|constructor]|].
  inversion H as [|? ? Hg Hr]; subst. destruct (IH Hr) as (ls & E & F). cbn [offsetSegs]. rewrite drawn_cons.
  destruct g as [s e|s e|]; cbn [isMove]; [exists ls; split; assumption| |destruct Hg].
  destruct Hg as [Fs Fe]. rewrite (pnt_eta _ Fs), (pnt_eta _ Fe). clear Fs Fe.
  set (x1 := X s). set (y1 := Y s). set (x2 := X e). set (y2 := Y e).
  destruct (C40_offset_line co n d x1 y1 x2 y2) as [O1 O2].
  cbn [app filter]. unfold hasExtent at 1. cbn [sstart send].
  assert (EP : EqualsPrecision (pnt x1 y1) (pnt x2 y2) (Z.of_nat n) = true <-> agree n x1 x2 /\ agree n y1 y2) by apply EqualsPrecision_coord.
  destruct (EqualsPrecision (pnt x1 y1) (pnt x2 y2) (Z.of_nat n)); cbn [negb].
  - rewrite O1 by (apply EP; reflexivity). cbn [bind]. rewrite E. cbn [bind]. exists ls. split; [reflexivity|exact F].
  - destruct O2 as (ax & ay & bx & by_ & O & _ & PA); [intros Q; apply EP in Q; discriminate|].
    rewrite O. cbn [bind]. rewrite E. cbn [bind sstart]. exists ((pnt ax ay, pnt bx by_) :: ls).
    split; [reflexivity|]. constructor; [|exact F]. exists x1, y1, x2, y2, ax, ay, bx, by_. auto.
Qed.

Lemma reads_finite n x y q : reads_pt n (pnt x y) q -> exists x' y', q = pnt x' y' /\ Rabs (x - x') <= / 10 ^ n /\ Rabs (y - y') <= / 10 ^ n.
Proof.
  intros (a & b & Ea & Eb & ->). destruct (readback_near n x) as (x' & Ex & Bx). destruct (readback_near n y) as (y' & Ey & By).
  cbn [px py pnt] in *. rewrite Ea in Ex. rewrite Eb in Ey. injection Ex as ->. injection Ey as ->. exists x', y'. rewrite NewPoint_fin. auto.
Qed.

Lemma readable_R n (p : path RNum) : Forall (readable n) p.
Proof.
  assert (X : forall x : ER, readback (N:=RNum) n x <> None) by (intros [| |]; discriminate).
  apply Forall_forall. intros [| |] _; repeat split; apply X.
Qed.

Lemma reads_strokes n d gs ls : Forall2 (parOf d) gs ls -> forall c q,
  Forall2 (reads_seg n) (flat_map stroke ls) q -> linked c q -> Forall2 (nearParallel (/ 10 ^ n) d) gs (drawn q).
Proof.
  induction 1 as [|g l gs ls (x1 & y1 & x2 & y2 & ax & ay & bx & by_ & Eg & PA & El) F IH]; intros c q R L.
  - inversion R. constructor.
  - subst l. cbn [flat_map stroke app fst snd] in R. inversion R as [|m1 m2 ? q1 R1 R']; subst. inversion R' as [|l1 l2 ? q2 R2 R3]; subst.
    destruct m2 as [ms me| |]; try contradiction. destruct l2 as [|s' e'|]; try contradiction. cbn [reads_seg] in R1, R2.
    cbn [linked sstart send] in L. destruct L as (_ & -> & L).
    rewrite !drawn_cons. cbn [isMove app]. constructor; [|apply (IH _ _ R3 L)].
    destruct (reads_finite _ _ _ _ R1) as (a1 & b1 & -> & B1 & B2). destruct (reads_finite _ _ _ _ R2) as (a2 & b2 & -> & B3 & B4).
    exists x1, y1, x2, y2, ax, ay, bx, by_, a1, b1, a2, b2. auto 10.
Qed.

Lemma NPFS_strokes (ls : list (Pt RNum * Pt RNum)) : NewPathFromSegments (flat_map stroke ls) = flat_map stroke ls.
Proof. destruct ls; cbn; [reflexivity|]. destruct (_ || _); reflexivity. Qed.

(** The strokes handed to the joining step: for a stroke made of lines, one per line that has an extent, in order, each the
    parallel of its line at the distance asked for, up to the seven decimals kept by Rebuild.  (C11 says what joining does.) *)
Theorem C40_polyline_strokes co n d p : Forall lineOrMove p -> exists segs q,
  offsetSegs co (Z.of_nat n) (Fin d : T RNum) p = Ok segs /\ Rebuild (NewPathFromSegments segs) = Ok q /\
  Forall2 (nearParallel (/ 10 ^ 7) (- d)) (filter (hasExtent n) (drawn p)) (drawn q).
Proof.
  intros H. destruct (offsetSegs_lines co n d p H) as (ls & E & F). exists (flat_map stroke ls). rewrite E, NPFS_strokes.
  unfold Rebuild. destruct (Parse_reads 7 (flat_map stroke ls) (readable_R 7 _)) as (q & EP & R & L). exists q.
  split; [reflexivity|]. split; [exact EP|]. eapply reads_strokes; eauto.
Qed.
Print Assumptions C40_polyline_strokes.

(** *** a single line through the whole transform *)
Lemma ptEquals_refl_pnt x y : ptEquals (pnt x y) (pnt x y) = true.
Proof. unfold ptEquals. cbn [px py pnt eqb RNum er_eqb]. rewrite !(proj2 (Reqb_true _ _)); auto. Qed.
Lemma isnan_fin x : isnan (Fin x : T RNum) = false. Proof. reflexivity. Qed.
Lemma zero_eqb : eqb (zero : T RNum) zero = true.
Proof. apply Reqb_true. reflexivity. Qed.
Lemma origin_pnt : @origin RNum = pnt 0 0. Proof. exact (NewPoint_fin 0 0). Qed.

Section Single.
Variables x1 y1 x2 y2 : R.
Notation one := [Move origin (pnt x1 y1); Line (pnt x1 y1) (pnt x2 y2)].
Lemma NPFS_one : NewPathFromSegments one = one.
Proof. unfold NewPathFromSegments. cbn [isMove FixHeadMove]. rewrite origin_pnt. cbn [px py pnt]. fold (@zero RNum). change (Fin 0) with (@zero RNum). rewrite zero_eqb. reflexivity. Qed.
Lemma dedup_one prec : dedupOnce prec one = Ok one.
Proof. unfold dedupOnce. cbn [dedup_loop isMove Reverse UniqueString append String.eqb Ascii.eqb Bool.eqb bind rev app]. rewrite NPFS_one. reflexivity. Qed.
Lemma fix_one : FixHeadMove one = one.
Proof. exact NPFS_one. Qed.
Lemma Cleanup_one prec : Cleanup prec one = one.
Proof.
  unfold Cleanup.
  assert (E : cleanup_loop prec true zeroPt one = one).
  { cbn [cleanup_loop isMove app]. change (hasNaNEnd (Move origin (pnt x1 y1))) with false. cbn [sstart send].
    rewrite ptEquals_refl_pnt. reflexivity. }
  rewrite E.
  rewrite fix_one. cbn [mergeMoves merge_loop isMove andb]. apply NPFS_one.
Qed.
Lemma Dedup_one prec : Dedup prec one = Ok one.
Proof. unfold Dedup. rewrite !dedup_one. cbn [bind]. rewrite dedup_one. cbn [bind]. rewrite Cleanup_one. reflexivity. Qed.
Lemma Split_one o : exists m, SplitPathOnMove [Move o (pnt x1 y1); Line (pnt x1 y1) (pnt x2 y2)] = [[Move m (pnt x1 y1); Line (pnt x1 y1) (pnt x2 y2)]].
Proof.
  unfold SplitPathOnMove. cbn [split_loop negb andb isMove].
  assert (E : exists m, AddSegment NewDraw (Move o (pnt x1 y1)) = [Move m (pnt x1 y1)]).
  { unfold AddSegment, NewDraw. cbn [isMove CurrentPosition sstart setStart app]. destruct (ptEquals _ _); eauto. }
  destruct E as (m & ->). exists m. unfold AddSegment. cbn [CurrentPosition last send sstart]. rewrite ptEquals_refl_pnt. reflexivity.
Qed.
Lemma Reorder_one prec : Reorder prec one = Ok one.
Proof. unfold Reorder. destruct (Split_one origin) as (m & ->). reflexivity. Qed.
Lemma join_one co dop prec fuel : TransformsModel.join co dop (S (S fuel)) prec [] one = Ok [Line (pnt x1 y1) (pnt x2 y2)].
Proof. reflexivity. Qed.
Lemma JoinT_one co dop jfuel roomy prec : JoinT co dop (S (S jfuel)) roomy false prec one = Ok one.
Proof.
  unfold JoinT. rewrite Dedup_one. cbn [bind]. rewrite Reorder_one. cbn [bind]. rewrite join_one. cbn [bind].
  f_equal. exact NPFS_one.
Qed.
End Single.

(** A path that is one line, at least 10^-n long in one coordinate, goes through the whole transform to the parallel at the distance asked for, to
    seven decimals.  (The operators negate the distance: a positive one
    moves to the side where the cross product of direction and displacement is positive.) *)
Theorem C40_single_line co n jfuel roomy fuel prec d o x1 y1 x2 y2 : d <> 0 ->
  ~ (agree n x1 x2 /\ agree n y1 y2) -> exists q h,
  OffsetT co (Z.of_nat n) (S (S jfuel)) roomy (S fuel) Unknown prec (Fin d : T RNum) [Move o (pnt x1 y1); Line (pnt x1 y1) (pnt x2 y2)] = Ok q /\
  q = [Move (pnt 0 0) (sstart h); h] /\ nearParallel (/ 10 ^ 7) (- d) (Line (pnt x1 y1) (pnt x2 y2)) h.
Proof.
  intros Hd Hlong. cbn [OffsetT].
  assert (Hne : (x1, y1) <> (x2, y2)) by (intros Q; injection Q as -> ->; apply Hlong; split; apply agree_refl).
  assert (Z : eqb (Fin d : T RNum) zero = false) by (apply Bool.not_true_iff_false; intros E; apply Reqb_true in E; auto).
  rewrite Z. destruct (Split_one x1 y1 x2 y2 o) as (m & ->). cbn [length Nat.ltb Nat.leb TrimMove isMove TrimTailMove dropMoves rev app].
  unfold offsetStroke. cbn [TrimMove isMove TrimTailMove dropMoves rev app].
  assert (NC : isClosed [Line (pnt x1 y1) (pnt x2 y2)] = false).
  { unfold isClosed. cbn [sstart last send]. apply Bool.not_true_iff_false. unfold ptEquals. cbn [px py pnt]. intros E.
    apply andb_true_iff in E. destruct E as [E1 E2]. apply Reqb_true in E1, E2. apply Hne. congruence. }
  rewrite NC.
  destruct (C40_offset_line co n d x1 y1 x2 y2) as [_ O2]. destruct (O2 Hlong) as (ax & ay & bx & by_ & O & _ & PA).
  cbn [offsetSegs isMove]. rewrite O. cbn [bind sstart app].
  change [Move zeroPt (pnt ax ay); Line (pnt ax ay) (pnt bx by_)] with (flat_map stroke [(pnt ax ay, pnt bx by_)]).
  rewrite NPFS_strokes. unfold Rebuild. destruct (Parse_reads 7 _ (readable_R 7 (flat_map stroke [(pnt ax ay, pnt bx by_)]))) as (q & -> & R & L).
  cbn [flat_map stroke app fst snd] in R. inversion R as [|m1 m2 ? q1 R1 R']; subst. inversion R' as [|l1 l2 ? q2 R2 R3]; subst. inversion R3; subst.
  destruct m2 as [ms me| |]; try contradiction. destruct l2 as [|s' e'|]; try contradiction. cbn [reads_seg] in R1, R2.
  cbn [linked sstart send] in L. destruct L as (-> & -> & _).
  destruct (reads_finite _ _ _ _ R1) as (a1 & b1 & -> & B1 & B2). destruct (reads_finite _ _ _ _ R2) as (a2 & b2 & -> & B3 & B4).
  cbn [bind]. rewrite JoinT_one. cbn [bind]. eexists. exists (Line (pnt a1 b1) (pnt a2 b2)). split; [reflexivity|]. split; [unfold origin; change (@zero RNum) with (Fin 0 : T RNum); rewrite (NewPoint_fin 0 0); reflexivity|].
  exists x1, y1, x2, y2, ax, ay, bx, by_, a1, b1, a2, b2. auto 10.
Qed.
Print Assumptions C40_single_line.

(** Told which way the size should go, the transform keeps what it gets for a stroke if that is smaller (or larger) in both directions, and otherwise
    takes the offset of the stroke drawn backwards, which lies on the other side. *)
Theorem C40_size tr bm bf n jfuel roomy fuel prec d p q tl br tl' br' : let co := BezierOps tr bm bf in
  d <> 0 -> (length (SplitPathOnMove p) <= 1)%nat -> Forall tame p -> Forall tame q -> tightBox (inDrawing p) tl br -> tightBox (inDrawing q) tl' br' ->
  OffsetT co n jfuel roomy (S fuel) Unknown prec (Fin d : T RNum) p = Ok q ->
  let back := OffsetT co n jfuel roomy fuel Unknown prec (Fin d : T RNum) (PathReverse p) in
  (X br' - X tl' < X br - X tl /\ Y br' - Y tl' < Y br - Y tl -> OffsetT co n jfuel roomy (S fuel) Smaller prec (Fin d : T RNum) p = Ok q) /\
  (~ (X br' - X tl' < X br - X tl /\ Y br' - Y tl' < Y br - Y tl) -> OffsetT co n jfuel roomy (S fuel) Smaller prec (Fin d : T RNum) p = back) /\
  (X br - X tl < X br' - X tl' /\ Y br - Y tl < Y br' - Y tl' -> OffsetT co n jfuel roomy (S fuel) Larger prec (Fin d : T RNum) p = Ok q) /\
  (~ (X br - X tl < X br' - X tl' /\ Y br - Y tl < Y br' - Y tl') -> OffsetT co n jfuel roomy (S fuel) Larger prec (Fin d : T RNum) p = back).
Proof.
  intros co Hd HS Tp Tq Bp Bq. cbn [OffsetT].
  assert (Z : eqb (Fin d : T RNum) zero = false) by (apply Bool.not_true_iff_false; intros E; apply Reqb_true in E; auto).
  rewrite Z. destruct (Nat.ltb_spec 1 (length (SplitPathOnMove p))); [lia|].
  assert (Dp : drawn p <> []) by (intros E; destruct Bp as (_ & _ & (_ & (y & D) & _) & _); apply inDrawing_drawn in D; destruct D as (g & I & _); rewrite E in I; exact I).
  assert (Dq : drawn q <> []) by (intros E; destruct Bq as (_ & _ & (_ & (y & D) & _) & _); apply inDrawing_drawn in D; destruct D as (g & I & _); rewrite E in I; exact I).
  destruct (TrimMove p) as [|g r] eqn:ET; [exfalso; apply Dp; rewrite <- TrimMove_drawn, ET; reflexivity|].
  intros E. destruct (offsetStroke co n jfuel roomy prec (Fin d) p) as [q'| | |] eqn:EO; cbn [bind] in E; try discriminate. injection E as ->. cbn [bind].
  destruct (BoundingBoxTrimWhitespace_tight co (BezierOps_boxOk tr bm bf) p Tp Dp) as (a & b & Ea & Ba). destruct (tightBox_unique _ _ _ _ _ Bp Ba) as [<- <-].
  destruct (BoundingBoxTrimWhitespace_tight co (BezierOps_boxOk tr bm bf) q Tq Dq) as (a & b & Eb & Bb). destruct (tightBox_unique _ _ _ _ _ Bq Bb) as [<- <-].
  unfold shouldReverse. rewrite Ea, Eb. cbn [bind]. destruct Bp as (F1 & F2 & _), Bq as (F3 & F4 & _).
  rewrite !(px_fin _ F1), !(py_fin _ F1), !(px_fin _ F2), !(py_fin _ F2), !(px_fin _ F3), !(py_fin _ F3), !(px_fin _ F4), !(py_fin _ F4). unfold geb. fin.
  repeat split; intros C; repeat match goal with |- context [Rleb ?u ?v] => destruct (Rleb_spec u v) end; cbn [orb]; try reflexivity; exfalso; try lra; apply C; split; lra.
Qed.
Print Assumptions C40_size.

(** *** examples *)
(** a 3-4-5 line moved by 5 *)
Example C40_example : parallelAt 5 0 0 4 3 3 (-4) 7 (-1) /\ (0, 0) <> (4, 3) /\ ~ (agree 3 0 4 /\ agree 3 0 3).
Proof.
  split; [|split].
  - exists 3, (-4). repeat split; try lra.
    + replace (3 ^ 2 + (-4) ^ 2) with (5 * 5) by lra. rewrite sqrt_square by lra. rewrite Rabs_right; lra.
    + replace ((4 - 0) ^ 2 + (3 - 0) ^ 2) with (5 * 5) by lra. rewrite sqrt_square by lra. lra.
  - intros E. injection E. lra.
  - intros [A _]. apply agree_close in A. assert (P : 10 ^ 3 = 1000) by lra. rewrite P, Rabs_left in A by lra. lra.
Qed.
(** a corner made of two lines, and a far away one, all with an extent *)
Example C40_example_lines : Forall lineOrMove [Move (pnt 0 0) (pnt 1 1); Line (pnt 1 1) (pnt 5 1); Line (pnt 5 1) (pnt 5 9)].
Proof. repeat constructor. Qed.
Example C40_example_drawn : exists p : path RNum, drawn p = [] /\ connected p /\ length p = 2%nat.
Proof. exists [Move (pnt 0 0) (pnt 1 1); Move (pnt 1 1) (pnt 5 1)]. repeat split. repeat constructor. Qed.
(** the whole transform on binary64: a rectangle, offset inwards, and outwards when it is told to grow *)
Definition rect : path FNum := [mv 0 0 1 1; ln 1 1 5 1; ln 5 1 5 9; ln 5 9 1 9; ln 1 9 1 1].
Example C40_example_run :
  OffsetT noCurves 3 100 true 3 Unknown 3 (fz 1) rect = Ok [mv 0 0 2 2; ln 2 2 4 2; ln 4 2 4 8; ln 4 8 2 8; ln 2 8 2 2] /\
  OffsetT noCurves 3 100 true 3 Larger 3 (fz 1) rect = Ok [mv 0 0 0 0; ln 0 0 0 10; ln 0 10 6 10; ln 6 10 6 0; ln 6 0 0 0].
Proof. split; byr. Qed.

(** a level line, offset to be smaller: its parallel is not lower, so the offset is taken of the line drawn backwards *)
Example C40_size_example tr bm bf jfuel roomy fuel prec d : d <> 0 -> let p := [Move (pnt 0 0) (pnt 1 1); Line (pnt 1 1) (pnt 5 1)] in
  exists q tl br tl' br', OffsetT (BezierOps tr bm bf) (Z.of_nat 3) (S (S jfuel)) roomy (S fuel) Unknown prec (Fin d : T RNum) p = Ok q /\
  Forall tame q /\ tightBox (inDrawing p) tl br /\ tightBox (inDrawing q) tl' br' /\ ~ (X br' - X tl' < X br - X tl /\ Y br' - Y tl' < Y br - Y tl) /\
  OffsetT (BezierOps tr bm bf) (Z.of_nat 3) (S (S jfuel)) roomy (S fuel) Smaller prec (Fin d : T RNum) p =
  OffsetT (BezierOps tr bm bf) (Z.of_nat 3) (S (S jfuel)) roomy fuel Unknown prec (Fin d : T RNum) (PathReverse p).
Proof.
  intros Hd p.
  assert (NA : ~ (agree 3 1 5 /\ agree 3 1 1)). { intros [A _]. apply agree_close in A. assert (P : 10 ^ 3 = 1000) by lra. rewrite P, Rabs_left in A by lra. lra. }
  destruct (C40_single_line (BezierOps tr bm bf) 3 jfuel roomy fuel prec d (pnt 0 0) 1 1 5 1 Hd NA) as (q & h & E & Q & NP).
  destruct NP as (x1 & y1 & x2 & y2 & ax & ay & bx & by_ & a1 & b1 & a2 & b2 & _ & _ & Hh & _).
  assert (Tq : Forall tame q) by (rewrite Q, Hh; repeat constructor).
  assert (Tp : Forall tame p) by (repeat constructor).
  destruct (BoundingBoxTrimWhitespace_tight _ (BezierOps_boxOk tr bm bf) p Tp ltac:(discriminate)) as (tl & br & _ & Bp).
  destruct (BoundingBoxTrimWhitespace_tight _ (BezierOps_boxOk tr bm bf) q Tq) as (tl' & br' & _ & Bq); [rewrite Q, Hh; discriminate|].
  assert (NL : ~ (X br' - X tl' < X br - X tl /\ Y br' - Y tl' < Y br - Y tl)).
  { intros [_ B]. destruct Bp as (_ & _ & _ & (_ & (xa & Da) & (xb & Db))). destruct Bq as (_ & _ & _ & (RY & I1 & _)). apply RY in I1.
    apply inDrawing_drawn in Da, Db. destruct Da as (g1 & [<-|[]] & t1 & _ & _ & Y1). destruct Db as (g2 & [<-|[]] & t2 & _ & _ & Y2).
    unfold Y, pnt in Y1, Y2; cbn [py val] in Y1, Y2. unfold Y in B, I1. lra. }
  exists q, tl, br, tl', br'. split; [exact E|]. split; [exact Tq|]. split; [exact Bp|]. split; [exact Bq|]. split; [exact NL|].
  destruct (Split_one 1 1 5 1 (pnt 0 0)) as (m & SP).
  apply (C40_size tr bm bf (Z.of_nat 3) _ roomy fuel prec d p q tl br tl' br' Hd); auto. unfold p. rewrite SP. cbn. lia.
Qed.
