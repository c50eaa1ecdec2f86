(** C69: the attributes of a path, by name. *)
From Coq Require Import String Ascii List ZArith Bool Reals Lra Lia.
From Verif Require Import Num FloatNum RealNum RealTrig PathModel DrawModel SegOps SvgParse Bezier GeomTransforms PathSpec GeomSpec PathProofs BezierProofs GeomProofs HandleProofs PrecisionProofs SvgProofs DynModel SvgElement AttrText Witness CompProofs TextProofs.
Import ListNotations.
Local Open Scope R_scope.
Local Open Scope string_scope.
Local Open Scope list_scope.

(** the names of the points of a box: how far to the right and how far down *)
Definition boxNames : list (string * (R * R)) :=
  [("$TOP_LEFT", (0, 0)); ("$TOP_MIDDLE", (1 / 2, 0)); ("$TOP_RIGHT", (1, 0));
   ("$MIDDLE_LEFT", (0, 1 / 2)); ("$MIDDLE_MIDDLE", (1 / 2, 1 / 2)); ("$MIDDLE_RIGHT", (1, 1 / 2));
   ("$BOTTOM_LEFT", (0, 1)); ("$BOTTOM_MIDDLE", (1 / 2, 1)); ("$BOTTOM_RIGHT", (1, 1))].
Definition places (tl br : Pt RNum) (f : R * R) (x y : R) : Prop := x = X tl + fst f * (X br - X tl) /\ y = Y tl + snd f * (Y br - Y tl).

Lemma splitComma_none s : hasComma s = false -> splitComma s = [s].
Proof. induction s as [|c r IH]; intros H; [reflexivity|]. cbn [hasComma] in H. apply orb_false_iff in H. destruct H as [H1 H2]. cbn [splitComma]. rewrite H1, IH by exact H2. reflexivity. Qed.
Lemma named {N : Num} co s w ws (p : path N) : hasComma s = false -> splitDots s = w :: ws -> PathAttributeText co s p = PathAttribute co (attrNamed w) (subNamed ws) p.
Proof. intros HC HS. unfold PathAttributeText, parsePoint. rewrite splitComma_none by exact HC. rewrite HS. reflexivity. Qed.
Lemma subfields {N : Num} co a tl br (p : path N) q : BoundingBoxTrimWhitespace co p = Ok (tl, br) -> PathAttribute co a NoSub p = Ok (VPoint q) -> In a [ATopLeft; ATopRight; ATopMiddle; ABottomLeft; ABottomRight; ABottomMiddle; AMiddleLeft; AMiddleRight; AMiddleMiddle] ->
  PathAttribute co a SubX p = Ok (VNum (px q)) /\ PathAttribute co a SubY p = Ok (VNum (py q)) /\ PathAttribute co a SubOther p = Err.
Proof.
  intros E H I. cbn [In] in I. unfold PathAttribute in *. rewrite E in *. cbn [bind] in *.
  repeat destruct I as [<-|I]; try contradiction; cbn [subfield] in *; injection H as <-; auto.
Qed.

(** Each of the nine names is that point of the exact box of what is drawn; with .X or .Y it is the coordinate, with any other field it is an
    error; $WIDTH and $HEIGHT are the size of the box. *)
Theorem C69_box tr bm fuel (p : path RNum) : Forall tame p -> drawn p <> [] ->
  exists tl br, tightBox (inDrawing p) tl br /\
    (forall name f, In (name, f) boxNames -> exists x y, places tl br f x y /\
       PathAttributeText (BezierOps tr bm fuel) name p = Ok (VPoint (pnt x y)) /\
       PathAttributeText (BezierOps tr bm fuel) (name ++ ".X")%string p = Ok (VNum (Fin x : T RNum)) /\
       PathAttributeText (BezierOps tr bm fuel) (name ++ ".Y")%string p = Ok (VNum (Fin y : T RNum)) /\
       PathAttributeText (BezierOps tr bm fuel) (name ++ ".Z")%string p = Err) /\
    PathAttributeText (BezierOps tr bm fuel) "$WIDTH" p = Ok (VNum (Fin (X br - X tl) : T RNum)) /\
    PathAttributeText (BezierOps tr bm fuel) "$HEIGHT" p = Ok (VNum (Fin (Y br - Y tl) : T RNum)).
Proof.
  intros HT HD. destruct (BoundingBoxTrimWhitespace_tight _ (BezierOps_boxOk tr bm fuel) p HT HD) as (tl & br & E & B). exists tl, br. split; [exact B|].
  destruct B as (F1 & F2 & _). split.
  - intros name f H. exists (X tl + fst f * (X br - X tl)), (Y tl + snd f * (Y br - Y tl)). split; [split; reflexivity|].
    assert (G : exists a, attrNamed name = a /\ boxFraction a = Some f /\ hasComma name = false /\ hasComma (name ++ ".X")%string = false /\ hasComma (name ++ ".Y")%string = false /\ hasComma (name ++ ".Z")%string = false /\
      splitDots name = [name] /\ splitDots (name ++ ".X")%string = [name; "X"%string] /\ splitDots (name ++ ".Y")%string = [name; "Y"%string] /\ splitDots (name ++ ".Z")%string = [name; "Z"%string] /\
      In a [ATopLeft; ATopRight; ATopMiddle; ABottomLeft; ABottomRight; ABottomMiddle; AMiddleLeft; AMiddleRight; AMiddleMiddle]).
    { cbn [In boxNames] in H. repeat destruct H as [H|H]; try contradiction; injection H as <- <-; (eexists; split; [reflexivity|]); repeat (split; [reflexivity|]); cbn [In]; auto 12. }
    destruct G as (a & EA & EF & C0 & CX & CY & CZ & S0 & SX & SY & SZ & I). destruct f as [fx fy].
    pose proof (box_attr _ a fx fy tl br p F1 F2 E EF) as HA. unfold PointPathAttribute in HA. destruct (PathAttribute (BezierOps tr bm fuel) a NoSub p) as [[q|v]| | |] eqn:EP; cbn [bind] in HA; try discriminate. injection HA as ->.
    destruct (subfields _ a tl br p _ E EP I) as (HX & HY & HZ).
    rewrite (named _ _ _ _ p C0 S0), (named _ _ _ _ p CX SX), (named _ _ _ _ p CY SY), (named _ _ _ _ p CZ SZ), EA. cbn [subNamed String.eqb Ascii.eqb eqb].
    change (String.eqb "X" "X") with true. change (String.eqb "Y" "X") with false. change (String.eqb "Y" "Y") with true. cbv iota.
    split; [exact EP|]. split; [exact HX|]. split; [exact HY|exact HZ].
  - rewrite (named _ "$WIDTH" "$WIDTH" [] p eq_refl eq_refl), (named _ "$HEIGHT" "$HEIGHT" [] p eq_refl eq_refl). change (attrNamed "$WIDTH") with (@AWidth RNum). change (attrNamed "$HEIGHT") with (@AHeight RNum).
    unfold PathAttribute. rewrite E. cbn [bind]. rewrite (px_fin _ F1), (px_fin _ F2), (py_fin _ F1), (py_fin _ F2). fin. auto.
Qed.

(** The four ends: positions are those of the whole path, points those of what is drawn. *)
Theorem C69_ends tr bm fuel (p : path RNum) : Forall tame p -> drawn p <> [] ->
  (exists g r, p = g :: r /\ PathAttributeText (BezierOps tr bm fuel) "$START_POSITION" p = Ok (VPoint (sstart g))) /\
  (exists i g, p = i ++ [g] /\ PathAttributeText (BezierOps tr bm fuel) "$END_POSITION" p = Ok (VPoint (send g))) /\
  (exists g r, drawn p = g :: r /\ PathAttributeText (BezierOps tr bm fuel) "$START_POINT" p = Ok (VPoint (sstart g))) /\
  (exists i g, drawn p = i ++ [g] /\ PathAttributeText (BezierOps tr bm fuel) "$END_POINT" p = Ok (VPoint (send g))) /\
  PathAttributeText (BezierOps tr bm fuel) "$ORIGIN" p = Ok (VPoint (pnt 0 0)).
Proof.
  intros HT HD. destruct (trimBox _ (BezierOps_boxOk tr bm fuel) p HT) as (tl & br & E).
  rewrite (named _ "$START_POSITION" "$START_POSITION" [] p eq_refl eq_refl), (named _ "$END_POSITION" "$END_POSITION" [] p eq_refl eq_refl), (named _ "$START_POINT" "$START_POINT" [] p eq_refl eq_refl),
    (named _ "$END_POINT" "$END_POINT" [] p eq_refl eq_refl), (named _ "$ORIGIN" "$ORIGIN" [] p eq_refl eq_refl).
  change (attrNamed "$START_POSITION") with (@AStartPosition RNum). change (attrNamed "$END_POSITION") with (@AEndPosition RNum). change (attrNamed "$START_POINT") with (@AStartPoint RNum).
  change (attrNamed "$END_POINT") with (@AEndPoint RNum). change (attrNamed "$ORIGIN") with (@AOrigin RNum).
  unfold PathAttribute. rewrite E. cbn [bind].
  assert (NP : p <> []) by (intros ->; apply HD; reflexivity). pose proof (TrimMove_drawn p) as TD.
  split; [destruct p as [|g r]; [congruence|]; exists g, r; auto|]. split; [|split; [|split]].
  - destruct (snoc_of p NP) as (i & g & Eg). exists i, g. split; [exact Eg|]. assert (L : forall d, last p d = g) by (intros; rewrite Eg; apply last_last). destruct p; [congruence|]. rewrite L. reflexivity.
  - destruct (TrimMove_ends p) as [T0|[(g & r & T & V) _]]; [rewrite T0 in TD; cbn in TD; congruence|]. exists g, (drawn r). split; [rewrite <- TD, T; destruct g; [destruct V|reflexivity|reflexivity]|]. rewrite T. reflexivity.
  - destruct (TrimMove_ends p) as [T0|[_ (i & z & T & V)]]; [rewrite T0 in TD; cbn in TD; congruence|]. exists (drawn i), z. split; [rewrite <- TD, T, drawn_app; destruct z; [destruct V|reflexivity|reflexivity]|]. assert (L : forall d, last (TrimMove p) d = z) by (intros; rewrite T; apply last_last). destruct (TrimMove p); [destruct i; discriminate|]. rewrite L. reflexivity.
  - f_equal. f_equal. apply NewPoint_fin.
Qed.

(** *** points as text *)
Definition plain (c : ascii) : bool := negb (isBlank c) && negb (Ascii.eqb c ",").
Lemma dec_plain c : decCh c = true -> plain c = true.
Proof. destruct c as [[] [] [] [] [] [] [] []]; cbv; auto; discriminate. Qed.
Lemma render_plain n t : all_ch plain (render n t) = true.
Proof. destruct t as [|[]|s m]; try reflexivity. eapply all_ch_impl; [apply dec_plain|apply render_dec_chars]. Qed.
Lemma trim_plain s : all_ch plain s = true -> trim s = s.
Proof.
  intros H. unfold trim. assert (L : trimLeft s = s).
  { destruct s as [|c r]; [reflexivity|]. cbn [all_ch] in H. apply andb_prop in H. destruct H as [H _]. unfold plain in H. apply andb_prop in H. destruct H as [H _]. apply negb_true_iff in H. cbn [trimLeft]. rewrite H. reflexivity. }
  rewrite L. clear L. induction s as [|c r IH]; [reflexivity|]. cbn [all_ch] in H. apply andb_prop in H. destruct H as [H1 H2]. cbn [trimRight]. rewrite IH by exact H2.
  destruct r; [|reflexivity]. unfold plain in H1. apply andb_prop in H1. destruct H1 as [H1 _]. apply negb_true_iff in H1. rewrite H1. reflexivity.
Qed.
Lemma splitComma_two a b : all_ch plain a = true -> all_ch plain b = true -> splitComma (a ++ "," ++ b)%string = [a; b].
Proof.
  intros HA HB. assert (EB : splitComma b = [b]).
  { clear - HB. induction b as [|c r IH]; [reflexivity|]. cbn [all_ch] in HB. apply andb_prop in HB. destruct HB as [H1 H2]. unfold plain in H1. apply andb_prop in H1. destruct H1 as [_ H1]. apply negb_true_iff in H1. cbn [splitComma]. rewrite H1, IH by exact H2. reflexivity. }
  induction a as [|c r IH]; [cbn; rewrite EB; reflexivity|]. cbn [all_ch] in HA. apply andb_prop in HA. destruct HA as [H1 H2]. unfold plain in H1. apply andb_prop in H1. destruct H1 as [_ H1]. apply negb_true_iff in H1.
  cbn [append splitComma]. rewrite H1. change (r ++ String "," b)%string with (r ++ "," ++ b)%string. rewrite IH by exact H2. reflexivity.
Qed.
Lemma hasComma_two a b : hasComma (a ++ "," ++ b)%string = true.
Proof. induction a as [|c r IH]; [reflexivity|]. cbn [append hasComma]. change (r ++ String "," b)%string with (r ++ "," ++ b)%string. rewrite IH. apply orb_true_r. Qed.
Lemma readback_half n x : exists y, readback (N:=RNum) n (Fin x) = Some (Fin y) /\ Rabs (x - y) <= / 10 ^ n / 2.
Proof.
  unfold readback. cbn [fmtd RNum er_fmtd ofdec]. unfold er_ofdec. eexists. split; [reflexivity|].
  set (m := Rround_he (Rabs x * 10 ^ n)). assert (P : 0 < 10 ^ n) by (apply pow_lt; lra).
  assert (B : Rabs (Rabs x * 10 ^ n - IZR (Z.of_N m)) <= 1 / 2) by (apply Rround_he_spec; apply Rmult_le_pos; [apply Rabs_pos|lra]).
  assert (E : powerRZ 10 (- Z.of_nat n) = / 10 ^ n) by (destruct n; [cbn; field|]; cbn [Z.of_nat Z.opp powerRZ]; rewrite SuccNat2Pos.id_succ; reflexivity).
  rewrite E. assert (G : Rabs (Rabs x - IZR (Z.of_N m) * / 10 ^ n) <= / 10 ^ n / 2).
  { replace (Rabs x - IZR (Z.of_N m) * / 10 ^ n) with ((Rabs x * 10 ^ n - IZR (Z.of_N m)) * / 10 ^ n) by (field; lra).
    rewrite Rabs_mult, (Rabs_pos_eq (/ 10 ^ n)) by (apply Rlt_le, Rinv_0_lt_compat; lra). apply Rle_trans with (1 / 2 * / 10 ^ n); [apply Rmult_le_compat_r; [apply Rlt_le, Rinv_0_lt_compat; lra|exact B]|lra]. }
  destruct (Rltb_spec x 0).
  - rewrite (Rabs_left x) in G by lra. rewrite <- Rabs_Ropp. replace (- (x - -1 * IZR (Z.of_N m) * / 10 ^ n)) with (- x - IZR (Z.of_N m) * / 10 ^ n) by ring. exact G.
  - rewrite (Rabs_pos_eq x) in G by lra. replace (x - 1 * IZR (Z.of_N m) * / 10 ^ n) with (x - IZR (Z.of_N m) * / 10 ^ n) by ring. exact G.
Qed.

(** A point written by ToPathAttrFromPoint is accepted by ToPathAttr and is, for every path, that point to within half a unit of the last
    decimal in each direction. *)
Theorem C69_point co prec x y (p : path RNum) : exists x' y',
  ToPathAttr (N := RNum) (ToPathAttrFromPoint prec (pnt x y)) = Some (ToPathAttrFromPoint prec (pnt x y)) /\
  PathAttributeText co (ToPathAttrFromPoint prec (pnt x y)) p = Ok (VPoint (pnt x' y')) /\
  Rabs (x - x') <= / 10 ^ prec / 2 /\ Rabs (y - y') <= / 10 ^ prec / 2.
Proof.
  destruct (readback_half prec x) as (x' & EX & BX). destruct (readback_half prec y) as (y' & EY & BY). exists x', y'.
  assert (EP : parsePoint (ToPathAttrFromPoint prec (pnt x y)) = Some (pnt x' y')).
  { unfold parsePoint, ToPathAttrFromPoint. cbn [px py pnt]. rewrite splitComma_two by apply render_plain. rewrite !trim_plain by apply render_plain. rewrite !ToFloat64_fmt, EX, EY. f_equal. apply NewPoint_fin. }
  split; [|split; [|auto]].
  - unfold ToPathAttr. rewrite EP. unfold ToPathAttrFromPoint. rewrite hasComma_two. reflexivity.
  - unfold PathAttributeText. rewrite EP. reflexivity.
Qed.

(** Every name that ToPathAttr accepts, other than $CURSOR, has a value for every path that draws something. *)
Theorem C69_accepted tr bm fuel s (p : path RNum) : Forall tame p -> drawn p <> [] -> ToPathAttr (N := RNum) s = Some s -> s <> "$CURSOR"%string -> exists v, PathAttributeText (BezierOps tr bm fuel) s p = Ok v.
Proof.
  intros HT HD HS HC. unfold ToPathAttr in HS. destruct (hasComma s) eqn:EC.
  - destruct (parsePoint s) as [q|] eqn:EQ; [|discriminate]. exists (VPoint q). unfold PathAttributeText. rewrite EQ. reflexivity.
  - destruct (existsb (String.eqb s) enumAttr) eqn:EX; [|discriminate]. apply existsb_exists in EX. destruct EX as (n & Hn & En). apply String.eqb_eq in En. subst n.
    destruct (C69_box tr bm fuel p HT HD) as (tl & br & _ & HB & HW & HH). destruct (C69_ends tr bm fuel p HT HD) as ((g1 & r1 & _ & H1) & (i2 & g2 & _ & H2) & (g3 & r3 & _ & H3) & (i4 & g4 & _ & H4) & H5).
    assert (BN : forall f, In (s, f) boxNames -> exists v, PathAttributeText (BezierOps tr bm fuel) s p = Ok v) by (intros f Hf; destruct (HB s f Hf) as (x & y & _ & H & _); eauto).
    unfold enumAttr in Hn. cbn [In] in Hn. repeat destruct Hn as [<-|Hn]; try contradiction; eauto; try congruence; eapply BN; cbn [In boxNames]; auto 12.
Qed.
(** Anything else is an error: a text without commas whose part before the first dot is not one of the names. *)
Fixpoint hasDot (s : string) : bool := match s with ""%string => false | String c r => Ascii.eqb c "." || hasDot r end.
Lemma splitDots_head w r : hasDot w = false -> splitDots w = [w] /\ exists ws, splitDots (w ++ "." ++ r)%string = w :: ws.
Proof.
  induction w as [|c w IH]; intros H; [split; [reflexivity|]; exists (splitDots r); reflexivity|]. cbn [hasDot] in H. apply orb_false_iff in H. destruct H as [H1 H2]. destruct (IH H2) as (E1 & ws & E2).
  split; [cbn [splitDots]; rewrite H1, E1; reflexivity|]. exists ws. cbn [append splitDots]. rewrite H1. change (w ++ String "." r)%string with (w ++ "." ++ r)%string. rewrite E2. reflexivity.
Qed.
Lemma hasComma_app a b : hasComma (a ++ b)%string = hasComma a || hasComma b.
Proof. induction a as [|c a IH]; [reflexivity|]. cbn [append hasComma]. rewrite IH. apply orb_assoc. Qed.
Theorem C69_unknown tr bm fuel w r (p : path RNum) : Forall tame p -> hasDot w = false -> hasComma w = false -> hasComma r = false -> ~ In w enumAttr ->
  PathAttributeText (BezierOps tr bm fuel) w p = Err /\ PathAttributeText (BezierOps tr bm fuel) (w ++ "." ++ r)%string p = Err.
Proof.
  intros HT HD HW HR HN. destruct (trimBox _ (BezierOps_boxOk tr bm fuel) p HT) as (tl & br & E). destruct (splitDots_head w r HD) as (S1 & ws & S2).
  assert (EA : attrNamed w = @AUnknown RNum).
  { unfold attrNamed. repeat match goal with |- context [String.eqb w ?n] => destruct (String.eqb_spec w n) as [->|_]; [exfalso; apply HN; cbn [In enumAttr]; auto 20|] end. reflexivity. }
  assert (EC : hasComma (w ++ "." ++ r)%string = false) by (rewrite !hasComma_app, HW, HR; reflexivity).
  rewrite (named _ _ _ _ p HW S1), (named _ _ _ _ p EC S2), EA. unfold PathAttribute. rewrite E. auto.
Qed.
(** Findings: $CURSOR is accepted by ToPathAttr, but no path has it. *)
Theorem C69_cursor_refuted : ToPathAttr (N := RNum) "$CURSOR" = Some "$CURSOR"%string /\ forall tr bm fuel (p : path RNum), Forall tame p -> PathAttributeText (BezierOps tr bm fuel) "$CURSOR" p = Err.
Proof.
  split; [reflexivity|]. intros tr bm fuel p HT. destruct (trimBox _ (BezierOps_boxOk tr bm fuel) p HT) as (tl & br & E). rewrite (named _ "$CURSOR" "$CURSOR" [] p eq_refl eq_refl).
  change (attrNamed "$CURSOR") with (@AUnknown RNum). unfold PathAttribute. rewrite E. reflexivity.
Qed.
(** The coordinates of the ends cannot be asked for: $START_POINT.X is the whole point. *)
Theorem C69_end_field_refuted : forall tr bm fuel, PathAttributeText (BezierOps tr bm fuel) "$START_POINT.X" [Move (pnt 0 0) (pnt 3 4); Line (pnt 3 4) (pnt 5 6)] = Ok (VPoint (pnt 3 4)).
Proof.
  intros tr bm fuel. set (p := [Move (pnt 0 0) (pnt 3 4); Line (pnt 3 4) (pnt 5 6)]). assert (HT : Forall tame p) by (unfold p; repeat constructor).
  destruct (trimBox _ (BezierOps_boxOk tr bm fuel) p HT) as (tl & br & E). rewrite (named _ "$START_POINT.X" "$START_POINT" ["X"%string] p eq_refl eq_refl). change (attrNamed "$START_POINT") with (@AStartPoint RNum).
  unfold PathAttribute. rewrite E. reflexivity.
Qed.
(** and the coordinates of the box, which PathAttribute knows, are not accepted by ToPathAttr *)
Theorem C69_box_field_refuted : ToPathAttr (N := RNum) "$TOP_LEFT.X" = None.
Proof. reflexivity. Qed.

(** *** examples *)
Example C69_hypotheses : let p := [Move (pnt 0 0) (pnt 3 4); Line (pnt 3 4) (pnt 5 6)] in Forall tame p /\ drawn p <> [] /\ ToPathAttr (N := RNum) "$MIDDLE_LEFT" = Some "$MIDDLE_LEFT"%string.
Proof. split; [repeat constructor|]. split; [discriminate|reflexivity]. Qed.
Example C69_unknown_hypotheses : hasDot "$TOP" = false /\ hasComma "$TOP" = false /\ hasComma "X" = false /\ ~ In "$TOP"%string enumAttr.
Proof. repeat split; try reflexivity. cbn [In enumAttr]. intros H. repeat destruct H as [H|H]; try discriminate; contradiction. Qed.
Example C69_example : ToPathAttrFromPoint (N := FNum) 3 (ptm 2500 (-375)) = "2.500,-0.375"%string /\ ToPathAttr (N := FNum) "1,2,3" = None /\ ToPathAttr (N := FNum) "1,a" = None /\ ToPathAttr (N := FNum) " 1 , 2" = Some " 1 , 2"%string.
Proof. repeat split; vm_compute; reflexivity. Qed.
