(** C43: automatic splitting only leaves unsplit what fits the material. *)
From Coq Require Import String List ZArith NArith Bool Lia Reals Lra.
From Verif Require Import Num NumLaws FloatNum RealNum RealTrig PathModel DrawModel SegOps TransformsModel Bezier GeomTransforms PartSplit PathSpec PathProofs GeomSpec
  BezierProofs PrecisionProofs GeomProofs AffineProofs HandleProofs RotateProofs Prop_C15 Prop_C41 PartSplitProofs Witness.
Import ListNotations.
Local Open Scope R_scope.

(** the smallest rectangle around the drawing goes on a sheet w wide and h high, as it is or turned; an empty drawing always does *)
Definition fitsSheet (w h : R) (p : list (seg RNum)) : Prop :=
  forall tl br, tightBox (inDrawing p) tl br ->
    (X br - X tl < w /\ Y br - Y tl < h) \/ (Y br - Y tl < w /\ X br - X tl < h).

Lemma drawn_box p tl br : tightBox (inDrawing p) tl br -> drawn p <> [].
Proof. intros (_ & _ & (_ & (y & D) & _) & _) E. apply inDrawing_drawn in D. destruct D as (g & I & _). rewrite E in I. destruct I. Qed.

Ltac rle := repeat match goal with |- context [Rleb ?a ?b] => destruct (Rleb_spec a b) end.

(** the setting: automatic splitting for a sheet w wide and h high *)
Record sheet (sp : splitSpec (N:=RNum)) (w h : R) : Prop := mkSheet {
  sh_auto : sp_auto sp = true; sh_noy : sp_y sp = None;
  sh_w : sp_maxW sp = Fin w; sh_h : sp_maxH sp = Fin h; sh_wpos : 0 < w; sh_hpos : 0 < h }.

(** a part that fits is returned as it is, whatever the sheet and whatever the part *)
Theorem C43_fitting_unsplit tr tr' bm bf n kf fuel sp (w h : R) part : Forall tame (rp_path part) -> sheet sp w h ->
  fitsSheet w h (rp_path part) -> TransformPart (BezierOps tr bm bf) tr' n kf (S fuel) sp part = Ok [part].
Proof.
  intros HT [A Y0 EW EH PW PH] FS. cbn [TransformPart]. rewrite A, Y0.
  assert (exists tl br, BoundingBoxTrimWhitespace (BezierOps tr bm bf) (rp_path part) = Ok (tl, br) /\ finitePt tl /\ finitePt br /\
    ((X br - X tl < w /\ Y br - Y tl < h) \/ (Y br - Y tl < w /\ X br - X tl < h))) as (tl & br & E & F1 & F2 & B).
  { destruct (drawn (rp_path part)) eqn:Ed.
    - exists zeroPt, zeroPt. rewrite (BoundingBoxTrimWhitespace_empty (BezierOps tr bm bf)) by auto. repeat split. left.
      cbn. lra.
    - destruct (BoundingBoxTrimWhitespace_tight _ (BezierOps_boxOk tr bm bf) _ HT) as (tl & br & E & T); [rewrite Ed; discriminate|].
      pose proof T as (F1 & F2 & _). exists tl, br. split; [exact E|]. split; [exact F1|]. split; [exact F2|]. apply FS, T. }
  rewrite E. cbn [bind]. unfold autoDecision, geb. rewrite EW, EH, !(px_fin _ F1), !(py_fin _ F1), !(px_fin _ F2), !(py_fin _ F2). fin.
  destruct (Reqb_spec h 0); [lra|]. destruct (Reqb_spec w 0); [lra|]. cbn [orb]. rle; cbn [andb orb]; try reflexivity; lra.
Qed.
Print Assumptions C43_fitting_unsplit.

(** on a landscape sheet a decision not to split is right *)
Lemma unsplit_fits sp w h a b : sheet sp w h -> h <= w -> autoDecision sp (Fin a : T RNum) (Fin b : T RNum) = Fits -> (a < w /\ b < h) \/ (b < w /\ a < h).
Proof.
  intros [_ _ EW EH _ _] L. unfold autoDecision, geb. rewrite EW, EH. fin. rle; cbn [andb orb]; try discriminate; intros _; lra.
Qed.
Lemma split_tall sp w h a b : sheet sp w h -> autoDecision sp (Fin a : T RNum) (Fin b : T RNum) = SplitHalf -> 0 < b.
Proof. intros [_ _ EW EH PW PH]. unfold autoDecision, geb. rewrite EW, EH. fin. rle; cbn [andb orb]; try discriminate; intros _; lra. Qed.

Section Pieces.
Variable (tr : Trig RNum) (bm : BMath RNum) (bf : nat).
Let co := BezierOps tr bm bf.
Let HB : boxOk co := BezierOps_boxOk tr bm bf.

(** the edges drawn are moves and lines *)
Definition lineEdges (sp : splitSpec (N:=RNum)) : Prop := forall a b q, finitePt a -> finitePt b -> sp_plug sp a b = Ok q \/ sp_socket sp a b = Ok q -> Forall isLine q.
Definition finiteBleed (sp : splitSpec (N:=RNum)) : Prop := forall x, sp_bleedTop sp = Some x \/ sp_bleedBottom sp = Some x -> exists r, x = Fin r.

(** the width and the height kept with a part are those of its drawing *)
Definition sized (q : rpart (N:=RNum)) : Prop :=
  forall tl br, tightBox (inDrawing (rp_path q)) tl br -> rp_w q = Fin (X br - X tl) /\ rp_h q = Fin (Y br - Y tl).
Lemma box_sized p tl br : Forall isLine p -> BoundingBoxTrimWhitespace co p = Ok (tl, br) -> sized (mkRPart (N:=RNum) p (px br - px tl)%num (py br - py tl)%num).
Proof.
  intros H E tl' br' T. cbn [rp_path rp_w rp_h] in *. destruct (box_eq co HB p tl br H E) as (F1 & F2 & _ & [(Hn & _)|(_ & T')]); [exfalso; eapply drawn_box; eauto|].
  destruct (tightBox_unique _ _ _ _ _ T T') as [-> ->]. rewrite !(px_fin _ F1), !(py_fin _ F1), !(px_fin _ F2), !(py_fin _ F2). fin. auto.
Qed.

Lemma splitAt_parts n kf sp off y part l : lineEdges sp -> finiteBleed sp -> sp_yOffset sp = Fin off -> Forall isLine (rp_path part) ->
  splitAt co (Z.of_nat n) kf sp part (Fin y : T RNum) = Ok l ->
  (forall tl br, tightBox (inDrawing (rp_path part)) tl br -> y + off < Y br - Y tl -> exists a b, l = [a; b]) /\
  Forall (fun q => Forall isLine (rp_path q)) l /\ Forall sized l.
Proof.
  intros LE FB EO H. unfold splitAt.
  destruct (TrimWhitespace co (rp_path part)) as [op| | |] eqn:ET; cbn [bind]; try discriminate.
  pose proof (TrimWhitespace_isLine co HB _ _ H ET) as HO. destruct (box_exists co HB op HO) as (tl & br & BX). pose proof BX as (F1 & F2 & EB & _). rewrite EB. cbn [bind].
  assert (K : forall tl' br', tightBox (inDrawing (rp_path part)) tl' br' -> Y br = Y br' - Y tl').
  { intros tl' br' T. pose proof (drawn_box _ _ _ T) as Hd.
    destruct (C15_trim_at_origin tr bm bf _ (isLine_tame _ H) Hd) as (p' & tl1 & br1 & w1 & h1 & E1 & T1 & -> & -> & T2 & _).
    fold co in E1. rewrite ET in E1. injection E1 as <-. destruct (tightBox_unique _ _ _ _ _ T T1) as [<- <-].
    destruct BX as (_ & _ & _ & [(Hn & _)|(_ & T3)]); [exfalso; eapply drawn_box; eauto|].
    destruct (tightBox_unique _ _ _ _ _ T2 T3) as [_ <-]. rewrite pnt_Y. reflexivity. }
  rewrite EO. unfold geb. rewrite !(px_fin _ F1), !(py_fin _ F1), !(px_fin _ F2), !(py_fin _ F2). fin.
  destruct (Rleb_spec (Y br) (y + off)) as [LB|LB].
  { intros Q; injection Q as <-. split; [intros tl' br' T LT; rewrite <- (K _ _ T) in LT; lra|]. split; [repeat constructor; auto|].
    constructor; [|constructor]. pose proof (box_sized op tl br HO EB) as S. rewrite !(px_fin _ F1), !(py_fin _ F1), !(px_fin _ F2), !(py_fin _ F2) in S. exact S. }
  destruct (sp_plug sp _ _) as [pl| | |] eqn:EP; cbn [bind]; try discriminate.
  assert (HP : Forall isLine pl) by (eapply LE; [| |left; exact EP]; rewrite NewPoint_fin; apply finitePt_pnt).
  destruct (box_exists co HB pl HP) as (tlp & brp & G1 & G2 & EBp & _). rewrite EBp. cbn [bind]. rewrite (py_fin _ G2). fin.
  assert (BT : exists t, ((Fin (y + off) : T RNum) + orElse (sp_bleedTop sp) (Fin (Y brp - (y + off))))%num = (Fin t : T RNum)).
  { unfold orElse. destruct (sp_bleedTop sp) eqn:EBT; [|fin; eauto]. destruct (FB t) as [r ->]; [auto|]. fin. eauto. }
  destruct BT as [yt ->]. destruct (HSlice co _ _ _ _ op) as [top| | |] eqn:ES; cbn [bind]; try discriminate.
  apply (HSlice_isLine co HB) in ES; auto.
  destruct (JoinPaths [top; pl]) as [top'| | |] eqn:EJ; cbn [bind]; try discriminate. apply JoinPaths_isLine in EJ; auto.
  destruct (MirrorT co true ATopLeft op) as [fl| | |] eqn:EM; cbn [bind]; try discriminate. apply (MirrorT_isLine co HB) in EM; auto.
  destruct (sp_socket sp _ _) as [so| | |] eqn:ESo; cbn [bind]; try discriminate.
  assert (HS : Forall isLine so) by (eapply LE; [| |right; exact ESo]; rewrite NewPoint_fin; apply finitePt_pnt).
  destruct (box_exists co HB so HS) as (tls & brs & G3 & G4 & EBs & _). rewrite EBs. cbn [bind]. rewrite (py_fin _ G4). fin.
  assert (BB : exists t, ((Fin (Y br - (y + off)) : T RNum) + orElse (sp_bleedBottom sp) (Fin (Y brs - (Y br - (y + off)))))%num = (Fin t : T RNum)).
  { unfold orElse. destruct (sp_bleedBottom sp) eqn:EBT; [|fin; eauto]. destruct (FB t) as [r ->]; [auto|]. fin. eauto. }
  destruct BB as [yb ->]. destruct (HSlice co _ _ _ _ fl) as [bot| | |] eqn:ES2; cbn [bind]; try discriminate.
  apply (HSlice_isLine co HB) in ES2; auto.
  destruct (JoinPaths [bot; so]) as [bot'| | |] eqn:EJ2; cbn [bind]; try discriminate. apply JoinPaths_isLine in EJ2; auto.
  destruct (MirrorT co true ATopLeft bot') as [bp| | |] eqn:EM2; cbn [bind]; try discriminate. apply (MirrorT_isLine co HB) in EM2; auto.
  destruct (BoundingBoxTrimWhitespace co top') as [[a1 a2]| | |] eqn:B1; cbn [bind]; try discriminate.
  destruct (BoundingBoxTrimWhitespace co bp) as [[a3 a4]| | |] eqn:B2; cbn [bind]; try discriminate.
  intros Q; injection Q as <-. split; [eauto|]. split; [repeat constructor; auto|].
  constructor; [apply box_sized; auto|]. constructor; [apply box_sized; auto|constructor].
Qed.

(** Every piece that comes out fits the sheet.  Full claim: for all parts.  Proved for a landscape sheet, no positive y_offset, and parts
    and edges of moves and lines.  Missing: curves (slicing them is not modelled over the reals).  For portrait sheets and positive
    offsets the claim is false, see below. *)
Theorem C43_pieces_fit_partial n kf fuel sp off (w h : R) : sheet sp w h -> h <= w -> sp_yOffset sp = Fin off -> off <= 0 -> lineEdges sp -> finiteBleed sp ->
  forall part l, Forall isLine (rp_path part) -> TransformPart co RTrig (Z.of_nat n) kf fuel sp part = Ok l ->
  Forall (fun q => fitsSheet w h (rp_path q)) l.
Proof.
  intros SH L EO OFF LE FB. induction fuel as [|f IH]; intros part l HL; [discriminate|]. cbn [TransformPart].
  rewrite (sh_auto _ _ _ SH), (sh_noy _ _ _ SH). destruct (box_exists co HB _ HL) as (tl & br & BX). pose proof BX as (F1 & F2 & EB & CASE).
  rewrite EB. cbn [bind]. destruct (_ || _); [discriminate|]. rewrite !(px_fin _ F1), !(py_fin _ F1), !(px_fin _ F2), !(py_fin _ F2). fin.
  destruct (autoDecision sp _ _) eqn:ED.
  - unfold two. fin. rewrite fdiv by lra. fin. apply (split_tall _ _ _ _ _ SH) in ED. destruct (Reqb_spec ((Y br - Y tl) / 2) 0); [lra|].
    destruct (splitAt co _ kf sp part _) as [ps| | |] eqn:EP; cbn [bind]; try discriminate.
    destruct (splitAt_parts n kf sp off _ part ps LE FB EO HL EP) as (TWO & LINES & _).
    assert (T : tightBox (inDrawing (rp_path part)) tl br).
    { destruct CASE as [(_ & -> & ->)|(_ & T)]; [cbn in ED; lra|exact T]. }
    destruct (TWO tl br T) as (a & b & ->); [lra|]. cbn [length Nat.leb negb orb].
    inversion LINES as [|? ? La LINES']; subst. inversion LINES' as [|? ? Lb _]; subst.
    destruct (TransformPart co RTrig (Z.of_nat n) kf f sp a) as [ra| | |] eqn:Ea; cbn [bind]; try discriminate.
    destruct (TransformPart co RTrig (Z.of_nat n) kf f sp b) as [rb| | |] eqn:Eb; cbn [bind]; try discriminate.
    intros Q; injection Q as <-. rewrite app_nil_r. apply Forall_app. split; [exact (IH a ra La Ea)|exact (IH b rb Lb Eb)].
  - destruct (RotateT co RTrig _ ATopLeft _) as [pr| | |] eqn:ER; cbn [bind]; try discriminate.
    apply IH. cbn [rp_path]. apply (RotateT_isLine co HB) in ER; auto.
  - intros Q; injection Q as <-. constructor; [|constructor]. intros tl' br' T.
    destruct CASE as [(Hn & _)|(_ & T')]; [exfalso; eapply drawn_box; eauto|]. destruct (tightBox_unique _ _ _ _ _ T T') as [-> ->].
    apply (unsplit_fits sp); auto.
Qed.

(** turning by 90 degrees swaps width and height *)
Lemma turned_box p q tl br : Forall isLine p -> RotateT co RTrig (ofZ 90) ATopLeft p = Ok q -> tightBox (inDrawing q) tl br ->
  exists tl' br', tightBox (inDrawing p) tl' br' /\ X br - X tl = Y br' - Y tl' /\ Y br - Y tl = X br' - X tl'.
Proof.
  intros H E (F1 & F2 & (RX & (y1 & D1) & (y2 & D2)) & (RY & (x3 & D3) & (x4 & D4))).
  destruct (topLeft co HB p H) as (z & Ez & Fz).
  assert (FS : Forall finiteSeg p) by (apply Forall_tame_finite, isLine_tame, H).
  destruct (RotateT_spec co 90 ATopLeft p z FS Fz Ez) as (q' & E' & D).
  change (ofZ 90 : T RNum) with (Fin 90 : T RNum) in E. rewrite E in E'. injection E' as <-.
  assert (C : cos (90 * PI / 180) = 0) by (replace (90 * PI / 180) with (PI / 2) by field; apply cos_PI2).
  assert (S : sin (90 * PI / 180) = 1) by (replace (90 * PI / 180) with (PI / 2) by field; apply sin_PI2).
  assert (AX : forall x y, affX (rotAbout 90 (X z) (Y z)) x y = X z + Y z - y) by (intros x y; unfold affX, rotAbout; cbn [af_a af_c af_e]; rewrite C, S; ring).
  assert (AY : forall x y, affY (rotAbout 90 (X z) (Y z)) x y = x + Y z - X z) by (intros x y; unfold affY, rotAbout; cbn [af_b af_d af_f]; rewrite C, S; ring).
  assert (FW : forall x y, inDrawing p x y -> inDrawing q (X z + Y z - y) (x + Y z - X z)).
  { intros x y I. apply inDrawing_drawn in I. destruct I as (g & Hg & O). apply inDrawing_drawn. exists (affSeg (rotAbout 90 (X z) (Y z)) g).
    split; [rewrite D; apply in_map; exact Hg|]. apply onSeg_aff. exists x, y. rewrite AX, AY. auto. }
  assert (BW : forall x y, inDrawing q x y -> inDrawing p (y - Y z + X z) (X z + Y z - x)).
  { intros x y I. apply inDrawing_drawn in I. destruct I as (g & Hg & O). rewrite D in Hg. apply in_map_iff in Hg. destruct Hg as (h & <- & Hh).
    apply onSeg_aff in O. destruct O as (x' & y' & O & -> & ->). rewrite AX, AY. apply inDrawing_drawn. exists h. split; [exact Hh|].
    replace (x' + Y z - X z - Y z + X z) with x' by ring. replace (X z + Y z - (X z + Y z - y')) with y' by ring. exact O. }
  exists (pnt (Y tl - Y z + X z) (X z + Y z - X br)), (pnt (Y br - Y z + X z) (X z + Y z - X tl)). rewrite !pnt_X, !pnt_Y. split; [|lra].
  split; [apply finitePt_pnt|]. split; [apply finitePt_pnt|]. rewrite !pnt_X, !pnt_Y. split; (split; [|split]).
  - intros x (y & I). apply FW in I. assert (L : projY (inDrawing q) (x + Y z - X z)) by (eexists; exact I). apply RY in L. lra.
  - eexists. exact (BW _ _ D3).
  - eexists. exact (BW _ _ D4).
  - intros y (x & I). apply FW in I. assert (L : projX (inDrawing q) (X z + Y z - y)) by (eexists; exact I). apply RX in L. lra.
  - eexists. exact (BW _ _ D2).
  - eexists. exact (BW _ _ D1).
Qed.

(** Whatever is cut or turned, the width and the height kept with each part are those of its drawing. *)
Theorem C43_sizes n kf fuel sp off (w h : R) : sheet sp w h -> sp_yOffset sp = Fin off -> lineEdges sp -> finiteBleed sp ->
  forall part l, Forall isLine (rp_path part) -> sized part -> TransformPart co RTrig (Z.of_nat n) kf fuel sp part = Ok l -> Forall sized l.
Proof.
  intros SH EO LE FB. induction fuel as [|f IH]; intros part l HL SZ; [discriminate|]. cbn [TransformPart].
  rewrite (sh_auto _ _ _ SH), (sh_noy _ _ _ SH). destruct (box_exists co HB _ HL) as (tl & br & BX). pose proof BX as (F1 & F2 & EB & CASE).
  rewrite EB. cbn [bind]. destruct (_ || _); [discriminate|]. rewrite !(px_fin _ F1), !(py_fin _ F1), !(px_fin _ F2), !(py_fin _ F2). fin.
  destruct (autoDecision sp _ _) eqn:ED.
  - unfold two. fin. rewrite fdiv by lra. fin. destruct (Reqb _ 0); [intros Q; injection Q as <-; constructor; [exact SZ|constructor]|].
    destruct (splitAt co _ kf sp part _) as [ps| | |] eqn:EP; cbn [bind]; try discriminate.
    destruct (splitAt_parts n kf sp off _ part ps LE FB EO HL EP) as (_ & LINES & SIZES).
    destruct (_ || _); [intros Q; injection Q as <-; exact SIZES|]. clear EP. revert l. induction ps as [|a ps IHp]; intros l.
    + intros Q; injection Q as <-. constructor.
    + inversion LINES as [|? ? La LINES']; subst. inversion SIZES as [|? ? Sa SIZES']; subst.
      destruct (TransformPart co RTrig (Z.of_nat n) kf f sp a) as [ra| | |] eqn:Ea; cbn [bind]; try discriminate.
      match goal with |- bind ?r _ = _ -> _ => destruct r as [rb| | |] eqn:Eb end; cbn [bind]; try discriminate.
      intros Q; injection Q as <-. apply Forall_app. split; [exact (IH a ra La Sa Ea)|]. first [exact (IHp LINES' SIZES' rb Eb)|exact (IHp LINES' SIZES' rb eq_refl)].
  - destruct (RotateT co RTrig _ ATopLeft _) as [pr| | |] eqn:ER; cbn [bind]; try discriminate.
    apply IH; cbn [rp_path]; [apply (RotateT_isLine co HB) in ER; auto|].
    intros tl' br' T. cbn [rp_path rp_w rp_h] in *. destruct (turned_box _ _ _ _ HL ER T) as (a & b & T2 & -> & ->).
    destruct CASE as [(Hn & _)|(_ & T')]; [exfalso; eapply drawn_box; eauto|]. destruct (tightBox_unique _ _ _ _ _ T2 T') as [-> ->]. auto.
  - intros Q; injection Q as <-. constructor; [exact SZ|constructor].
Qed.
End Pieces.
Print Assumptions C43_pieces_fit_partial.
Print Assumptions C43_sizes.

(** *** concrete runs *)
Definition dpart (p : rpart (N:=FNum)) := (dpath (rp_path p), (rp_w p : SpecFloat.spec_float), (rp_h p : SpecFloat.spec_float)).
Definition dparts (r : res (list (rpart (N:=FNum)))) := match r with Ok l => Ok (map dpart l) | Err => Err | Panic => Panic | OutOfFuel => OutOfFuel end.
Lemma dpart_inj p q : dpart p = dpart q -> p = q.
Proof. destruct p as [p1 w1 h1], q as [p2 w2 h2]; unfold dpart; cbn [rp_path rp_w rp_h]. intros E; injection E as E1 E2 E3. apply dpath_inj in E1. congruence. Qed.
Lemma dparts_inj r r' : dparts r = dparts r' -> r = r'.
Proof.
  destruct r as [l| | |], r' as [l'| | |]; cbn; try discriminate; auto. intros E; injection E as E. f_equal. revert l' E.
  induction l as [|a l IH]; intros [|b l'] E; cbn in E; try discriminate; auto. injection E as E1 E2 E3 E4. f_equal; auto.
  apply dpart_inj. unfold dpart. congruence.
Qed.

(** a rectangle w wide and h high at the origin, and a sheet with straight edges *)
Definition rect (w h : Z) : rpart (N:=FNum) := mkRPart (N:=FNum) [mv 0 0 0 0; ln 0 0 w 0; ln w 0 w h; ln w h 0 h; ln 0 h 0 0] (fz w) (fz h).
Definition straight (a b : Pt FNum) : res (path FNum) := Ok [Move zeroPt a; Line a b].
Definition onSheet (mW mH off : Z) : splitSpec (N:=FNum) := mkSplit (N:=FNum) true None (fz mH) (fz mW) (fz off) None None straight straight 3.

(** Finding: the material is portrait, 5 wide and 20 high.  A square of 15 is neither cut nor turned, though it fits in no orientation. *)
Theorem C43_portrait_refuted : TransformPart noCurves noTrig 3 10 10 (onSheet 5 20 0) (rect 15 15) = Ok [rect 15 15].
Proof. apply dparts_inj. vm_compute. reflexivity. Qed.
Print Assumptions C43_portrait_refuted.
(** Finding: with a y_offset of half the height or more the cut falls below the part, which is then returned whole: 15 by 15 for a sheet of 10 by 10. *)
Theorem C43_offset_refuted : TransformPart noCurves noTrig 3 10 10 (onSheet 10 10 8) (rect 15 15) = Ok [rect 15 15].
Proof. apply dparts_inj. vm_compute. reflexivity. Qed.
Print Assumptions C43_offset_refuted.

(** A strip 4 wide and 30 high is cut into two halves for a sheet 20 wide and 10 high: each is 4 by 15. *)
Definition sizes (r : res (list (rpart (N:=FNum)))) : list (bool * bool) :=
  match r with Ok l => map (fun p => (eqb (n:=FNum) (rp_w p) (fz 4), eqb (n:=FNum) (rp_h p) (fz 15))) l | _ => [] end.
Example C43_run : sizes (TransformPart noCurves noTrig 3 10 10 (onSheet 20 10 0) (rect 4 30)) = [(true, true); (true, true)].
Proof. vm_compute. reflexivity. Qed.

(** the hypotheses of the theorems are met *)
Definition rectR (w h : R) : rpart (N:=RNum) :=
  mkRPart (N:=RNum) [Move (pnt 0 0) (pnt 0 0); Line (pnt 0 0) (pnt w 0); Line (pnt w 0) (pnt w h); Line (pnt w h) (pnt 0 h); Line (pnt 0 h) (pnt 0 0)] (Fin w) (Fin h).
Definition onSheetR (mW mH off : R) : splitSpec (N:=RNum) :=
  mkSplit (N:=RNum) true None (Fin mH) (Fin mW) (Fin off) None (Some (Fin 0)) (fun a b => Ok [Move (pnt 0 0) a; Line a b]) (fun a b => Ok [Move (pnt 0 0) a; Line a b]) 3.
Lemma rectR_isLine w h : Forall isLine (rp_path (rectR w h)).
Proof. repeat constructor. Qed.
Example C43_sheet_example : sheet (onSheetR 20 10 (-1)) 20 10 /\ lineEdges (onSheetR 20 10 (-1)) /\ finiteBleed (onSheetR 20 10 (-1)) /\ Forall isLine (rp_path (rectR 4 30)).
Proof.
  split; [constructor; auto; lra|]. split.
  { intros a b q Fa Fb [E|E]; cbn in E; injection E as <-; repeat constructor; auto. }
  split; [|apply rectR_isLine]. intros x [E|E]; cbn in E; [discriminate|]. injection E as <-. eauto.
Qed.
(** a strip 30 wide and 4 high, which is turned before it is cut *)
Lemma rectR_sized w h : 0 <= w -> 0 <= h -> sized (rectR w h).
Proof.
  intros PW PH tl br (F1 & F2 & (BX & (ya & DA) & (yb & DB)) & (BY & (xa & DC) & (xb & DD))). cbn [rectR rp_path rp_w rp_h] in *.
  assert (IN : forall x y, inDrawing (rp_path (rectR w h)) x y -> 0 <= x <= w /\ 0 <= y <= h).
  { intros x y D. apply inDrawing_drawn in D. destruct D as (g & Hg & D). cbn in Hg.
    destruct Hg as [<-|[<-|[<-|[<-|[]]]]]; destruct D as (t & Ht & -> & ->); unfold X, Y, pnt; cbn [px py val]; split; nra. }
  assert (C0 : inDrawing (rp_path (rectR w h)) 0 0).
  { apply inDrawing_drawn. exists (Line (pnt 0 0) (pnt w 0)). split; [cbn; auto|]. exists 0. unfold X, Y, pnt; cbn [px py val]. repeat split; lra. }
  assert (C1 : inDrawing (rp_path (rectR w h)) w h).
  { apply inDrawing_drawn. exists (Line (pnt w 0) (pnt w h)). split; [cbn; auto|]. exists 1. unfold X, Y, pnt; cbn [px py val]. repeat split; lra. }
  apply IN in DA, DB, DC, DD.
  pose proof (BX 0 (ex_intro _ 0 C0)). pose proof (BX w (ex_intro _ h C1)). 
  assert (Q0 : Y tl <= 0 <= Y br) by (apply BY; exists 0; exact C0). assert (Q1 : Y tl <= h <= Y br) by (apply BY; exists w; exact C1).
  split; f_equal; lra.
Qed.
Example C43_sizes_example tr bm bf n kf fuel l : TransformPart (BezierOps tr bm bf) RTrig (Z.of_nat n) kf fuel (onSheetR 20 10 (-1)) (rectR 30 4) = Ok l -> Forall sized l.
Proof.
  destruct C43_sheet_example as (SH & LE & FB & _).
  apply (C43_sizes tr bm bf n kf fuel _ (-1) 20 10 SH); auto; [apply rectR_isLine|apply rectR_sized; lra].
Qed.
Example C43_fitting_example tr bm bf : TransformPart (BezierOps tr bm bf) RTrig 3 5 1 (onSheetR 20 10 0) (rectR 4 15) = Ok [rectR 4 15].
Proof.
  apply (C43_fitting_unsplit tr RTrig bm bf 3 5 0 _ 20 10); [apply isLine_tame, rectR_isLine|constructor; auto; lra|].
  intros tl br (F1 & F2 & (BX & (ya & DA) & (yb & DB)) & (BY & (xa & DC) & (xb & DD))). right.
  assert (IN : forall x y, inDrawing (rp_path (rectR 4 15)) x y -> 0 <= x <= 4 /\ 0 <= y <= 15).
  { intros x y D. apply inDrawing_drawn in D. destruct D as (g & Hg & D). cbn in Hg.
    destruct Hg as [<-|[<-|[<-|[<-|[]]]]]; destruct D as (t & Ht & -> & ->); unfold X, Y, pnt; cbn [px py val]; split; lra. }
  apply IN in DA, DB, DC, DD. lra.
Qed.
