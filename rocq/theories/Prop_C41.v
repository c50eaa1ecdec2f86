(** C41: horizontal slicing keeps only what is on the kept side. *)
From Coq Require Import String List ZArith NArith Bool Lia Reals Lra.
From Verif Require Import Num NumLaws FloatNum RealNum PathModel DrawModel SegOps TransformsModel Bezier PathSpec PathProofs TextProofs CleanupProofs DedupProofs GeomSpec
  BezierProofs PrecisionProofs GeomProofs LineGeom SplitProofs SliceProofs Prop_C42 Witness.
Import ListNotations.
Local Open Scope R_scope.

Definition isLine (g : seg RNum) : Prop := match g with Line _ _ => finiteSeg g | Move _ _ => finiteSeg g | Curve _ _ _ _ => False end.
Lemma isLine_tame p : Forall isLine p -> Forall tame p.
Proof. apply Forall_impl. intros [s e|s e|s cs e ce]; cbn; intros H; [split; auto|split; auto|contradiction]. Qed.

Lemma drawn_In (p : list (seg RNum)) g : In g (drawn p) <-> In g p /\ visible g.
Proof.
  induction p as [|h r IH]; [cbn; tauto|]. destruct h; cbn [drawn In visible].
  - rewrite IH. split; [tauto|]. intros [[<-|H] V]; [destruct V|auto].
  - rewrite IH. split; [intros [<-|[H V]]; cbn; auto|tauto].
  - rewrite IH. split; [intros [<-|[H V]]; cbn; auto|tauto].
Qed.

Lemma drawn_filter_comm (f : seg RNum -> bool) l : drawn (filter f l) = filter f (drawn l).
Proof. induction l as [|g r IH]; [reflexivity|]. cbn [filter]. destruct (f g) eqn:E, g; cbn [drawn filter]; rewrite ?E, IH; reflexivity. Qed.

(** Full claim: for every path and every height.  Proved for paths of moves and lines to the right of the Y axis.  Missing: curves, see
    [C80_slice_below_partial] for those that pass the height at most once; for the others the claim is false ([C80_twice_refuted]).  Without [0 <= x], [notFlat] or a width the claim
    is false, see the refutations below; an end may not lie within 10^-7 of the height without being on it, as it is then not cut
    but may still be taken to be on the other side. *)
Theorem C41_kept_below_partial tr bm bf n fuel y prec (p : list (seg RNum)) : Forall isLine p -> p <> [] ->
  (forall g, In g (drawn p) -> 0 <= X (sstart g) /\ 0 <= X (send g) /\ notFlat n g /\ clear y (Y (sstart g)) /\ clear y (Y (send g))) ->
  (exists g, In g (drawn p) /\ (/ 10 ^ n < X (sstart g) \/ / 10 ^ n < X (send g))) ->
  exists q, HSlice (BezierOps tr bm bf) (Z.of_nat n) (3 + fuel) (Fin y : T RNum) prec p = Ok q /\
    forall h a b, In h (drawn q) -> onSeg h a b -> b <= y + / 10 ^ prec.
Proof.
  intros HL Hne HD (gw & Hgw & Hw). set (co := BezierOps tr bm bf). pose proof (isLine_tame p HL) as HT.
  destruct p as [|g0 l]; [congruence|].
  destruct (BoundingBoxWithWhitespace_spec co (BezierOps_boxOk tr bm bf) g0 l HT) as (tl & br & (_ & F2 & (B1 & _) & _) & E).
  unfold HSlice. rewrite E. cbn [bind px pnt]. set (x1 := Rmin 0 (X (sstart g0))) in *.
  set (x2 := Rmax (X br) (X (send (last (g0 :: l) g0)))) in *.
  rewrite !NewPoint_fin. fold (pnt x1 y). fold (pnt x2 y).
  assert (IN : forall g, In g (drawn (g0 :: l)) -> X (sstart g) <= x2 /\ X (send g) <= x2).
  { intros g Hg. apply drawn_In in Hg as [Hg V].
    assert (P : forall x, (exists b, onSeg g x b) -> x <= x2).
    { intros x (b & O). assert (X tl <= x <= X br); [|unfold x2; pose proof (Rmax_l (X br) (X (send (last (g0 :: l) g0)))); lra].
      apply B1. exists b. destruct Hg as [->|Hg]; [left; auto|right; exists g; auto]. }
    assert (IL : isLine g) by (rewrite Forall_forall in HL; auto).
    destruct g as [s e|s e|s cs e ce]; [destruct V| |destruct IL]. cbn [sstart send].
    split; apply P; [exists (Y s)|exists (Y e)]; cbn [onSeg]; [exists 0|exists 1]; lra. }
  assert (NV : ~ agree n x1 x2).
  { intros A. apply agree_close in A. destruct (HD gw Hgw) as (X1 & X2 & _). destruct (IN gw Hgw) as [I1 I2].
    pose proof (Rmin_l 0 (X (sstart g0))) as M. fold x1 in M. unfold Rabs in A. destruct (Rcase_abs _) in A; lra. }
  assert (X0 : x1 <= 0) by apply Rmin_l.
  set (knife := Line (pnt x1 y) (pnt x2 y)).
  assert (CUT : forall g, In g (g0 :: l) -> exists r, KnifeCut co (Z.of_nat n) (3 + fuel) g knife = Ok r /\
     ((exists s e, g = Move s e /\ r = [g]) \/ Forall (oneSided y) r)).
  { intros g Hg. assert (IL : isLine g) by (rewrite Forall_forall in HL; auto).
    destruct g as [s e|s e|s cs e ce]; [| |destruct IL].
    - exists [Move s e]. split; [reflexivity|]. left. eauto.
    - assert (Hd : In (Line s e) (drawn (g0 :: l))) by (apply drawn_In; split; [auto|exact I]).
      destruct IL as [Fs Fe]. destruct (HD _ Hd) as (P1 & P2 & P3 & P4 & P5). destruct (IN _ Hd) as [P6 P7]. cbn [sstart send] in P1, P2, P4, P5, P6, P7.
      rewrite Fs, Fe. destruct (C42_line_knife_terminates co n fuel x1 y x2 y (X s) (Y s) (X e) (Y e)) as [r Er].
      exists r. split; [exact Er|]. right. eapply Forall_impl; [|eapply (knife_pieces co n x1 x2 y NV); exact Er].
      intros h. apply piece_oneSided; auto; lra. }
  assert (ALL : forall ps, (forall g, In g ps -> In g (g0 :: l)) -> exists cut, knifeAll co (Z.of_nat n) (3 + fuel) knife ps = Ok cut /\
     Forall (fun h => isMove h = true \/ oneSided y h) cut).
  { induction ps as [|g r IH]; intros Hi; [exists []; split; [reflexivity|constructor]|].
    destruct (CUT g (Hi g (or_introl eq_refl))) as (rg & Eg & Hg). destruct IH as (cr & Er & Hr); [intros; apply Hi; right; auto|].
    exists (rg ++ cr). cbn [knifeAll]. rewrite Eg. cbn [bind]. rewrite Er. cbn [bind]. split; [reflexivity|]. apply Forall_app. split; [|exact Hr].
    destruct Hg as [(s & e & -> & ->)|Hg]; [constructor; [left; reflexivity|constructor]|]. eapply Forall_impl; [|exact Hg]. auto. }
  destruct (ALL (g0 :: l) ltac:(auto)) as (cut & EC & HC). rewrite EC. cbn [bind].
  assert (FIL : exists kept, slice_filter co (Fin y : T RNum) prec cut = Ok kept).
  { clear EC. induction HC as [|h r Hh Hr IH]; [exists []; reflexivity|]. destruct IH as (k & Ek). cbn [slice_filter].
    assert (exists b, sliceRemoved co (Fin y : T RNum) prec h = Ok b) as (b & Eb).
    { assert (NB : exists s e, segBox co h = Ok (lineBox s e)).
      { destruct Hh as [Hh|(xa & ya & xb & yb & -> & _)]; [destruct h; try discriminate; do 2 eexists; reflexivity|do 2 eexists; reflexivity]. }
      destruct NB as (s & e & NB). unfold sliceRemoved. destruct (forallb _ _); [eauto|]. destruct (forallb _ _); [eauto|]. rewrite NB. cbn [bind].
      destruct (lineBox s e). eauto. }
    rewrite Eb. cbn [bind]. rewrite Ek. cbn [bind]. eauto. }
  destruct FIL as (kept & EK). rewrite EK. cbn [bind]. eexists. split; [reflexivity|].
  destruct (slice_filter_spec co _ _ _ _ EK) as (SUB & REM & _).
  assert (LOW : forall g, In g (drawn kept) -> exists xa ya xb yb, g = Line (pnt xa ya) (pnt xb yb) /\ ya <= y /\ yb <= y).
  { intros g Hg. apply drawn_In in Hg as [Hg V]. rewrite Forall_forall in REM, HC. destruct (HC g (sublist_In _ _ SUB g Hg)) as [M|O]; [destruct g; [destruct V|discriminate|discriminate]|].
    pose proof O as (xa & ya & xb & yb & -> & _). exists xa, ya, xb, yb. split; [reflexivity|]. eapply removed_line; eauto. }
  intros h a b Hh O. pose proof (Cleanup_drawn prec (NewPathFromSegmentsWithoutMove kept)) as CD.
  assert (Hg : exists g, In g (drawn kept) /\ realigned prec g h).
  { clear -CD Hh. set (src := drawn (filter _ _)) in CD. assert (HS : forall g, In g src -> In g (drawn kept)).
    { intros g Hg. subst src. rewrite <- (FixHeadMove_drawn kept). apply drawn_In in Hg as [Hg V]. apply filter_In in Hg as [Hg _]. apply drawn_In. auto. }
    clearbody src. set (d := drawn (Cleanup _ _)) in *. clearbody d. induction CD as [|x z xs zs R F IH]; [destruct Hh|].
    destruct Hh as [->|Hh]; [exists x; split; [apply HS; left; reflexivity|exact R]|]. apply IH; [exact Hh|]. intros g G. apply HS. right. exact G. }
  destruct Hg as (g & Hg & R). destruct (LOW g Hg) as (xa & ya & xb & yb & -> & La & Lb).
  pose proof (Rinv_0_lt_compat _ (pow10_pos prec)) as EP.
  assert (exists s, h = Line s (pnt xb yb) /\ Y s <= y + / 10 ^ prec) as (s & -> & Ls).
  { destruct R as [->|[SB EQ]]; [exists (pnt xa ya); split; [reflexivity|rewrite pnt_Y; lra]|].
    destruct h as [s e|s e|s cs e ce]; cbn in SB; try contradiction. subst e. exists s. split; [reflexivity|].
    cbn [sstart] in EQ. destruct s as [sx sy]. apply EqualsPrecision_coord in EQ as [_ EQ]. cbn [py pnt] in EQ.
    unfold Y. cbn [py]. destruct sy as [sy|b0|]; cbn [val].
    - fold (agree prec ya sy) in EQ. apply agree_close in EQ. unfold Rabs in EQ. destruct (Rcase_abs _) in EQ; lra.
    - rewrite PrecisionEquals_sym, PE_notfin_fin in EQ; [discriminate|exact I].
    - rewrite PrecisionEquals_sym, PE_notfin_fin in EQ; [discriminate|exact I]. }
  cbn [onSeg] in O. destruct O as (t & Ht & _ & ->). rewrite pnt_Y. nra.
Qed.
Print Assumptions C41_kept_below_partial.

(** The lines below the height survive, in order, each with its end and with its start up to the precision of the final cleanup; the path
    may contain curves.  [survivors keep p s]: [s] are the segments of [p] with [keep], in order. *)
Definition lowLine (n prec : nat) (y : R) (g : seg RNum) : Prop :=
  match g with Line s e => Y s + 2 * / 10 ^ n < y /\ Y e + 2 * / 10 ^ n < y /\ Y s + / 10 ^ prec < y /\ Y e + / 10 ^ prec < y | _ => False end.
Theorem C41_low_lines_survive tr bm bf n fuel y prec (p s q : list (seg RNum)) : Forall tame p ->
  survivors (lowLine n prec y) p s -> HSlice (BezierOps tr bm bf) (Z.of_nat n) fuel (Fin y : T RNum) prec p = Ok q ->
  exists k, sublist s k /\ Forall2 (realigned prec) k (drawn q).
Proof.
  intros HT SV. set (co := BezierOps tr bm bf). destruct p as [|g0 l]; [discriminate|].
  destruct (BoundingBoxWithWhitespace_spec co (BezierOps_boxOk tr bm bf) g0 l HT) as (tl & br & _ & E).
  unfold HSlice. rewrite E. cbn [bind px pnt]. set (x1 := Rmin 0 (X (sstart g0))) in *.
  set (x2 := Rmax (X br) (X (send (last (g0 :: l) g0)))) in *. rewrite !NewPoint_fin. fold (pnt x1 y). fold (pnt x2 y). set (knife := Line (pnt x1 y) (pnt x2 y)).
  destruct fuel as [|f]; [discriminate|].
  destruct (knifeAll co (Z.of_nat n) (S f) knife (g0 :: l)) as [cut| | |] eqn:EC; cbn [bind]; try discriminate.
  destruct (slice_filter co (Fin y : T RNum) prec cut) as [kept| | |] eqn:EK; cbn [bind]; try discriminate. intros EQ; injection EQ as <-.
  assert (SV' : survivors (fun g => lowLine n prec y g /\ finiteSeg g) (g0 :: l) s).
  { clear -SV HT. induction SV as [|g a b K S IH|g a b K S IH]; inversion HT as [|? ? [F _] HT']; subst; constructor; auto. tauto. }
  assert (SUB : sublist s kept).
  { eapply (knifeAll_survivors co (Z.of_nat n) (S f) knife (Fin y : T RNum) prec); [|exact SV'|exact EC|exact EK].
    intros g [K F]. destruct g as [a b|a b|a c b d]; cbn [lowLine] in K; try contradiction. destruct F as [Fa Fb]. destruct K as (K1 & K2 & K3 & K4).
    rewrite Fa, Fb. set (ya := Y a) in *. set (yb := Y b) in *. split.
    - rewrite KnifeCut_step. destruct (Intersect_lines co x1 y x2 y (X a) ya (X b) yb n) as [(x & y' & _ & A & B & _)|[_ EI]].
      + exfalso. destruct A as [_ A]. destruct B as [_ B]. apply inRange_close in A, B. rewrite Rmin_left, Rmax_left in A by lra.
        unfold Rmax in B. destruct (Rle_dec _ _) in B; lra.
      + fold knife in EI. rewrite EI. reflexivity.
    - unfold sliceRemoved. cbn [forallb sstart send py pnt]. unfold geP, leP.
      assert (G : Z.geb (PrecisionCompare (N:=RNum) (Fin ya) (Fin y) (Z.of_nat prec)) 0 = false).
      { apply not_true_iff_false. rewrite PrecisionCompare_ge. pose proof (Rinv_0_lt_compat _ (pow10_pos prec)). intros [H1|H1]; [lra|].
        apply agree_close in H1. unfold Rabs in H1. destruct (Rcase_abs _) in H1; lra. }
      pose proof (Rinv_0_lt_compat _ (pow10_pos prec)).
      assert (L1 : Z.leb (PrecisionCompare (N:=RNum) (Fin ya) (Fin y) (Z.of_nat prec)) 0 = true) by (apply PrecisionCompare_le; left; lra).
      assert (L2 : Z.leb (PrecisionCompare (N:=RNum) (Fin yb) (Fin y) (Z.of_nat prec)) 0 = true) by (apply PrecisionCompare_le; left; lra).
      rewrite G, L1, L2. reflexivity. }
  eexists. split; [|apply Cleanup_drawn]. rewrite drawn_filter_comm. unfold NewPathFromSegmentsWithoutMove. rewrite FixHeadMove_drawn.
  assert (ID : filter (fun g => negb (hasNaNEnd g)) (drawn s) = s).
  { clear -SV'. induction SV' as [|g a b [K F] S IH|g a b K S IH]; auto. destruct g as [u v|u v|u c v d]; cbn [lowLine] in K; try contradiction.
    cbn [drawn filter]. unfold hasNaNEnd at 1. cbn [send]. destruct F as [_ Fv]. rewrite Fv. cbn [px py pnt isnan negb orb]. cbn. rewrite IH. reflexivity. }
  rewrite <- ID. apply sublist_drawn in SUB. revert SUB. generalize (drawn s) (drawn kept). clear.
  induction 1 as [|a b g S IH|a b g S IH]; [constructor| |]; cbn [filter]; destruct (negb (hasNaNEnd g)); auto; [apply sub_skip; auto|apply sub_take; auto].
Qed.
Print Assumptions C41_low_lines_survive.

(** *** where the claim fails *)
(** Finding: the knife starts at x = 0 (or at the start of the path, if further left), so what is drawn further left is not cut: the
    second line, from y = 0 to y = 10 at x = -5, stays whole when sliced at 5. *)
Theorem C41_left_refuted : exists p q : path FNum, HSlice noCurves 3 10 (fz 5) 3 p = Ok q /\ drawn q = [ln 10 0 10 5; ln (-5) 0 (-5) 10].
Proof. exists [mv 0 0 10 0; ln 10 0 10 10; mv 10 10 (-5) 0; ln (-5) 0 (-5) 10], [mv 0 0 10 0; ln 10 0 10 5; mv 10 5 (-5) 0; ln (-5) 0 (-5) 10]. split; [byr|reflexivity]. Qed.
Print Assumptions C41_left_refuted.
(** Finding: a drawing on the Y axis has no width, so the knife has no length and cuts nothing. *)
Theorem C41_axis_refuted : exists p q : path FNum, HSlice noCurves 3 10 (fz 5) 3 p = Ok q /\ drawn q = [ln 0 0 0 10].
Proof. exists [mv 0 0 0 0; ln 0 0 0 10], [mv 0 0 0 0; ln 0 0 0 10]. split; [byr|reflexivity]. Qed.
Print Assumptions C41_axis_refuted.
(** Finding: a line that rises less than 0.0005 per unit is taken to be parallel to the knife and is not cut. *)
Theorem C41_flat_refuted : exists p q : path FNum, HSlice noCurves 3 10 (fz 2) 3 p = Ok q /\ drawn q = [ln 0 0 10000 4].
Proof. exists [mv 0 0 0 0; ln 0 0 10000 4], [mv 0 0 0 0; ln 0 0 10000 4]. split; [byr|reflexivity]. Qed.
Print Assumptions C41_flat_refuted.

(** a triangle sliced in the middle *)
Definition tri : list (seg RNum) := [Move (pnt 0 0) (pnt 1 0); Line (pnt 1 0) (pnt 9 0); Line (pnt 9 0) (pnt 5 8); Line (pnt 5 8) (pnt 1 0)].
Example C41_example : Forall isLine tri /\ tri <> [] /\
  (forall g, In g (drawn tri) -> 0 <= X (sstart g) /\ 0 <= X (send g) /\ notFlat 3 g /\ clear 4 (Y (sstart g)) /\ clear 4 (Y (send g))) /\
  (exists g, In g (drawn tri) /\ (/ 10 ^ 3 < X (sstart g) \/ / 10 ^ 3 < X (send g))) /\
  survivors (lowLine 3 3 4) tri [Line (pnt 1 0) (pnt 9 0)].
Proof.
  assert (P3 : / 10 ^ 3 = 1 / 1000) by (simpl; lra). assert (P7 : / 10 ^ 7 = 1 / 10000000) by (simpl; lra).
  split; [repeat constructor|]. split; [discriminate|]. split; [|split].
  - intros g Hg. cbn [drawn tri In] in Hg. destruct Hg as [<-|[<-|[<-|[]]]]; unfold notFlat, clear, X, Y; cbn [sstart send px py pnt val];
      (split; [lra|]); (split; [lra|]); (split; [try (left; lra); right; unfold Rabs; repeat destruct (Rcase_abs _); simpl; lra|]);
      rewrite P7; (split; right; unfold Rabs; repeat destruct (Rcase_abs _); lra).
  - exists (Line (pnt 1 0) (pnt 9 0)). split; [cbn; auto|]. left. rewrite P3. unfold X. cbn. lra.
  - unfold tri. apply sv_drop; [cbn; tauto|]. apply sv_keep; [unfold lowLine, Y; cbn [py pnt val]; rewrite P3; lra|].
    apply sv_drop; [unfold lowLine, Y; cbn [py pnt val]; rewrite P3; lra|]. apply sv_drop; [unfold lowLine, Y; cbn [py pnt val]; rewrite P3; lra|]. constructor.
Qed.
Example C41_example_float : HSlice noCurves 3 10 (fz 4) 3 [mv 0 0 1 0; ln 1 0 9 0; ln 9 0 5 8; ln 5 8 1 0] = Ok [mv 0 0 1 0; ln 1 0 9 0; ln 9 0 7 4; mv 7 4 3 4; ln 3 4 1 0].
Proof. byr. Qed.
