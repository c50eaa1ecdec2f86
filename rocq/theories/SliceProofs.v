(** Horizontal slicing of lines in exact arithmetic (C41). *)
From Coq Require Import String List ZArith NArith Bool Lia Reals Lra.
From Verif Require Import Num NumLaws RealNum PathModel DrawModel SegOps TransformsModel PathSpec PathProofs TextProofs CleanupProofs DedupProofs GeomSpec
  BezierProofs PrecisionProofs GeomProofs LineGeom SplitProofs.
Import ListNotations.
Local Open Scope R_scope.

(** rises or falls by more than 10^-n per unit of width, or not at all *)
Definition notFlat (n : nat) (g : seg RNum) : Prop :=
  Y (sstart g) = Y (send g) \/ Rabs (X (send g) - X (sstart g)) < 10 ^ n * Rabs (Y (send g) - Y (sstart g)).

Lemma agree_coord n x y x' y' : EqualsPrecision (N:=RNum) (pnt x y) (pnt x' y') (Z.of_nat n) = true -> agree n x x' /\ agree n y y'.
Proof. apply EqualsPrecision_coord. Qed.

Section Knife.
Variables (co : CurveOps RNum) (n : nat) (x1 x2 y : R).
Hypothesis NV : ~ agree n x1 x2.
Notation knife := (Line (pnt x1 y) (pnt x2 y)).

Lemma knife_flat x y' : onLine x1 y x2 y x y' -> y' = y.
Proof. pose proof (not_agree_neq _ _ _ NV). unfold onLine. intros E. assert ((x2 - x1) * (y' - y) = 0) by (rewrite E; ring). apply Rmult_integral in H0. lra. Qed.

(** where the knife meets a line is at its own height *)
Lemma knife_height xa ya xb yb : let g := Line (pnt xa ya) (pnt xb yb) in
  Intersect co (Z.of_nat n) knife g = Ok [] \/ exists x, Intersect co (Z.of_nat n) knife g = Ok [(pnt x y, Fin (-1) : T RNum)].
Proof.
  cbv zeta. destruct (Intersect_lines co x1 y x2 y xa ya xb yb n) as [(x & y' & E & _ & _ & EI)|[_ EI]]; [right|left; exact EI].
  exists x. rewrite EI. do 3 f_equal. pose proof (LineIntersection_cases x1 y x2 y xa ya xb yb n) as H. cbv zeta in H. rewrite E in H.
  destruct H as (_ & x0 & y0 & Ep & H). injection Ep as <- <-. f_equal. destruct H as [H|[(_ & _ & _ & H)|(_ & _ & _ & H & _)]]; [tauto| |]; apply knife_flat in H; auto.
Qed.

(** a line that rises through the knife is met *)
Lemma knife_finds xa ya xb yb : x1 <= xa <= x2 -> x1 <= xb <= x2 -> notFlat n (Line (pnt xa ya) (pnt xb yb)) ->
  ya < y < yb \/ yb < y < ya -> exists x, Intersect co (Z.of_nat n) knife (Line (pnt xa ya) (pnt xb yb)) = Ok [(pnt x y, Fin (-1) : T RNum)].
Proof.
  intros HA HB NF C. destruct (Intersect_lines co x1 y x2 y xa ya xb yb n) as [(x & y' & E & _ & _ & EI)|[H0 EI]]; cbv zeta in *.
  { destruct (knife_height xa ya xb yb) as [E2|E2]; [congruence|exact E2]. }
  exfalso. pose proof (LineIntersection_cases x1 y x2 y xa ya xb yb n) as H. cbv zeta in H.
  unfold notFlat in NF. cbn [sstart send X Y px py pnt val] in NF. destruct NF as [NF|NF]; [lra|].
  destruct (LineIntersection _ _ _ _ _) as [p|].
  - destruct H as (_ & x & y' & -> & H). apply (H0 x y' eq_refl).
    assert (Ey : y' = y) by (destruct H as [H|[(_ & _ & _ & H)|(_ & _ & _ & H & _)]]; [tauto| |]; apply knife_flat in H; auto). subst y'.
    assert (Hx : Rmin xa xb <= x <= Rmax xa xb).
    { destruct H as [H|[(_ & _ & -> & _)|(_ & NA & _ & _ & O)]]; [tauto| |].
      - unfold Rmin, Rmax. destruct (Rle_dec _ _); lra.
      - pose proof (not_agree_neq _ _ _ NA). unfold onLine in O. unfold Rmin, Rmax. destruct (Rle_dec _ _); destruct C; nra. }
    assert (H1 : x1 <= x <= x2) by (unfold Rmin, Rmax in Hx; destruct (Rle_dec _ _) in Hx; lra).
    assert (Hy : Rmin ya yb <= y <= Rmax ya yb) by (unfold Rmin, Rmax; destruct (Rle_dec _ _); lra).
    assert (M1 : Rmin x1 x2 = x1) by (apply Rmin_left; lra). assert (M2 : Rmax x1 x2 = x2) by (apply Rmax_right; lra).
    unfold inBox, inRange. rewrite M1, M2, Rmin_left, Rmax_left by lra. repeat split; left; lra.
  - assert (PP : parallelTo n x1 y x2 y xa ya xb yb) by tauto.
    destruct PP as [(N1 & N2 & A)|[A _]]; [|contradiction]. replace ((y - y) / (x2 - x1)) with 0 in A by (field; lra). apply agree_close in A.
    pose proof (pow10_pos n) as P. assert (Hd : 0 < Rabs (xb - xa)) by (apply Rabs_pos_lt; lra).
    assert (Q : Rabs (yb - ya) = Rabs (0 - (yb - ya) / (xb - xa)) * Rabs (xb - xa)).
    { rewrite <- Rabs_mult. replace ((0 - (yb - ya) / (xb - xa)) * (xb - xa)) with (- (yb - ya)) by (field; lra). rewrite Rabs_Ropp. reflexivity. }
    rewrite Q in NF.
    assert (H3 : 10 ^ n * (Rabs (0 - (yb - ya) / (xb - xa)) * Rabs (xb - xa)) <= 10 ^ n * (/ 10 ^ n * Rabs (xb - xa))).
    { apply Rmult_le_compat_l; [lra|]. apply Rmult_le_compat_r; lra. }
    replace (10 ^ n * (/ 10 ^ n * Rabs (xb - xa))) with (Rabs (xb - xa)) in H3 by (field; lra). lra.
Qed.

(** a piece is the line itself, which the knife does not cut, or has an end at the height of the knife *)
Definition slicePiece (g h : seg RNum) : Prop :=
  (h = g /\ (Intersect co (Z.of_nat n) knife g = Ok [] \/ exists x, Intersect co (Z.of_nat n) knife g = Ok [(pnt x y, Fin (-1) : T RNum)] /\
      (EqualsPrecision (pnt x y) (sstart g) 7 = true \/ EqualsPrecision (pnt x y) (send g) 7 = true))) \/
  exists xa ya xb yb, h = Line (pnt xa ya) (pnt xb yb) /\ (ya = y \/ yb = y).

Lemma knife_pieces fuel : forall xa ya xb yb l, KnifeCut co (Z.of_nat n) fuel (Line (pnt xa ya) (pnt xb yb)) knife = Ok l ->
  Forall (slicePiece (Line (pnt xa ya) (pnt xb yb))) l.
Proof.
  induction fuel as [|f IH]; intros xa ya xb yb l; [discriminate|]. rewrite KnifeCut_step.
  destruct (knife_height xa ya xb yb) as [E|[x E]]; rewrite E; cbn [bind].
  { intros H; injection H as <-. constructor; [left; auto|constructor]. }
  unfold Split. cbn [fst sstart send]. destruct (_ || _) eqn:B; cbn [bind].
  { intros H; injection H as <-. constructor; [left|constructor]. split; auto. right. exists x. split; auto. apply orb_prop. exact B. }
  cbn [cutAll]. destruct (KnifeCut co (Z.of_nat n) f (Line (pnt xa ya) (pnt x y)) knife) as [l1| | |] eqn:E1; cbn [bind]; try discriminate.
  destruct (KnifeCut co (Z.of_nat n) f (Line (pnt x y) (pnt xb yb)) knife) as [l2| | |] eqn:E2; cbn [bind]; try discriminate.
  intros H; injection H as <-. rewrite app_nil_r. apply Forall_app. split.
  - eapply Forall_impl; [|eapply IH; exact E1]. intros h [[-> _]|H]; [right; exists xa, ya, x, y; auto|right; exact H].
  - eapply Forall_impl; [|eapply IH; exact E2]. intros h [[-> _]|H]; [right; exists x, y, xb, yb; auto|right; exact H].
Qed.

(** pieces have the height on one of their sides, if the line has no end very close to it *)
Definition clear (Yv : R) : Prop := Yv = y \/ / 10 ^ 7 < Rabs (Yv - y).
Definition oneSided (h : seg RNum) : Prop := exists xa ya xb yb, h = Line (pnt xa ya) (pnt xb yb) /\ ((ya <= y /\ yb <= y) \/ (y <= ya /\ y <= yb)).
Lemma piece_oneSided xa ya xb yb h : x1 <= xa <= x2 -> x1 <= xb <= x2 -> notFlat n (Line (pnt xa ya) (pnt xb yb)) -> clear ya -> clear yb ->
  slicePiece (Line (pnt xa ya) (pnt xb yb)) h -> oneSided h.
Proof.
  intros HA HB NF CA CB [[-> H]|(xa' & ya' & xb' & yb' & -> & H)].
  - exists xa, ya, xb, yb. split; [reflexivity|].
    destruct (Rlt_le_dec ya y) as [La|La], (Rlt_le_dec yb y) as [Lb|Lb]; [left; lra| | |right; lra].
    + destruct (Rle_lt_or_eq_dec _ _ Lb) as [Lb'|Lb']; [|left; lra]. exfalso.
      destruct (knife_finds xa ya xb yb HA HB NF ltac:(lra)) as [x E]. destruct H as [H|(x' & E' & H)]; [congruence|].
      cbn [sstart send] in H. change 7%Z with (Z.of_nat 7) in H. destruct H as [H|H]; apply agree_coord in H as [_ H]; apply agree_close in H; rewrite Rabs_minus_sym in H;
        unfold clear in *; lra.
    + destruct (Rle_lt_or_eq_dec _ _ La) as [La'|La']; [|left; lra]. exfalso.
      destruct (knife_finds xa ya xb yb HA HB NF ltac:(lra)) as [x E]. destruct H as [H|(x' & E' & H)]; [congruence|].
      cbn [sstart send] in H. change 7%Z with (Z.of_nat 7) in H. destruct H as [H|H]; apply agree_coord in H as [_ H]; apply agree_close in H; rewrite Rabs_minus_sym in H;
        unfold clear in *; lra.
  - exists xa', ya', xb', yb'. split; [reflexivity|]. destruct H as [H|H]; destruct (Rle_lt_dec ya' y), (Rle_lt_dec yb' y); try (left; lra); right; lra.
Qed.

(** the filter keeps the one-sided lines below the knife, at most reaching it *)
Lemma removed_line prec xa ya xb yb : 
  sliceRemoved co (Fin y : T RNum) prec (Line (pnt xa ya) (pnt xb yb)) = Ok false -> oneSided (Line (pnt xa ya) (pnt xb yb)) -> ya <= y /\ yb <= y.
Proof.
  intros H (xa' & ya' & xb' & yb' & E & O). injection E as <- <- <- <-. destruct O as [O|O]; [exact O|].
  unfold sliceRemoved in H. cbn [forallb sstart send py pnt] in H. unfold geP in H.
  assert (G : forall a, y <= a -> Z.geb (PrecisionCompare (N:=RNum) (Fin a) (Fin y) (Z.of_nat prec)) 0 = true) by (intros a Ha; apply PrecisionCompare_ge; auto).
  rewrite (G ya), (G yb) in H by lra. cbn in H. discriminate.
Qed.
End Knife.

(** ** the filter *)
Section Filter.
Context {N : Num} (co : CurveOps N) (dop : Z).
Notation seg := (seg N).

Lemma slice_filter_spec y prec (l k : list seg) : slice_filter co y prec l = Ok k ->
  sublist k l /\ Forall (fun g => sliceRemoved co y prec g = Ok false) k /\
  (forall g, sliceRemoved co y prec g = Ok false -> forall l1 l2, l = l1 ++ g :: l2 -> In g k).
Proof.
  revert k. induction l as [|g r IH]; intros k; cbn [slice_filter].
  - intros E; injection E as <-. repeat split; [constructor|constructor|]. intros g _ [|? l1] l2 E; discriminate.
  - destruct (sliceRemoved co y prec g) as [b| | |] eqn:Eg; cbn [bind]; try discriminate.
    destruct (slice_filter co y prec r) as [k'| | |]; cbn [bind]; try discriminate. intros E; injection E as <-.
    destruct (IH k' eq_refl) as (S & F & I). destruct b.
    + split; [constructor; exact S|]. split; [exact F|]. intros h Hh [|g' l1] l2 E; injection E as -> ->; [congruence|eapply I; eauto].
    + split; [constructor; exact S|]. split; [constructor; auto|]. intros h Hh [|g' l1] l2 E; injection E as -> ->; [left; reflexivity|right; eapply I; eauto].
Qed.

(** what is not cut and not removed stays, in order *)
Lemma sublist_nil_l (l : list seg) : sublist [] l.
Proof. induction l; constructor; auto. Qed.
Lemma sublist_app (a b c d : list seg) : sublist a b -> sublist c d -> sublist (a ++ c) (b ++ d).
Proof. induction 1 as [|a b g S IH|a b g S IH]; intros H'; cbn [app]; [exact H'|apply sub_skip; auto|apply sub_take; auto]. Qed.
Lemma sublist_drawn (a b : list seg) : sublist a b -> sublist (drawn a) (drawn b).
Proof. induction 1 as [|a b g S IH|a b g S IH]; [exact sub_nil| |]; destruct g; cbn [drawn]; try exact IH; try (apply sub_skip; exact IH); apply sub_take; exact IH. Qed.
Lemma sublist_In (a b : list seg) : sublist a b -> forall g, In g a -> In g b.
Proof. induction 1 as [|a b g S IH|a b g S IH]; cbn; intros h H'; auto. destruct H'; auto. Qed.

Inductive survivors (keep : seg -> Prop) : list seg -> list seg -> Prop :=
| sv_nil : survivors keep [] []
| sv_keep g a b : keep g -> survivors keep a b -> survivors keep (g :: a) (g :: b)
| sv_drop g a b : ~ keep g -> survivors keep a b -> survivors keep (g :: a) b.

Lemma knifeAll_survivors fuel knife y prec (keep : seg -> Prop) :
  (forall g, keep g -> KnifeCut co dop fuel g knife = Ok [g] /\ sliceRemoved co y prec g = Ok false) ->
  forall p s, survivors keep p s -> forall cut kept, knifeAll co dop fuel knife p = Ok cut -> slice_filter co y prec cut = Ok kept -> sublist s kept.
Proof.
  intros HK. assert (FA : forall a b k, slice_filter co y prec (a ++ b) = Ok k -> exists ka kb, slice_filter co y prec a = Ok ka /\ slice_filter co y prec b = Ok kb /\ k = ka ++ kb).
  { induction a as [|g a IH]; intros b k; cbn [app slice_filter].
    - intros E. exists [], k. auto.
    - destruct (sliceRemoved co y prec g) as [bb| | |]; cbn [bind]; try discriminate.
      destruct (slice_filter co y prec (a ++ b)) as [k'| | |] eqn:E'; cbn [bind]; try discriminate. intros E; injection E as <-.
      destruct (IH _ _ E') as (ka & kb & -> & -> & ->). cbn [bind]. do 2 eexists. repeat split. destruct bb; reflexivity. }
  induction 1 as [|g a b K S IH|g a b K S IH]; intros cut kept; cbn [knifeAll].
  - intros E; injection E as <-. cbn. intros E; injection E as <-. constructor.
  - destruct (HK g K) as [E1 E2]. rewrite E1. cbn [bind]. destruct (knifeAll co dop fuel knife a) as [ca| | |]; cbn [bind]; try discriminate.
    intros E; injection E as <-. cbn [app slice_filter]. rewrite E2. cbn [bind].
    destruct (slice_filter co y prec ca) as [ka| | |] eqn:Ek; cbn [bind]; try discriminate. intros E; injection E as <-. apply sub_take. eapply IH; eauto.
  - destruct (KnifeCut co dop fuel g knife) as [cg| | |]; cbn [bind]; try discriminate.
    destruct (knifeAll co dop fuel knife a) as [ca| | |]; cbn [bind]; try discriminate. intros E; injection E as <-.
    intros E. destruct (FA _ _ _ E) as (k1 & k2 & E1 & E2 & ->). change b with ([] ++ b). apply sublist_app; [apply sublist_nil_l|eapply IH; eauto].
Qed.

Lemma knifeAll_In fuel knife (p cut : list seg) : knifeAll co dop fuel knife p = Ok cut -> forall h, In h cut ->
  exists g l, In g p /\ KnifeCut co dop fuel g knife = Ok l /\ In h l.
Proof.
  revert cut. induction p as [|g r IH]; intros cut; cbn [knifeAll].
  - intros E; injection E as <-. intros h [].
  - destruct (KnifeCut co dop fuel g knife) as [lg| | |] eqn:Eg; cbn [bind]; try discriminate.
    destruct (knifeAll co dop fuel knife r) as [lr| | |]; cbn [bind]; try discriminate. intros E; injection E as <-.
    intros h Hh. apply in_app_or in Hh as [Hh|Hh].
    + exists g, lg. cbn. auto.
    + destruct (IH _ eq_refl h Hh) as (g' & l' & H1 & H2 & H3). exists g', l'. cbn. auto.
Qed.
End Filter.
