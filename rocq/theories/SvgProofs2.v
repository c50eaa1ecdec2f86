(** SVG round trip on binary64 (C02). *)
From Coq Require Import String Ascii List ZArith NArith Bool Lia Reals Lra.
From Coq.Floats Require Import SpecFloat.
From Verif Require Import Num NumLaws FloatNum PathModel DrawModel SvgParse PathSpec PathProofs TextProofs PrecisionProofs IeeeProofs SvgProofs.
Import ListNotations.

(** the points of a segment that SvgString prints *)
Definition printed {N : Num} (g : seg N) : list (Pt N) :=
  match g with Move _ e => [e] | Line _ e => [e] | Curve _ cs e ce => [cs; ce; e] end.

(** every printed coordinate is a float64 *)
Definition go_pt (p : Pt FNum) : Prop := go_float (px p) /\ go_float (py p).
Definition go_seg (g : seg FNum) : Prop := Forall go_pt (printed g).

(** printed coordinates without the text "-0", "-0.0", "-0.00", ... *)
Definition no_minus_zero (n : nat) (x : T FNum) : Prop := fmtd (n:=FNum) n x <> FTdec true 0.
Definition no_minus_zero_seg (n : nat) (g : seg FNum) : Prop :=
  Forall (fun p => no_minus_zero n (px p) /\ no_minus_zero n (py p)) (printed g).

(** one coordinate *)
Lemma readback_F n (x : T FNum) : go_float x ->
  exists y, readback n x = Some y /\ go_float y /\ fmtd (n:=FNum) n y = fmtd (n:=FNum) n x.
Proof.
  intros Hx. unfold readback. cbn [fmtd FNum ofdec ofspecial].
  destruct (f_fmtd n x) as [|s|s m] eqn:E.
  - exists S754_nan. repeat split; auto.
  - exists (S754_infinity s). repeat split; auto.
  - destruct (print_read n x s m Hx E) as (y & Ey & Hv & _ & Hf). exists y. auto.
Qed.

Lemma norm0_eq (y : T FNum) : norm0 y = match y with S754_zero _ => S754_zero false | _ => y end.
Proof. unfold norm0. destruct y as [s|[]| |[] m e]; reflexivity. Qed.

Lemma norm0_go y : go_float y -> go_float (norm0 (N:=FNum) y).
Proof. rewrite norm0_eq. destruct y; auto. Qed.
Lemma norm0_fval y : fval (norm0 (N:=FNum) y) = fval y.
Proof. rewrite norm0_eq. destruct y; auto. Qed.
Lemma norm0_finite y : ffinite (norm0 (N:=FNum) y) = ffinite y.
Proof. rewrite norm0_eq. destruct y; auto. Qed.

Lemma readback_zero n (x y : T FNum) s : readback n x = Some y -> fmtd (n:=FNum) n x = FTdec s 0 -> y = S754_zero s.
Proof. unfold readback. intros E Ef. rewrite Ef in E. cbn in E. congruence. Qed.

Lemma reprint n (x y : T FNum) : go_float x -> readback n x = Some y -> no_minus_zero n x ->
  fmtd (n:=FNum) n (norm0 y) = fmtd (n:=FNum) n x.
Proof.
  intros Hx E Hn. destruct (readback_F n x Hx) as (y0 & E0 & Hg & Hf). rewrite E in E0. injection E0 as <-.
  rewrite norm0_eq. destruct y as [s|s| |s m e]; auto. unfold no_minus_zero in Hn. destruct s; auto.
  rewrite <- Hf in Hn. exfalso. apply Hn. reflexivity.
Qed.

Lemma reread n (x y : T FNum) : go_float x -> readback n x = Some y ->
  exists z, readback n (norm0 y) = Some z /\ norm0 z = norm0 y.
Proof.
  intros Hx E. destruct (readback_F n x Hx) as (y0 & E0 & Hg & Hf). rewrite E in E0. injection E0 as <-.
  rewrite norm0_eq. destruct y as [s|s| |s m e].
  - exists (S754_zero false). split; [reflexivity|]. reflexivity.
  - exists (S754_infinity s). split; [reflexivity|apply norm0_eq].
  - exists S754_nan. split; reflexivity.
  - exists (S754_finite s m e). split; [|apply norm0_eq]. unfold readback in *. rewrite Hf. exact E.
Qed.

Lemma close n (x y : T FNum) : go_float x -> readback n x = Some y -> ffinite x = true ->
  ffinite (norm0 y) = true /\ (Rabs (fval x - fval (norm0 (N:=FNum) y)) <= / 10 ^ n)%R.
Proof.
  intros Hx E Hfx. destruct (readback_F n x Hx) as (y0 & E0 & Hg & Hf). rewrite E in E0. injection E0 as <-.
  rewrite norm0_finite, norm0_fval.
  assert (Hfy : ffinite y = true).
  { cbn [fmtd FNum] in Hf. destruct (f_fmtd_spec n x Hfx) as (m & Em & _). rewrite Em in Hf. destruct y; auto; discriminate. }
  split; auto. apply PrecisionEquals_close_F; auto. apply PrecisionEquals_same. unfold same_dec. symmetry. exact Hf.
Qed.

(** points and segments *)
Definition pt_close (n : nat) (p q : Pt FNum) : Prop :=
  (ffinite (px p) = true -> ffinite (px q) = true /\ (Rabs (fval (px p) - fval (px q)) <= / 10 ^ n)%R) /\
  (ffinite (py p) = true -> ffinite (py q) = true /\ (Rabs (fval (py p) - fval (py q)) <= / 10 ^ n)%R).
(** same kind of segment, printed points at most 10^-n away in each coordinate *)
Definition seg_close (n : nat) (g h : seg FNum) : Prop :=
  match g, h with
  | Move _ e, Move _ e' => pt_close n e e'
  | Line _ e, Line _ e' => pt_close n e e'
  | Curve _ cs e ce, Curve _ cs' e' ce' => pt_close n cs cs' /\ pt_close n ce ce' /\ pt_close n e e'
  | _, _ => False
  end.

Lemma readable_go n p : Forall go_seg p -> Forall (readable n) p.
Proof.
  intros H. eapply Forall_impl; [|exact H]. intros g Hg.
  assert (G : forall a, go_pt a -> readable_pt n a).
  { intros a [H1 H2]. destruct (readback_F n _ H1) as (y1 & E1 & _), (readback_F n _ H2) as (y2 & E2 & _).
    split; congruence. }
  destruct g; unfold go_seg in Hg; cbn [printed] in Hg; inversion Hg as [|? ? H1 Hg1]; subst; cbn [readable]; auto.
  inversion Hg1 as [|? ? H2 Hg2]; subst. inversion Hg2 as [|? ? H3 Hg3]; subst. auto.
Qed.

Lemma reads_pt_close n p q : go_pt p -> reads_pt n p q -> pt_close n p q.
Proof.
  intros [H1 H2] (x & y & Ex & Ey & ->). split; intros Hf; cbn [px py NewPoint]; apply close; assumption.
Qed.
Lemma reads_seg_close n g h : go_seg g -> reads_seg n g h -> seg_close n g h.
Proof.
  unfold go_seg. destruct g, h; cbn [printed reads_seg seg_close]; intros H R; try contradiction.
  - inversion H; subst. apply reads_pt_close; auto.
  - inversion H; subst. apply reads_pt_close; auto.
  - inversion H as [|? ? H1 Hb]; subst. inversion Hb as [|? ? H2 Hc]; subst. inversion Hc as [|? ? H3 _]; subst.
    destruct R as (R1 & R2 & R3). split; [|split]; apply reads_pt_close; assumption.
Qed.

Lemma reads_pt_text n p q : go_pt p -> reads_pt n p q -> no_minus_zero n (px p) /\ no_minus_zero n (py p) ->
  xyText n q = xyText n p.
Proof.
  intros [H1 H2] (x & y & Ex & Ey & ->) [N1 N2]. unfold xyText, fmt. cbn [px py NewPoint].
  rewrite (reprint n _ _ H1 Ex N1), (reprint n _ _ H2 Ey N2). reflexivity.
Qed.
Lemma reads_seg_text n g h : go_seg g -> no_minus_zero_seg n g -> reads_seg n g h -> segSvg n h = segSvg n g.
Proof.
  unfold go_seg, no_minus_zero_seg. destruct g, h; cbn [printed reads_seg segSvg]; intros H Z R; try contradiction.
  - inversion H; inversion Z; subst. erewrite reads_pt_text; eauto.
  - inversion H; inversion Z; subst. erewrite reads_pt_text; eauto.
  - inversion H as [|? ? H1 Hb]; subst. inversion Hb as [|? ? H2 Hc]; subst. inversion Hc as [|? ? H3 _]; subst.
    inversion Z as [|? ? Z1 Zb]; subst. inversion Zb as [|? ? Z2 Zc]; subst. inversion Zc as [|? ? Z3 _]; subst.
    destruct R as (R1 & R2 & R3). rewrite (reads_pt_text _ _ _ H1 R1 Z1), (reads_pt_text _ _ _ H2 R2 Z2), (reads_pt_text _ _ _ H3 R3 Z3). reflexivity.
Qed.
Lemma reads_text n p q : Forall go_seg p -> Forall (no_minus_zero_seg n) p -> Forall2 (reads_seg n) p q -> SvgString q n = SvgString p n.
Proof.
  intros H Z R. unfold SvgString. f_equal. induction R as [|g h p q Hgh R IH]; [reflexivity|].
  inversion H; inversion Z; subst. cbn [map]. f_equal; [apply reads_seg_text; auto|auto].
Qed.

(** what was read back reads back as itself *)
Lemma reads_pt_again n p q : go_pt p -> reads_pt n p q -> go_pt q /\ forall q', reads_pt n q q' -> q' = q.
Proof.
  intros [H1 H2] (x & y & Ex & Ey & ->).
  destruct (readback_F n _ H1) as (x0 & Ex0 & Gx & _). rewrite Ex in Ex0. injection Ex0 as <-.
  destruct (readback_F n _ H2) as (y0 & Ey0 & Gy & _). rewrite Ey in Ey0. injection Ey0 as <-.
  split; [split; apply norm0_go; assumption|].
  intros q' (x' & y' & Ex' & Ey' & ->). cbn [px py NewPoint] in *.
  destruct (reread n _ _ H1 Ex) as (zx & Ezx & Nx), (reread n _ _ H2 Ey) as (zy & Ezy & Ny).
  rewrite Ezx in Ex'. rewrite Ezy in Ey'. injection Ex' as <-. injection Ey' as <-. unfold NewPoint. rewrite Nx, Ny. reflexivity.
Qed.

Lemma reads_seg_again n g h : go_seg g -> reads_seg n g h -> go_seg h /\
  forall h', reads_seg n h h' -> sstart h' = sstart h -> h' = h.
Proof.
  unfold go_seg. destruct g, h; cbn [printed reads_seg]; intros H R; try contradiction.
  - inversion H; subst. destruct (reads_pt_again n _ _ ltac:(eassumption) R) as [G A]. split; [repeat constructor; apply G|].
    intros [] R' S; cbn in *; try contradiction. rewrite (A _ R'), S. reflexivity.
  - inversion H; subst. destruct (reads_pt_again n _ _ ltac:(eassumption) R) as [G A]. split; [repeat constructor; apply G|].
    intros [] R' S; cbn in *; try contradiction. rewrite (A _ R'), S. reflexivity.
  - inversion H as [|? ? H1 Hb]; subst. inversion Hb as [|? ? H2 Hc]; subst. inversion Hc as [|? ? H3 _]; subst.
    destruct R as (R1 & R2 & R3).
    destruct (reads_pt_again n _ _ H1 R1) as [G1 A1], (reads_pt_again n _ _ H2 R2) as [G2 A2], (reads_pt_again n _ _ H3 R3) as [G3 A3].
    split; [apply Forall_cons; [exact G1|apply Forall_cons; [exact G2|apply Forall_cons; [exact G3|constructor]]]|].
    intros [] R' S; cbn in *; try contradiction. destruct R' as (R1' & R2' & R3').
    rewrite (A1 _ R1'), (A2 _ R2'), (A3 _ R3'), S. reflexivity.
Qed.

Lemma reads_again n p : forall q q' c, Forall go_seg p -> Forall2 (reads_seg n) p q -> linked c q ->
  Forall2 (reads_seg n) q q' -> linked c q' -> q' = q.
Proof.
  induction p as [|g r IH]; intros q q' c H R L R' L'; inversion R; subst; inversion R'; subst; [reflexivity|].
  inversion H; subst. destruct L as [L1 L2], L' as [L1' L2'].
  match goal with A : reads_seg n g ?h, B : reads_seg n ?h ?h' |- _ =>
    destruct (reads_seg_again n g h ltac:(assumption) A) as [_ X]; specialize (X h' B ltac:(congruence)); subst h' end.
  f_equal. eapply IH; eauto.
Qed.
Lemma reads_go n p q : Forall go_seg p -> Forall2 (reads_seg n) p q -> Forall go_seg q.
Proof.
  intros H R. induction R; [constructor|]. inversion H; subst. constructor; auto. eapply reads_seg_again; eauto.
Qed.

Lemma Parse_F n (p : path FNum) : Forall go_seg p ->
  exists q, ParsePathFromSvg (SvgString p n) = Ok q /\ Forall2 (seg_close n) p q /\ linked origin q /\
    (Forall (no_minus_zero_seg n) p -> SvgString q n = SvgString p n) /\
    ParsePathFromSvg (SvgString q n) = Ok q.
Proof.
  intros H. destruct (Parse_reads n p (readable_go n p H)) as (q & E & R & L). exists q. split; [exact E|].
  split; [|split; [exact L|split]].
  - clear E L. induction R as [|g h p q Hgh R IH]; [constructor|]. inversion H; subst. constructor; [apply reads_seg_close; auto|auto].
  - intros Z. apply reads_text; auto.
  - pose proof (reads_go n p q H R) as Hq.
    destruct (Parse_reads n q (readable_go n q Hq)) as (q' & E' & R' & L'). rewrite E'. f_equal. exact (reads_again n p q q' origin H R L R' L').
Qed.
