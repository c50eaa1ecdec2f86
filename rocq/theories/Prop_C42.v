(** C42: splitting a segment at a point yields contiguous pieces with the same ends. *)
From Coq Require Import String List ZArith NArith Bool Lia Reals Lra.
From Verif Require Import Num NumLaws FloatNum RealNum PathModel DrawModel SegOps Bezier PathSpec PathProofs TextProofs GeomSpec BezierProofs PrecisionProofs
  LineGeom SplitProofs Witness Prop_C33 Prop_C35.
Import ListNotations.

(** Full claim: also, the pieces meet at the split point.  That is false for a curve and a point that does not carry its curve parameter
    ([C42_meets_refuted]); see [C42_meets_at_point] for the points the intersection functions return.
    For every float type and any curve operators that split properly ([splitsWell]; the default ones do, below): one piece, the
    segment itself, or two pieces of the same kind, from its start to its end, meeting each other, for moves and lines at the point. *)
Theorem C42_split_partial : forall (N : Num) (co : CurveOps N) (g : seg N) (p : ipt) (l : list (seg N)), splitsWell co -> Split co g p = Ok l ->
  l = [g] \/ exists a b, l = [a; b] /\ sameXY (sstart a) (sstart g) /\ send a = sstart b /\ sameXY (send b) (send g) /\
    sameKind g a /\ sameKind g b /\ (match g with Curve _ _ _ _ => True | _ => send a = fst p end).
Proof. exact @Split_pieces. Qed.
Print Assumptions C42_split_partial.

Theorem C42_default_float : forall tr bm fuel, splitsWell (N:=FNum) (BezierOps tr bm fuel).
Proof. exact BezierOps_splitsWell_F. Qed.
Theorem C42_default_exact : forall tr bm fuel, splitsWell (N:=RNum) (BezierOps tr bm fuel).
Proof. exact BezierOps_splitsWell_R. Qed.
Print Assumptions C42_default_float.
Print Assumptions C42_default_exact.

(** KnifeCut, whatever the knife: the pieces lead from the start of the segment to its end without a gap, and are of its kind *)
Theorem C42_knife_contiguous : forall (N : Num), EqLaws N -> forall (co : CurveOps N) dop, splitsWell co ->
  forall knife fuel g l, KnifeCut co dop fuel g knife = Ok l -> leads (sstart g) (send g) l /\ Forall (sameKind g) l.
Proof. intros N L co dop W knife fuel g l. apply (KnifeCut_cutUp L co dop W). Qed.
Print Assumptions C42_knife_contiguous.

(** and none of them can be cut by the knife again *)
Definition uncuttable {N : Num} (co : CurveOps N) dop (knife h : seg N) : Prop :=
  Intersect co dop knife h = Ok [] \/
  exists p ps h', Intersect co dop knife h = Ok (p :: ps) /\ Split co h p = Ok [h'].
Theorem C42_knife_complete : forall (N : Num) (co : CurveOps N) dop knife fuel g l,
  KnifeCut co dop fuel g knife = Ok l -> Forall (uncuttable co dop knife) l.
Proof.
  intros N co dop knife. induction fuel as [|f IH]; intros g l; [discriminate|]. rewrite KnifeCut_step.
  destruct (Intersect co dop knife g) as [[|p0 ps]| | |] eqn:EI; cbn [bind]; try discriminate.
  { intros E; injection E as <-. constructor; [left; exact EI|constructor]. }
  destruct (Split co g p0) as [segs| | |] eqn:ES; cbn [bind]; try discriminate.
  assert (C : forall ss r, cutAll (fun s => KnifeCut co dop f s knife) ss = Ok r -> Forall (uncuttable co dop knife) r).
  { induction ss as [|s ss IHs]; intros r; cbn [cutAll]; [intros E; injection E as <-; constructor|].
    destruct (KnifeCut co dop f s knife) as [sp| | |] eqn:EK; cbn [bind]; try discriminate.
    destruct (cutAll _ ss) as [rest| | |] eqn:EA; cbn [bind]; try discriminate. intros E; injection E as <-.
    apply Forall_app. split; [eapply IH; eauto|apply IHs; reflexivity]. }
  destruct segs as [|s1 [|s2 r2]].
  - intros E. apply (C _ _ E).
  - intros E; injection E as <-. constructor; [|constructor]. right. eauto.
  - intros E. apply (C _ _ E).
Qed.
Print Assumptions C42_knife_complete.

Local Open Scope R_scope.
(** Exact arithmetic: a point of the curve that carries its parameter, as the intersection functions return, is where the two pieces meet,
    and together the pieces trace the curve. *)
Theorem C42_meets_at_point tr bm fuel (s cs e ce : Pt RNum) (t : R) : let c := mkCrv s cs e ce in
  finiteCrv c -> 0 < t -> ~ agree 7 t 0 -> ~ agree 7 t 1 ->
  EqualsPrecision (fst (tP c (Fin t))) s 7 = false -> EqualsPrecision (fst (tP c (Fin t))) e 7 = false ->
  exists a b, Split (BezierOps tr bm fuel) (crvSeg c) (tP c (Fin t)) = Ok [crvSeg a; crvSeg b] /\
    c_e a = fst (tP c (Fin t)) /\ c_s b = fst (tP c (Fin t)) /\ c_s a = s /\ c_e b = e /\
    (forall u, FindPoint a (Fin u : T RNum) = FindPoint c (Fin (t * u) : T RNum)) /\
    (forall u, FindPoint b (Fin u : T RNum) = FindPoint c (Fin (t + (1 - t) * u) : T RNum)).
Proof.
  intros c F Ht N0 N1 E1 E2. unfold Split. cbn [sstart send crvSeg c_s c_e c]. rewrite E1, E2. cbn [orb].
  fold c. cbn [BezierOps co_split]. unfold opSplit, getTfromPoint. cbn [snd tP].
  assert (G : gtb (Fin t : T RNum) zero = true) by (apply Rltb_true; exact Ht). rewrite G. cbn [bind].
  assert (P0 : PrecisionEquals (Fin t : T RNum) zero 7 = false) by (apply not_true_iff_false; exact N0).
  assert (P1 : PrecisionEquals (Fin t : T RNum) one 7 = false) by (apply not_true_iff_false; exact N1).
  rewrite P0, P1. cbn [orb]. destruct (C33_split_partial c t F ltac:(lra)) as (l & r & E & Fl & Fr & Gl & Gr & A1 & A2 & A3 & A4).
  match goal with |- context [SplitCurve ?k ?u] => change (SplitCurve k u) with (SplitCurve c (Fin t : T RNum)) end. rewrite E. cbn [bind map].
  assert (CL : forall k : crv RNum, finiteCrv k -> bcC k = k).
  { intros [k1 k2 k3 k4] (H1 & H2 & H3 & H4). unfold bcC. cbn [c_s c_cs c_e c_ce] in *. change bpP with (@clonePt RNum). rewrite !clonePt_finite by assumption. reflexivity. }
  rewrite (CL l Fl), (CL r Fr). exists l, r. split; [reflexivity|].
  assert (FP : fst (tP c (Fin t)) = FindPoint c (Fin t : T RNum)).
  { unfold tP, bpP. cbn [fst]. rewrite FindPoint_spec by auto. cbn [px py pnt]. apply NewPoint_fin. }
  rewrite FP. repeat split; auto; congruence.
Qed.
Print Assumptions C42_meets_at_point.

(** Finding: a point on the curve that does not carry its parameter (here the middle of an arch, made with NewPoint) is looked up with
    Project, which ignores it, finds the point nearest to the origin and answers with its distance in place of its parameter: the middle
    (9, 7) of this arch, all of which lies above y = 0, is split at parameter sqrt 2, in a point below y = 0. *)
Definition arch : crv FNum := mkCrv (pt 1 1) (pt 1 9) (pt 17 1) (pt 17 9).
Definition below (r : res (list (seg FNum))) : list bool :=
  match r with Ok l => map (fun g => ltb (py (send g)) zero) l | _ => [] end.
Theorem C42_meets_refuted : exists (p : Pt FNum) l,
  EqualsPrecision (FindPoint arch half) p 7 = true /\ px p = fz 9 /\ py p = fz 7 /\
  Split (BezierOps noTrig noB 1000) (crvSeg arch) (p, fz (-1)) = Ok l /\ map (fun g => ltb (py (send g)) zero) l = [true; false].
Proof.
  assert (H : below (Split (BezierOps noTrig noB 1000) (crvSeg arch) (pt 9 7, fz (-1))) = [true; false]) by (vm_compute; reflexivity).
  exists (pt 9 7). destruct (Split (BezierOps noTrig noB 1000) (crvSeg arch) (pt 9 7, fz (-1))) as [l| | |]; try discriminate H.
  exists l. split; [vm_compute; reflexivity|]. auto.
Qed.
Print Assumptions C42_meets_refuted.

(** *** cutting a line with a line always ends (exact arithmetic) *)
Section LineKnife.
Variables (co : CurveOps RNum) (n : nat) (x1 y1 x2 y2 : R).
Notation knife := (Line (pnt x1 y1) (pnt x2 y2)).

(** the knife meets the line nowhere, or in one point *)
Lemma knife_meets x3 y3 x4 y4 : let g := Line (pnt x3 y3) (pnt x4 y4) in
  Intersect co (Z.of_nat n) knife g = Ok [] \/
  exists x y, Intersect co (Z.of_nat n) knife g = Ok [(pnt x y, Fin (-1) : T RNum)] /\
      ((agree n x1 x2 /\ ~ agree n x3 x4 /\ x = x1 /\ onLine x3 y3 x4 y4 x y) \/
       (~ agree n x1 x2 /\ agree n x3 x4 /\ x = x3 /\ onLine x1 y1 x2 y2 x y) \/
       (~ agree n x1 x2 /\ ~ agree n x3 x4 /\ (y2 - y1) / (x2 - x1) <> (y4 - y3) / (x4 - x3) /\ onLine x1 y1 x2 y2 x y /\ onLine x3 y3 x4 y4 x y)).
Proof.
  cbv zeta. destruct (Intersect_lines co x1 y1 x2 y2 x3 y3 x4 y4 n) as [(x & y & E & _ & _ & EI)|[_ EI]]; [right|left; exact EI].
  exists x, y. split; [exact EI|]. pose proof (LineIntersection_cases x1 y1 x2 y2 x3 y3 x4 y4 n) as H. cbv zeta in H. rewrite E in H.
  destruct H as (_ & x' & y' & Ep & H). injection Ep as <- <-. exact H.
Qed.

Lemma stop_none f g : Intersect co (Z.of_nat n) knife g = Ok [] -> KnifeCut co (Z.of_nat n) (S f) g knife = Ok [g].
Proof. intros E. rewrite KnifeCut_step, E. reflexivity. Qed.
Lemma EP_refl (p : Pt RNum) : EqualsPrecision p p 7 = true.
Proof. unfold EqualsPrecision. cbn. apply String.eqb_refl. Qed.
Lemma stop_end f x y xa ya xb yb : let g := Line (pnt xa ya) (pnt xb yb) in
  Intersect co (Z.of_nat n) knife g = Ok [(pnt x y, Fin (-1) : T RNum)] -> (x = xa /\ y = ya) \/ (x = xb /\ y = yb) ->
  KnifeCut co (Z.of_nat n) (S f) g knife = Ok [g].
Proof.
  cbv zeta. intros E H. rewrite KnifeCut_step, E. cbn [bind]. unfold Split. cbn [fst sstart send].
  destruct H as [[-> ->]|[-> ->]]; rewrite EP_refl, ?orb_true_r; reflexivity.
Qed.

(** a (nearly) vertical piece with an end where the knife crosses x = its first abscissa is not cut *)
Lemma stop_vertical f xa ya xb yb : agree n xa xb -> ~ agree n x1 x2 ->
  (onLine x1 y1 x2 y2 xa ya \/ (xb = xa /\ onLine x1 y1 x2 y2 xb yb)) ->
  KnifeCut co (Z.of_nat n) (S f) (Line (pnt xa ya) (pnt xb yb)) knife = Ok [Line (pnt xa ya) (pnt xb yb)].
Proof.
  intros A B H. destruct (knife_meets xa ya xb yb) as [E|(x & y & E & C)]; [apply stop_none; exact E|].
  apply (stop_end f x y _ _ _ _ E). destruct C as [C|[(_ & _ & -> & O)|C]]; try tauto.
  pose proof (not_agree_neq _ _ _ B) as NB. apply onLine_eval in O; auto.
  destruct H as [H|[-> H]]; apply onLine_eval in H; auto; [left|right]; split; congruence.
Qed.

Lemma onLine_sub x3 y3 x4 y4 xa ya xb yb x y : onLine x3 y3 x4 y4 xa ya -> onLine x3 y3 x4 y4 xb yb -> xa <> xb -> x3 <> x4 ->
  onLine xa ya xb yb x y -> onLine x3 y3 x4 y4 x y.
Proof.
  intros A B N1 N2 H. apply onLine_eval in A, B, H; auto. subst ya yb y. unfold onLine. field. lra.
Qed.
Lemma slope_sub x3 y3 x4 y4 xa ya xb yb : onLine x3 y3 x4 y4 xa ya -> onLine x3 y3 x4 y4 xb yb -> xa <> xb -> x3 <> x4 ->
  (yb - ya) / (xb - xa) = (y4 - y3) / (x4 - x3).
Proof. intros A B N1 N2. apply onLine_eval in A, B; auto. subst ya yb. field. lra. Qed.
Lemma onLine_start x3 y3 x4 y4 : onLine x3 y3 x4 y4 x3 y3. Proof. unfold onLine. ring. Qed.
Lemma onLine_end x3 y3 x4 y4 : onLine x3 y3 x4 y4 x4 y4. Proof. unfold onLine. ring. Qed.

(** one of the two pieces (xa, ya) - (xb, yb) of a line, (x, y) the cut: at most one more cut *)
Lemma piece_ends f xa ya xb yb x y x3 y3 x4 y4 :
  onLine x3 y3 x4 y4 xa ya -> onLine x3 y3 x4 y4 xb yb -> (x = xa /\ y = ya) \/ (x = xb /\ y = yb) ->
  ((agree n x1 x2 /\ ~ agree n x3 x4 /\ x = x1 /\ onLine x3 y3 x4 y4 x y) \/
   (~ agree n x1 x2 /\ ~ agree n x3 x4 /\ (y2 - y1) / (x2 - x1) <> (y4 - y3) / (x4 - x3) /\ onLine x1 y1 x2 y2 x y /\ onLine x3 y3 x4 y4 x y)) ->
  exists l, KnifeCut co (Z.of_nat n) (S (S f)) (Line (pnt xa ya) (pnt xb yb)) knife = Ok l.
Proof.
  intros Oa Ob He Hg. destruct (knife_meets xa ya xb yb) as [E|(x' & y' & E & C)]; [eexists; apply stop_none; exact E|].
  destruct C as [(A & B & -> & O)|[(A & B & -> & O)|(A & B & M & O & O')]].
  - (* vertical knife *)
    destruct Hg as [(_ & G2 & -> & G3)|G]; [|tauto]. pose proof (not_agree_neq _ _ _ B) as NB. pose proof (not_agree_neq _ _ _ G2) as NG.
    eexists. apply (stop_end _ _ _ _ _ _ _ E). pose proof (onLine_sub _ _ _ _ _ _ _ _ _ _ Oa Ob NB NG O) as O1.
    assert (y' = y) by (apply onLine_eval in O1, G3; auto; congruence). subst y'. destruct He as [[-> ->]|[-> ->]]; auto.
  - (* nearly vertical piece: cut once more, then no more *)
    rewrite KnifeCut_step, E. cbn [bind]. unfold Split. cbn [fst sstart send].
    destruct (_ || _); [eexists; reflexivity|]. cbn [cutAll bind].
    assert (V1 : agree n xa xa) by apply agree_refl.
    rewrite (stop_vertical f xa ya xa y' V1 A) by (right; auto). cbn [bind].
    rewrite (stop_vertical f xa y' xb yb B A) by (left; auto). cbn [bind]. eexists. reflexivity.
  - destruct Hg as [G|(G1 & G2 & G3 & G4 & G5)]; [tauto|].
    pose proof (not_agree_neq _ _ _ A) as NA. pose proof (not_agree_neq _ _ _ B) as NB. pose proof (not_agree_neq _ _ _ G2) as NG.
    eexists. apply (stop_end _ _ _ _ _ _ _ E). pose proof (onLine_sub _ _ _ _ _ _ _ _ _ _ Oa Ob NB NG O') as O1.
    destruct (onLine_unique _ _ _ _ _ _ _ _ _ _ _ _ NA NG G3 O O1 G4 G5) as [-> ->]. destruct He as [[-> ->]|[-> ->]]; auto.
Qed.
End LineKnife.

Theorem C42_line_knife_terminates co n fuel x1 y1 x2 y2 x3 y3 x4 y4 : exists l,
  KnifeCut co (Z.of_nat n) (S (S (S fuel))) (Line (pnt x3 y3) (pnt x4 y4)) (Line (pnt x1 y1) (pnt x2 y2)) = Ok l.
Proof.
  destruct (knife_meets co n x1 y1 x2 y2 x3 y3 x4 y4) as [E|(x & y & E & C)]; [eexists; apply stop_none; exact E|].
  rewrite KnifeCut_step, E. cbn [bind]. unfold Split. cbn [fst sstart send].
  destruct (_ || _); [eexists; reflexivity|]. cbn [cutAll bind].
  destruct C as [C|[(A & B & -> & O)|C]].
  - destruct C as (A & B & D & O).
    assert (HG : (agree n x1 x2 /\ ~ agree n x3 x4 /\ x = x1 /\ onLine x3 y3 x4 y4 x y) \/
     (~ agree n x1 x2 /\ ~ agree n x3 x4 /\ (y2 - y1) / (x2 - x1) <> (y4 - y3) / (x4 - x3) /\ onLine x1 y1 x2 y2 x y /\ onLine x3 y3 x4 y4 x y)) by tauto.
    destruct (piece_ends co n x1 y1 x2 y2 fuel x3 y3 x y x y x3 y3 x4 y4 (onLine_start _ _ _ _) O ltac:(auto) HG) as (l1 & E1).
    destruct (piece_ends co n x1 y1 x2 y2 fuel x y x4 y4 x y x3 y3 x4 y4 O (onLine_end _ _ _ _) ltac:(auto) HG) as (l2 & E2).
    rewrite E1. cbn [bind]. rewrite E2. cbn [bind]. eexists. reflexivity.
  - rewrite (stop_vertical co n x1 y1 x2 y2 (S fuel) x3 y3 x3 y (agree_refl _ _) A) by (right; auto). cbn [bind].
    rewrite (stop_vertical co n x1 y1 x2 y2 (S fuel) x3 y x4 y4 B A) by (left; auto). cbn [bind]. eexists. reflexivity.
  - destruct C as (A & B & M & O & O').
    assert (HG : (agree n x1 x2 /\ ~ agree n x3 x4 /\ x = x1 /\ onLine x3 y3 x4 y4 x y) \/
     (~ agree n x1 x2 /\ ~ agree n x3 x4 /\ (y2 - y1) / (x2 - x1) <> (y4 - y3) / (x4 - x3) /\ onLine x1 y1 x2 y2 x y /\ onLine x3 y3 x4 y4 x y)) by tauto.
    destruct (piece_ends co n x1 y1 x2 y2 fuel x3 y3 x y x y x3 y3 x4 y4 (onLine_start _ _ _ _) O' ltac:(auto) HG) as (l1 & E1).
    destruct (piece_ends co n x1 y1 x2 y2 fuel x y x4 y4 x y x3 y3 x4 y4 O' (onLine_end _ _ _ _) ltac:(auto) HG) as (l2 & E2).
    rewrite E1. cbn [bind]. rewrite E2. cbn [bind]. eexists. reflexivity.
Qed.
Print Assumptions C42_line_knife_terminates.

(** a line cut by a vertical knife; a curve split at a point carrying its parameter *)
Example C42_example : KnifeCut noCurves 3 3 (ln 0 0 10 20) (ln 4 (-1) 4 30) = Ok [ln 0 0 4 8; ln 4 8 10 20].
Proof. byr. Qed.
Example C42_example_curve :
  Split (BezierOps noTrig noB 10) (crvSeg arch) (tP arch half) = Ok [Curve (pt 1 1) (pt 1 5) (pt 9 7) (pt 5 7); Curve (pt 9 7) (pt 13 7) (pt 17 1) (pt 17 5)].
Proof. byr. Qed.
Example C42_example_point : finiteCrv (mkCrv (pnt 1 1) (pnt 1 9) (pnt 17 1) (pnt 17 9)) /\ 0 < / 2 /\ ~ agree 7 (/ 2) 0 /\ ~ agree 7 (/ 2) 1.
Proof.
  assert (P : 10 ^ 7 = 10000000) by lra.
  split; [repeat split|]. split; [lra|]. split; intros A; apply agree_close in A; rewrite P in A; unfold Rabs in A; destruct (Rcase_abs _) in A; lra.
Qed.
