(** C33: splitting a Bezier curve preserves the curve. *)
From Coq Require Import List ZArith Bool Reals Lra Lia.
From Verif Require Import Num RealNum FloatNum PathModel SegOps Bezier PathSpec GeomSpec BezierProofs Witness.
Import ListNotations.
Local Open Scope R_scope.

Lemma lerp_fin t p q : finitePt p -> finitePt q ->
  lerp (Fin t : T RNum) p q = pnt (X p + t * (X q - X p)) (Y p + t * (Y q - Y p)).
Proof.
  intros Hp Hq. unfold lerp. rewrite !(px_fin _ Hp), !(px_fin _ Hq), !(py_fin _ Hp), !(py_fin _ Hq). fin. reflexivity.
Qed.

(** both halves of a split at [t], for any real [t] *)
Lemma hullSplit_spec c t : finiteCrv c -> let '(l, r) := hullSplit c (Fin t : T RNum) in
  finiteCrv l /\ finiteCrv r /\
  (forall s, curveX l s = curveX c (t * s) /\ curveY l s = curveY c (t * s)) /\
  (forall s, curveX r s = curveX c (t + (1 - t) * s) /\ curveY r s = curveY c (t + (1 - t) * s)).
Proof.
  intros (H1 & H2 & H3 & H4). unfold hullSplit. cbv zeta.
  rewrite !(lerp_fin t (c_s c) (c_cs c)), !(lerp_fin t (c_cs c) (c_ce c)), !(lerp_fin t (c_ce c) (c_e c)) by auto.
  rewrite !lerp_fin by apply finitePt_pnt. rewrite ?pnt_X, ?pnt_Y.
  split; [|split; [|split]].
  - repeat split; auto.
  - repeat split; auto.
  - intros s. unfold curveX, curveY, cubic. cbn [c_s c_cs c_e c_ce]. rewrite ?pnt_X, ?pnt_Y. split; ring.
  - intros s. unfold curveX, curveY, cubic. cbn [c_s c_cs c_e c_ce]. rewrite ?pnt_X, ?pnt_Y. split; ring.
Qed.

Lemma hullSplitS_cv s t l r : hullSplit (cv s) t = (l, r) -> cv (fst (hullSplitS s t)) = l /\ cv (snd (hullSplitS (N := RNum) s t)) = r.
Proof. intros E. unfold hullSplitS. rewrite E. auto. Qed.

Lemma splitAtS_cv s (t : R) : t <> 0 ->
  cv (fst (splitAtS s (Fin t : T RNum))) = fst (hullSplit (cv s) (Fin t : T RNum)) /\
  cv (snd (splitAtS s (Fin t : T RNum))) = snd (hullSplit (cv s) (Fin t : T RNum)).
Proof.
  intros H. unfold splitAtS. rewrite fzero, feqb. destruct (Reqb_spec t 0); [contradiction|].
  destruct (hullSplit (cv s) (Fin t : T RNum)) as [l r] eqn:E. destruct (hullSplitS_cv _ _ _ _ E) as [E1 E2]. auto.
Qed.

Lemma SplitCurve_hull c t : t <> 0 -> SplitCurve c (Fin t : T RNum) = hullSplit c (Fin t : T RNum).
Proof.
  intros H. unfold SplitCurve, splitSectionS. rewrite fzero, fone, fopp. fin.
  destruct (Reqb_spec t 0); [contradiction|]. destruct (Reqb_spec (- (1)) 1); [lra|]. destruct (Rltb_spec (- (1)) 0); [|lra].
  unfold hullSplitS. cbn [cv]. destruct (hullSplit c _). reflexivity.
Qed.

(** Splitting at any t other than 0: the first curve at s is the original at t*s, the second at s is the original
    at t+(1-t)*s, for every s; the split point is shared and the outer ends are kept.
    Missing from the full claim: t = 0, where it fails (see [C33_split_at_zero_refuted]). *)
Theorem C33_split_partial (c : crv RNum) (t : R) : finiteCrv c -> t <> 0 ->
  exists l r, SplitCurve c (Fin t : T RNum) = (l, r) /\ finiteCrv l /\ finiteCrv r /\
    (forall s, FindPoint l (Fin s : T RNum) = FindPoint c (Fin (t * s) : T RNum)) /\
    (forall s, FindPoint r (Fin s : T RNum) = FindPoint c (Fin (t + (1 - t) * s) : T RNum)) /\
    c_s l = c_s c /\ c_e r = c_e c /\ c_e l = c_s r /\ c_e l = FindPoint c (Fin t : T RNum).
Proof.
  intros F H. rewrite SplitCurve_hull by auto. pose proof (hullSplit_spec c t F) as G.
  destruct (hullSplit c (Fin t : T RNum)) as [l r] eqn:E. destruct G as (Fl & Fr & Gl & Gr).
  exists l, r. split; [auto|]. split; [auto|]. split; [auto|].
  assert (A : forall s, FindPoint l (Fin s : T RNum) = FindPoint c (Fin (t * s) : T RNum)).
  { intros s. rewrite !FindPoint_spec by auto. destruct (Gl s) as [-> ->]. auto. }
  split; [exact A|]. split.
  { intros s. rewrite !FindPoint_spec by auto. destruct (Gr s) as [-> ->]. auto. }
  assert (Ee : c_s l = c_s c /\ c_e r = c_e c /\ c_e l = c_s r) by (unfold hullSplit in E; injection E as <- <-; auto).
  destruct Ee as (E1 & E2 & E3). repeat split; auto.
  specialize (A 1). rewrite Rmult_1_r in A. rewrite <- A. unfold FindPoint. rewrite fzero, fone. fin.
  destruct (Reqb_spec 1 0); [lra|]. destruct (Reqb_spec 1 1); [auto|lra].
Qed.

(** Splitting at t = 0, for every curve of real numbers: the "first half" is the original at -s (not just its start
    point) and the "second half" is four zero points (not the original). *)
Theorem C33_split_at_zero_refuted :
  (forall c : crv RNum, finiteCrv c -> exists l, SplitCurve c (Fin 0 : T RNum) = (l, zeroCrv) /\
     forall s, FindPoint l (Fin s : T RNum) = FindPoint c (Fin (- s) : T RNum)) /\
  (exists c : crv RNum, finiteCrv c /\ forall l r, SplitCurve c (Fin 0 : T RNum) = (l, r) ->
     FindPoint l (Fin 1 : T RNum) <> FindPoint c (Fin 0 : T RNum) /\ FindPoint r (Fin 1 : T RNum) <> FindPoint c (Fin 1 : T RNum)).
Proof.
  assert (G : forall c : crv RNum, finiteCrv c -> exists l, SplitCurve c (Fin 0 : T RNum) = (l, zeroCrv) /\
     forall s, FindPoint l (Fin s : T RNum) = FindPoint c (Fin (- s) : T RNum)).
  { intros c F. pose proof (hullSplit_spec c (-1) F) as G.
    destruct (hullSplit c (Fin (-1) : T RNum)) as [l r] eqn:E. destruct G as (Fl & Fr & Gl & Gr).
    exists l. split.
    - unfold SplitCurve, splitSectionS, splitAtS. rewrite fone, fopp, fzero. fin.
      destruct (Reqb_spec 0 0); [|lra]. destruct (Reqb_spec (- (1)) 0); [lra|].
      replace (Fin (- (1))) with (Fin (-1)) by (f_equal; lra).
      unfold hullSplitS. cbn [cv]. rewrite E. reflexivity.
    - intros s. rewrite !FindPoint_spec by auto. destruct (Gl s) as [-> ->]. replace (-1 * s) with (- s) by ring. auto. }
  split; [exact G|].
  set (c := mkCrv (pnt 0 0) (pnt 1 0) (pnt 3 1) (pnt 2 1)). assert (F : finiteCrv c) by (repeat split).
  exists c. split; [exact F|]. destruct (G c F) as (l & E & H). intros l' r' E'. rewrite E in E'. injection E' as <- <-. split.
  - rewrite H, !FindPoint_spec by auto. intros C. injection C as C1 C2. unfold curveX, cubic, c in C1. cbn in C1. lra.
  - rewrite !FindPoint_spec; [|auto|repeat split]. intros C. injection C as C1 C2. unfold curveX, cubic, c in C1. cbn in C1. lra.
Qed.

(** The section between two parameters is the original at tStart+(tEnd-tStart)*s.
    Missing: tStart = tEnd, tStart = 1 with tEnd other than 1, and a negative tEnd (used by the code as "no end"). *)
Theorem C33_section_partial (c : crv RNum) (t1 t2 : R) : finiteCrv c -> 0 <= t2 -> t1 <> t2 -> t1 <> 1 ->
  forall s, FindPoint (SplitCurveSection c (Fin t1 : T RNum) (Fin t2 : T RNum)) (Fin s : T RNum)
            = FindPoint c (Fin (t1 + (t2 - t1) * s) : T RNum).
Proof.
  intros F H2 Hne H1 s. unfold SplitCurveSection, splitSectionS. fin.
  destruct (Reqb_spec t1 0) as [->|N0].
  - cbn [fst]. destruct (splitAtS_cv (mkCseg c (Fin 0 : T RNum) (Fin t2 : T RNum)) t2) as [E _]; [lra|]. rewrite E. cbn [cv].
    pose proof (hullSplit_spec c t2 F) as G. destruct (hullSplit c (Fin t2 : T RNum)) as [l r]. destruct G as (Fl & Fr & Gl & Gr).
    cbn [fst]. rewrite !FindPoint_spec by auto. destruct (Gl s) as [-> ->]. replace (0 + (t2 - 0) * s) with (t2 * s) by ring. auto.
  - destruct (Reqb_spec t2 1) as [->|N1].
    + cbn [fst]. destruct (splitAtS_cv (mkCseg c (Fin t1 : T RNum) (Fin 1 : T RNum)) t1) as [_ E]; [lra|]. rewrite E. cbn [cv].
      pose proof (hullSplit_spec c t1 F) as G. destruct (hullSplit c (Fin t1 : T RNum)) as [l r]. destruct G as (Fl & Fr & Gl & Gr).
      cbn [snd]. rewrite !FindPoint_spec by auto. destruct (Gr s) as [-> ->]. auto.
    + destruct (Rltb_spec t2 0); [lra|]. unfold mapRange. fin. rewrite fdiv by lra. fin.
      pose proof (hullSplit_spec c t1 F) as G. destruct (hullSplit c (Fin t1 : T RNum)) as [l r] eqn:E. destruct G as (Fl & Fr & Gl & Gr).
      set (u := 0 + (1 - 0) * ((t2 - t1) / (1 - t1))).
      assert (Hu : u = (t2 - t1) / (1 - t1)) by (unfold u; field; lra).
      assert (Hu' : u <> 0). { intros C. apply Hne. assert (u * (1 - t1) = 0) by (rewrite C; ring). rewrite Hu in H. unfold Rdiv in H. rewrite Rmult_assoc, Rinv_l in H by lra. lra. }
      destruct (splitAtS_cv (snd (hullSplitS (mkCseg c (Fin t1 : T RNum) (Fin t2 : T RNum)) (Fin t1 : T RNum))) u Hu') as [E' _]. rewrite E'.
      destruct (hullSplitS_cv (mkCseg c (Fin t1 : T RNum) (Fin t2 : T RNum)) (Fin t1 : T RNum) l r) as [_ E2]; [exact E|]. rewrite E2.
      pose proof (hullSplit_spec r u Fr) as G. destruct (hullSplit r (Fin u : T RNum)) as [l' r']. destruct G as (Fl' & Fr' & Gl' & Gr').
      cbn [fst]. rewrite !FindPoint_spec by auto. destruct (Gl' s) as [-> ->]. destruct (Gr (u * s)) as [-> ->].
      replace (t1 + (1 - t1) * (u * s)) with (t1 + (t2 - t1) * s); [auto|]. rewrite Hu. field. lra.
Qed.

(** de Casteljau's recursion and the Bernstein formula give the same point, on the curve *)
Theorem C33_evaluation_agrees (c : crv RNum) (t : R) : finiteCrv c ->
  DeCasteljau c (Fin t : T RNum) = Ok (FindPoint c (Fin t : T RNum)) /\
  FindPoint c (Fin t : T RNum) = pnt (cubic (X (c_s c)) (X (c_cs c)) (X (c_ce c)) (X (c_e c)) t)
                                     (cubic (Y (c_s c)) (Y (c_cs c)) (Y (c_ce c)) (Y (c_e c)) t).
Proof. intros F. rewrite DeCasteljau_spec, FindPoint_spec by auto. auto. Qed.

(** a curve and parameters meeting the hypotheses, in float64: both halves at 1/2 and the section 1/4..1/2 *)
Definition c33 : crv FNum := mkCrv (pt 0 0) (pt 0 64) (pt 128 0) (pt 128 64).
Example C33_example :
  let '(l, r) := SplitCurve c33 (flt 5 (-1)) in
  let s := SplitCurveSection c33 (flt 25 (-2)) (flt 5 (-1)) in
  (map (fun p => (px p, py p)) (curveArray l), map (fun p => (px p, py p)) (curveArray r), px (c_s s), px (c_e s)) =
  (map (fun p => (fz (fst p), fz (snd p))) [(0, 0); (0, 32); (32, 48); (64, 48)]%Z,
   map (fun p => (fz (fst p), fz (snd p))) [(64, 48); (96, 48); (128, 32); (128, 0)]%Z, fz 20, fz 64).
Proof. vm_compute. reflexivity. Qed.
Example C33_hypotheses : finiteCrv (mkCrv (pnt 0 0) (pnt 0 64) (pnt 128 0) (pnt 128 64)) /\ 1 / 4 <> 0 /\ 1 / 4 <> 1 / 2 /\ 1 / 4 <> 1.
Proof. repeat split; lra. Qed.
Print Assumptions C33_split_partial.
