(** C11: joining yields one contiguous stroke. *)
From Coq Require Import List ZArith Bool Reals Lra.
From Verif Require Import Num NumLaws FloatNum RealNum RealTrig PathModel DrawModel SegOps TransformsModel Bezier PathSpec GeomSpec PathProofs TextProofs CleanupProofs DedupProofs ReorderProofs JoinProofs JoinProofs2 JoinChain BezierProofs PrecisionProofs RootsProofs Prop_C33 Prop_C56 Witness.
Import ListNotations.

(** Full claim: JoinTransform terminates and returns one move to the start followed by drawn segments, each starting where the
    previous ended.  Proved: it terminates (within [2 * strokes + 2] calls of the recursive function, whenever the curve operators do)
    and every successful result is empty or a single move from the origin to the first stroke followed by strokes
    only.  Missing: contiguity of the strokes, which is false for parallel lines ([C11_contiguous_refuted]). *)
Theorem C11_one_stroke_partial : forall (N : Num) (co : CurveOps N) (dop : Z), OrdLaws N ->
  forall roomy closePath prec (p : path N) fuel,
  (forall c a b, co_intersectProjected co c a b <> OutOfFuel) /\ (forall c x, co_split co c x <> OutOfFuel) ->
  match p with [] => True | g :: _ => isMove g = true end -> Forall nan_free_ends p ->
  (2 * length (drawn p) + 2 <= fuel)%nat ->
  match JoinT co dop fuel roomy closePath prec p with
  | Ok q => q = [] \/ exists g r, q = Move origin (sstart g) :: g :: r /\ Forall visible (g :: r)
  | Err => True | Panic => True | OutOfFuel => False
  end.
Proof. exact @JoinT_good. Qed.
Print Assumptions C11_one_stroke_partial.

Theorem C11_laws_float : OrdLaws FNum. Proof. exact FNum_ord_laws. Qed.
Print Assumptions C11_laws_float.

(** Finding: two parallel, separated lines are "joined" without any connecting segment: the second starts
    elsewhere than the first ends, and the move between them is gone. *)
Theorem C11_contiguous_refuted : forall co : CurveOps FNum, exists (p q : path FNum),
  connected p /\ JoinT co 3 100 true false 3 p = Ok q /\ ~ connected q.
Proof.
  intros co. exists [mv 0 0 0 0; ln 0 0 10 0; mv 10 0 10 5; ln 10 5 20 5], [mv 0 0 0 0; ln 0 0 10 0; ln 10 5 20 5].
  split; [repeat (constructor; [left; reflexivity|]); constructor|]. split; [byr|].
  intros H. cbn [connected] in H.
  repeat match goal with X : chain _ (_ :: _) |- _ => inversion X; clear X; subst end.
  match goal with X : same_place (send (ln 0 0 10 0)) _ |- _ => destruct X as [X|[_ X]]; [discriminate X|vm_compute in X; discriminate X] end.
Qed.
Print Assumptions C11_contiguous_refuted.

(** two lines meeting at a corner once extended, given in the wrong directions *)
Definition ex_path : path FNum := [mv 0 0 10 0; ln 10 0 0 0; mv 0 0 12 8; ln 12 8 12 2].
Example C11_example : connected ex_path /\ Forall nan_free_ends ex_path /\
  JoinT noCurves 3 6 true false 3 ex_path = Ok [mv 0 0 0 0; ln 0 0 12 0; ln 12 0 12 8].
Proof.
  split; [repeat (constructor; [left; reflexivity|]); constructor|]. split; [repeat constructor|byr].
Qed.
Example C11_example_ops : (forall c a b, co_intersectProjected noCurves c a b <> OutOfFuel) /\ (forall c x, co_split noCurves c x <> OutOfFuel).
Proof. split; discriminate. Qed.

(** If everything drawn is curves, the whole result is contiguous: the successful results of JoinTransform are one stroke without a gap, for
    every number system and whatever the curve operators do.  (With lines among them see [C11_pair_partial].) *)
Definition isCurve {N : Num} (g : seg N) : Prop := match g with Curve _ _ _ _ => True | _ => False end.
Lemma curves_join {N : Num} (co : CurveOps N) dop g h : isCurve g -> isCurve h ->
  exists a b, Join co dop g h = Ok [a; b] /\ isCurve a /\ isCurve b /\ sstart a = sstart g /\ send b = send h /\ send a = sstart b.
Proof.
  destruct g as [| |s cs e ce]; try contradiction. destruct h as [| |s' cs' e' ce']; try contradiction. intros _ _. unfold Join. destruct (EqualsPrecision _ _ _); do 2 eexists; (split; [reflexivity|]); cbn; auto.
Qed.
Lemma curves_start {N : Num} (g h : seg N) : same_but_start h g -> isCurve g -> isCurve h.
Proof. destruct g, h; cbn; tauto. Qed.
Theorem C11_curves : forall (N : Num) (co : CurveOps N) (dop : Z), OrdLaws N -> forall roomy closePath prec (p q : path N) fuel,
  match p with [] => True | g :: _ => isMove g = true end -> Forall nan_free_ends p -> Forall isCurve (drawn p) ->
  JoinT co dop fuel roomy closePath prec p = Ok q -> connected q /\ Forall isCurve (drawn q).
Proof.
  intros N co dop O roomy cl prec p q fuel Hh Hn Hc E.
  destruct (JoinT_connected co dop isCurve ltac:(intros []; cbn; auto) ltac:(intros []; cbn; auto) curves_start (curves_join co dop) O fuel roomy cl prec p q) as (C & K & _); auto.
Qed.
Print Assumptions C11_curves.
(** two curves with a gap between them, the second given backwards *)
Definition cur (a b c d e f g h : Z) : seg FNum := Curve (pt a b) (pt c d) (pt g h) (pt e f).
Definition ex_curves : path FNum := [mv 0 0 0 0; cur 0 0 1 2 3 2 4 0; mv 4 0 9 0; cur 9 0 8 2 7 2 5 0].
Example C11_curves_example : Forall nan_free_ends ex_curves /\ Forall isCurve (drawn ex_curves) /\
  JoinT noCurves 3 6 true false 3 ex_curves = Ok [mv 0 0 0 0; cur 0 0 1 2 3 2 5 0; cur 5 0 7 2 8 2 9 0].
Proof. split; [repeat constructor|]. split; [repeat constructor|byr]. Qed.

Local Open Scope R_scope.
(** well inside the curve: the parameter rounds to neither 0 nor 1 and the point agrees with neither end, to 7 decimals *)
Definition inside (c : crv RNum) (t : ER) : Prop :=
  PrecisionEquals (t : T RNum) zero 7 = false /\ PrecisionEquals (t : T RNum) one 7 = false /\
  EqualsPrecision (FindPoint c (t : T RNum)) (c_s c) 7 = false /\ EqualsPrecision (FindPoint c (t : T RNum)) (c_e c) 7 = false.
(** [h] is the part of the curve [c] between the parameters [a] and [b] *)
Definition part_of (h : seg RNum) (c : crv RNum) (a b : R) : Prop :=
  exists k, h = crvSeg k /\ forall s, FindPoint k (Fin s : T RNum) = FindPoint c (Fin (a + (b - a) * s) : T RNum).

Lemma keep01_range (t : ER) l : In t (keep01 (N := RNum) l) -> exists r, t = Fin r /\ 0 <= r <= 1.
Proof.
  unfold keep01. intros H. apply filter_In in H. destruct H as [_ H]. apply andb_prop in H. destruct H as [H1 H2]. rewrite fzero in H1. rewrite fone in H2.
  destruct t as [r|[]|]; try discriminate. rewrite fleb in *. exists r. split; [reflexivity|]. destruct (Rleb_spec 0 r); [|discriminate]. destruct (Rleb_spec r 1); [|discriminate]. lra.
Qed.
Lemma roots_range tr bm c a b (t : ER) : In t (IntersectsProjectedLine (N := RNum) tr bm c a b) -> exists r, t = Fin r /\ 0 <= r <= 1.
Proof.
  unfold IntersectsProjectedLine, Roots, polyRoots, cubicRoots. intros H.
  repeat match goal with H : context [if ?b then _ else _] |- _ => destruct b | H : context [match ?b with _ => _ end] |- _ => destruct b end; try contradiction; eapply keep01_range; exact H.
Qed.
Lemma closest_in {N : Num} (e : Pt N) pts : forall best d, In (SegOps.closest_loop e pts best d) (best :: pts).
Proof.
  induction pts as [|p r IH]; intros best d; cbn; [auto|]. destruct (ltb _ _).
  - destruct (IH p (Distance e (fst p))) as [H|H]; auto.
  - destruct (IH best d) as [H|H]; auto.
Qed.
Lemma bcC_finite c : finiteCrv c -> bcC (N := RNum) c = c.
Proof. intros (A & B & C & D). destruct c as [s cs e ce]. unfold bcC. cbn [c_s c_cs c_e c_ce] in *. rewrite !bpP_finite; auto. Qed.

(** splitting at a point where the extended line meets the curve *)
Lemma split_inside tr bm fuel c (t : R) : finiteCrv c -> 0 <= t <= 1 -> inside c (Fin t) ->
  exists k1 k2, Split (BezierOps tr bm fuel) (crvSeg c) (tP c (Fin t : T RNum)) = Ok [crvSeg k1; crvSeg k2] /\ finiteCrv k1 /\ finiteCrv k2 /\
    c_s k1 = c_s c /\ c_e k2 = c_e c /\ c_e k1 = fst (tP c (Fin t : T RNum)) /\ c_s k2 = fst (tP c (Fin t : T RNum)) /\ part_of (crvSeg k1) c 0 t /\ part_of (crvSeg k2) c t 1.
Proof.
  intros F Ht (I0 & I1 & Is & Ie). assert (T0 : t <> 0).
  { intros ->. rewrite fzero in I0. unfold PrecisionEquals in I0. change (Z.ltb 7 0) with false in I0. cbv iota in I0. rewrite String.eqb_refl in I0. discriminate I0. }
  destruct (C33_split_partial c t F T0) as (k1 & k2 & ES & F1 & F2 & G1 & G2 & E1 & E2 & E3 & E4).
  assert (FP : finitePt (FindPoint c (Fin t : T RNum))) by (rewrite <- E4; apply F1).
  exists k1, k2. unfold tP. cbn [fst]. rewrite (bpP_finite _ FP).
  split; [|split; [exact F1|split; [exact F2|split; [exact E1|split; [exact E2|split; [exact E4|split; [congruence|split]]]]]]].
  - unfold Split. cbn [crvSeg sstart send fst]. destruct c as [s cs e ce]. cbn [c_s c_e crvSeg sstart send] in *. rewrite Is, Ie. cbn [orb]. cbn [BezierOps co_split]. unfold opSplit, getTfromPoint. cbn [snd].
    rewrite fzero. unfold gtb. rewrite fltb. destruct (Rltb_spec 0 t); [|lra]. cbn [bind]. rewrite fzero in I0. rewrite I0, I1. cbn [orb c_cs c_ce]. rewrite ES. cbn [bind map]. rewrite !bcC_finite by auto. reflexivity.
  - exists k1. split; [reflexivity|]. intros s. rewrite G1. replace (0 + (t - 0) * s) with (t * s) by ring. reflexivity.
  - exists k2. split; [reflexivity|]. intros s. apply G2.
Qed.

(** the parameter at which the join cuts: one of the places where the extended line meets the curve *)
Lemma closest_root tr bm c a b (e : Pt RNum) p0 r d : map (tP c) (IntersectsProjectedLine tr bm c a b) = p0 :: r ->
  exists t : R, SegOps.closest_loop e (p0 :: r) p0 d = tP c (Fin t : T RNum) /\ 0 <= t <= 1 /\ In (Fin t) (IntersectsProjectedLine (N := RNum) tr bm c a b).
Proof.
  intros E. pose proof (closest_in e (p0 :: r) p0 d) as H. assert (H' : In (SegOps.closest_loop e (p0 :: r) p0 d) (map (tP c) (IntersectsProjectedLine tr bm c a b))) by (rewrite E; destruct H as [<-|H]; [left; reflexivity|exact H]).
  apply in_map_iff in H'. destruct H' as (t & Et & It). destruct (roots_range _ _ _ _ _ _ It) as (x & -> & Hx). exists x. auto.
Qed.

(** A line and a curve that do not touch, joined: either they meet nowhere even if the line is extended, and a line is put between them, or the line
    is made to end at such a meeting place and the curve to start there, keeping the rest of its course; every meeting
    place being well inside the curve. *)
Definition meets_inside tr bm (c : crv RNum) (a b : Pt RNum) : Prop := forall t : ER, In t (IntersectsProjectedLine tr bm c a b) -> inside c t.
Theorem C11_line_curve_partial : forall (tr : Trig RNum) (bm : BMath RNum) fuel dop (s1 e1 : Pt RNum) (c : crv RNum),
  finitePt s1 -> finitePt e1 -> finiteCrv c -> EqualsPrecision e1 (c_s c) dop = false -> meets_inside tr bm c s1 e1 ->
  (IntersectsProjectedLine tr bm c s1 e1 = [] /\ Join (BezierOps tr bm fuel) dop (Line s1 e1) (crvSeg c) = Ok [Line s1 e1; Line e1 (c_s c); crvSeg c]) \/
  (exists t rest, 0 <= t <= 1 /\ In (Fin t) (IntersectsProjectedLine (N := RNum) tr bm c s1 e1) /\
     Join (BezierOps tr bm fuel) dop (Line s1 e1) (crvSeg c) = Ok [Line s1 (FindPoint c (Fin t : T RNum)); rest] /\
     part_of rest c t 1 /\ sstart rest = FindPoint c (Fin t : T RNum) /\ send rest = c_e c).
Proof.
  intros tr bm fuel dop s1 e1 c H1 H2 F N I. assert (EJ : Join (BezierOps tr bm fuel) dop (Line s1 e1) (crvSeg c) = JoinLineAndCurve (BezierOps tr bm fuel) s1 e1 c).
  { unfold Join. destruct c as [s cs e ce]. cbn [crvSeg send sstart c_s] in *. rewrite N. reflexivity. }
  rewrite !EJ. unfold JoinLineAndCurve. cbn [BezierOps co_intersectProjected bind]. destruct (IntersectsProjectedLine tr bm c s1 e1) as [|t0 ts] eqn:ER; [left; auto|]. right.
  cbn [map]. destruct (closest_root tr bm c s1 e1 e1 (tP c t0) (map (tP c) ts) (Distance e1 (fst (tP c t0)))) as (t & Et & Ht & It); [rewrite ER; reflexivity|].
  rewrite Et. destruct (split_inside tr bm fuel c t F Ht (I _ It)) as (k1 & k2 & ES & F1 & F2 & A1 & A2 & A3 & A4 & _ & P2).
  change (mkCurveOps opBox _ _ _ _ _) with (BezierOps tr bm fuel). rewrite ES. cbn [bind].
  assert (FP : fst (tP c (Fin t : T RNum)) = FindPoint c (Fin t : T RNum)).
  { rewrite FindPoint_spec by exact F. cbn. rewrite FindPoint_spec by exact F. apply bpP_finite, finitePt_pnt. }
  rewrite FP in *. exists t, (crvSeg k2). rewrite <- ER. split; [exact Ht|]. split; [exact It|]. split; [reflexivity|]. split; [exact P2|]. destruct k2 as [? ? ? ?]; cbn in *; auto.
Qed.
Print Assumptions C11_line_curve_partial.
Theorem C11_curve_line_partial : forall (tr : Trig RNum) (bm : BMath RNum) fuel dop (c : crv RNum) (s2 e2 : Pt RNum),
  finitePt s2 -> finitePt e2 -> finiteCrv c -> EqualsPrecision (c_e c) s2 dop = false -> meets_inside tr bm c s2 e2 ->
  (IntersectsProjectedLine tr bm c s2 e2 = [] /\ Join (BezierOps tr bm fuel) dop (crvSeg c) (Line s2 e2) = Ok [crvSeg c; Line (c_e c) s2; Line s2 e2]) \/
  (exists t begin, 0 <= t <= 1 /\ In (Fin t) (IntersectsProjectedLine (N := RNum) tr bm c s2 e2) /\
     Join (BezierOps tr bm fuel) dop (crvSeg c) (Line s2 e2) = Ok [begin; Line (FindPoint c (Fin t : T RNum)) e2] /\
     part_of begin c 0 t /\ sstart begin = c_s c /\ send begin = FindPoint c (Fin t : T RNum)).
Proof.
  intros tr bm fuel dop c s2 e2 H1 H2 F N I. assert (EJ : Join (BezierOps tr bm fuel) dop (crvSeg c) (Line s2 e2) = JoinCurveAndLine (BezierOps tr bm fuel) c s2 e2).
  { unfold Join. destruct c as [s cs e ce]. cbn [crvSeg send sstart c_e] in *. rewrite N. reflexivity. }
  rewrite !EJ. unfold JoinCurveAndLine. cbn [BezierOps co_intersectProjected bind]. destruct (IntersectsProjectedLine tr bm c s2 e2) as [|t0 ts] eqn:ER; [left; auto|]. right.
  cbn [map]. destruct (closest_root tr bm c s2 e2 (c_e c) (tP c t0) (map (tP c) ts) (Distance (c_e c) (fst (tP c t0)))) as (t & Et & Ht & It); [rewrite ER; reflexivity|].
  rewrite Et. destruct (split_inside tr bm fuel c t F Ht (I _ It)) as (k1 & k2 & ES & F1 & F2 & A1 & A2 & A3 & A4 & P1 & _).
  change (mkCurveOps opBox _ _ _ _ _) with (BezierOps tr bm fuel). rewrite ES. cbn [bind].
  assert (FP : fst (tP c (Fin t : T RNum)) = FindPoint c (Fin t : T RNum)).
  { rewrite FindPoint_spec by exact F. cbn. rewrite FindPoint_spec by exact F. apply bpP_finite, finitePt_pnt. }
  rewrite FP in *. exists t, (crvSeg k1). rewrite <- ER. split; [exact Ht|]. split; [exact It|]. split; [reflexivity|]. split; [exact P1|]. destruct k1 as [? ? ? ?]; cbn in *; auto.
Qed.
Print Assumptions C11_curve_line_partial.

(** Two lines: they are cut or extended to the place LineIntersection gives (C38 says what that is). *)
(** Any two strokes: what they become starts where the first did, ends where the second did and has no gap.  Missing from the full claim:
    parallel lines and curves met at an end, where it fails ([C11_contiguous_refuted], [C11_far_end_refuted]). *)
Definition joinable tr bm dop (g1 g2 : seg RNum) : Prop :=
  match g1, g2 with
  | Line s1 e1, Line s2 e2 => LineIntersection s1 e1 s2 e2 dop <> None
  | Line s1 e1, Curve s cs e ce => meets_inside tr bm (mkCrv s cs e ce) s1 e1
  | Curve s cs e ce, Line s2 e2 => meets_inside tr bm (mkCrv s cs e ce) s2 e2
  | Curve _ _ _ _, Curve _ _ _ _ => True
  | _, _ => False
  end.
Theorem C11_pair_partial : forall (tr : Trig RNum) (bm : BMath RNum) fuel dop (g1 g2 : seg RNum),
  finiteSeg g1 -> finiteSeg g2 -> visible g1 -> visible g2 -> EqualsPrecision (send g1) (sstart g2) dop = true \/ joinable tr bm dop g1 g2 ->
  exists a r, Join (BezierOps tr bm fuel) dop g1 g2 = Ok (a :: r) /\ sstart a = sstart g1 /\ send (last r a) = send g2 /\ connected (a :: r).
Proof.
  intros tr bm fuel dop g1 g2 F1 F2 V1 V2 H. assert (refl : forall p : Pt RNum, same_place p p) by (left; reflexivity).
  destruct (EqualsPrecision (send g1) (sstart g2) dop) eqn:E.
  { unfold Join. rewrite E. exists g1, [setStart g2 (send g1)]. split; [reflexivity|]. split; [reflexivity|]. split; [destruct g2; reflexivity|]. repeat (constructor; auto). rewrite sstart_setStart. auto. }
  destruct H as [H|H]; [discriminate|]. destruct g1 as [|s1 e1|s1 cs1 e1 ce1]; [contradiction V1| |]; (destruct g2 as [|s2 e2|s2 cs2 e2 ce2]; [contradiction V2| |]); cbn [joinable send sstart] in *.
  - unfold Join. cbn [send sstart]. rewrite E. unfold JoinLines. destruct (LineIntersection s1 e1 s2 e2 dop) as [p|]; [|congruence]. do 2 eexists. split; [reflexivity|]. destruct F1. cbn. rewrite (clonePt_finite s1) by auto. repeat split; auto. repeat (constructor; auto).
  - destruct F1 as [Fa Fb]. assert (Fc : finiteCrv (mkCrv s2 cs2 e2 ce2)) by (destruct F2 as (? & ? & ? & ?); repeat split; auto).
    destruct (C11_line_curve_partial tr bm fuel dop s1 e1 (mkCrv s2 cs2 e2 ce2)) as [(_ & EJ)|(t & rest & _ & _ & EJ & _ & A & B)]; auto; (change (Curve s2 cs2 e2 ce2) with (crvSeg (mkCrv s2 cs2 e2 ce2)); rewrite EJ; do 2 eexists; (split; [reflexivity|]); cbn; repeat split; auto; repeat (constructor; auto)).
  - destruct F2 as [Fa Fb]. assert (Fc : finiteCrv (mkCrv s1 cs1 e1 ce1)) by (destruct F1 as (? & ? & ? & ?); repeat split; auto).
    destruct (C11_curve_line_partial tr bm fuel dop (mkCrv s1 cs1 e1 ce1) s2 e2) as [(_ & EJ)|(t & beg & _ & _ & EJ & _ & A & B)]; auto; (change (Curve s1 cs1 e1 ce1) with (crvSeg (mkCrv s1 cs1 e1 ce1)); rewrite EJ; do 2 eexists; (split; [reflexivity|]); cbn; repeat split; auto; repeat (constructor; auto)).
  - unfold Join. cbn [send sstart]. rewrite E. do 2 eexists. split; [reflexivity|]. cbn. repeat split; auto. repeat (constructor; auto).
Qed.
Print Assumptions C11_pair_partial.

(** Two curves: only the end of the first moves, to where the second starts. *)
Theorem C11_two_curves : forall (co : CurveOps RNum) dop (c1 c2 : crv RNum), finiteCrv c1 -> finiteCrv c2 -> EqualsPrecision (c_e c1) (c_s c2) dop = false ->
  Join co dop (crvSeg c1) (crvSeg c2) = Ok [Curve (c_s c1) (c_cs c1) (c_s c2) (c_ce c1); crvSeg c2].
Proof.
  intros co dop [s1 cs1 e1 ce1] [s2 cs2 e2 ce2] (A & B & C & D) (A' & B' & C' & D') E. unfold Join. cbn [crvSeg send sstart c_s c_e c_cs c_ce] in *. rewrite E. unfold JoinCurves. cbn [c_s c_e c_cs c_ce].
  rewrite (px_fin _ A'), (py_fin _ A'), (px_fin _ C), (py_fin _ C). fin. rewrite NewPoint_fin.
  replace (X e1 + (X s2 - X e1)) with (X s2) by ring. replace (Y e1 + (Y s2 - Y e1)) with (Y s2) by ring. rewrite <- A'. reflexivity.
Qed.
Print Assumptions C11_two_curves.

(** ** an upright curve beyond the end of a line: the line is extended to the middle of the curve and the upper half kept *)
Lemma differ7 (x y : R) : / 10 ^ 7 < Rabs (x - y) -> PrecisionEquals (Fin x : T RNum) (Fin y) 7 = false.
Proof. intros H. destruct (PrecisionEquals (Fin x : T RNum) (Fin y) 7) eqn:E; [|reflexivity]. exfalso. change 7%Z with (Z.of_nat 7) in E. apply PrecisionEquals_close_R in E. lra. Qed.
Lemma differPt n x y x' y' : / 10 ^ n < Rabs (x - x') \/ / 10 ^ n < Rabs (y - y') -> EqualsPrecision (pnt x y) (pnt x' y') (Z.of_nat n) = false.
Proof.
  intros H. destruct (EqualsPrecision (pnt x y) (pnt x' y') (Z.of_nat n)) eqn:E; [|reflexivity]. exfalso. apply EqualsPrecision_coord in E. destruct E as [E1 E2]. apply PrecisionEquals_close_R in E1. apply PrecisionEquals_close_R in E2. lra.
Qed.
Definition upright : crv RNum := @mkCrv RNum (pnt 5 (-3)) (pnt 5 (-1)) (pnt 5 3) (pnt 5 1).
Lemma upright_fin : finiteCrv upright. Proof. repeat split; apply finitePt_pnt. Qed.
Lemma upright_apart : told_apart (pnt 0 0) (pnt 1 0) upright.
Proof.
  unfold told_apart. rewrite !off_axis. unfold upright. cbn [c_s c_cs c_ce c_e]. rewrite !pnt_Y. split; [left; lra|]. split; [intros _; left; lra|]. split; [intros _ _; right|lra].
  match goal with |- _ < Rabs ?x => replace x with 6 by ring end. rewrite Rabs_right; lra.
Qed.
Lemma axis_apart : X (pnt 0 0) <> X (pnt 1 0) \/ Y (pnt 0 0) <> Y (pnt 1 0). Proof. left. rewrite !pnt_X. lra. Qed.
Lemma upright_meets bm_ : bm_ = RBMath -> meets_inside RTrig bm_ upright (pnt 0 0) (pnt 1 0).
Proof.
  intros -> u I. destruct (C56_meets_partial upright _ _ upright_fin (finitePt_pnt 0 0) (finitePt_pnt 1 0) axis_apart upright_apart) as [A B].
  destruct (B u I) as (t & ->). apply A in I. destruct I as [_ I].
  assert (EX : curveX upright t = 5) by (unfold curveX, cubic, upright; cbn [c_s c_cs c_ce c_e]; rewrite !pnt_X; ring). assert (EY : curveY upright t = -3 + 6 * t) by (unfold curveY, cubic, upright; cbn [c_s c_cs c_ce c_e]; rewrite !pnt_Y; ring).
  assert (T : t = 1 / 2) by (unfold on_line in I; rewrite EX, EY, !pnt_X, !pnt_Y in I; lra). unfold inside. rewrite FindPoint_spec by apply upright_fin. rewrite EX, EY, T. unfold upright. cbn [c_s c_e]. rewrite fzero, fone.
  assert (P : / 10 ^ 7 <= 1 / 10) by (simpl; lra).
  split; [apply differ7; rewrite Rabs_right; lra|]. split; [apply differ7; rewrite Rabs_left; lra|]. split; apply (differPt 7); right; unfold Rabs; destruct (Rcase_abs _); lra.
Qed.
Example C11_line_curve_example : finitePt (pnt 0 0) /\ finitePt (pnt 1 0) /\ finiteCrv upright /\ EqualsPrecision (pnt 1 0) (c_s upright) 3 = false /\
  meets_inside RTrig RBMath upright (pnt 0 0) (pnt 1 0) /\ In (Fin (1 / 2)) (IntersectsProjectedLine RTrig RBMath upright (pnt 0 0) (pnt 1 0)).
Proof.
  split; [apply finitePt_pnt|]. split; [apply finitePt_pnt|]. split; [apply upright_fin|]. split.
  - unfold upright. cbn [c_s]. apply (differPt 3). left. rewrite Rabs_left by lra. simpl. lra.
  - split; [apply upright_meets; reflexivity|]. apply (C56_meets_partial upright _ _ upright_fin (finitePt_pnt 0 0) (finitePt_pnt 1 0) axis_apart upright_apart). split; [lra|].
    unfold on_line, curveX, curveY, cubic, upright; cbn [c_s c_cs c_ce c_e]; rewrite !pnt_X, !pnt_Y. lra.
Qed.
(** the same curve before the line from (0,0) to (1,0) *)
Example C11_curve_line_example : finiteCrv upright /\ EqualsPrecision (c_e upright) (pnt 0 0) 3 = false /\ meets_inside RTrig RBMath upright (pnt 0 0) (pnt 1 0).
Proof.
  split; [apply upright_fin|]. split; [|apply upright_meets; reflexivity].
  unfold upright. cbn [c_e]. apply (differPt 3). left. rewrite Rabs_right by lra. simpl. lra.
Qed.
Example C11_pair_example : finiteSeg (Line (pnt 0 0) (pnt 1 0)) /\ finiteSeg (crvSeg upright) /\ joinable RTrig RBMath 3 (Line (pnt 0 0) (pnt 1 0)) (crvSeg upright).
Proof.
  split; [split; apply finitePt_pnt|]. split; [repeat split; apply finitePt_pnt|]. apply (upright_meets RBMath). reflexivity.
Qed.
Example C11_two_curves_example : finiteCrv upright /\ EqualsPrecision (c_e upright) (c_s upright) 7 = false.
Proof. split; [apply upright_fin|]. unfold upright. cbn [c_s c_e]. apply (differPt 7). right. rewrite Rabs_right by lra. simpl. lra. Qed.

(** Finding: if the extended line meets the curve at its far end, the line is extended to that end and the whole curve follows, starting elsewhere. *)
Definition falling : crv RNum := @mkCrv RNum (pnt 5 3) (pnt 5 2) (pnt 4 0) (pnt 4 1).
Theorem C11_far_end_refuted : forall fuel, exists (s1 e1 : Pt RNum) (c : crv RNum) l, finitePt s1 /\ finitePt e1 /\ finiteCrv c /\
  Join (BezierOps RTrig RBMath fuel) 3 (Line s1 e1) (crvSeg c) = Ok l /\ ~ connected l.
Proof.
  intros fuel. exists (pnt 0 0), (pnt 1 0), falling, [Line (pnt 0 0) (pnt 4 0); crvSeg falling].
  assert (F : finiteCrv falling) by (repeat split; apply finitePt_pnt). split; [apply finitePt_pnt|]. split; [apply finitePt_pnt|]. split; [exact F|].
  assert (TA : told_apart (pnt 0 0) (pnt 1 0) falling).
  { unfold told_apart. rewrite !off_axis. unfold falling. cbn [c_s c_cs c_ce c_e]. rewrite !pnt_Y. split; [left; lra|]. split; [intros _; left; lra|]. split; [intros _ _; right|lra].
    match goal with |- _ < Rabs ?x => replace x with (-3) by ring end. rewrite Rabs_left; lra. }
  destruct (C56_meets_partial falling _ _ F (finitePt_pnt 0 0) (finitePt_pnt 1 0) axis_apart TA) as [A _].
  assert (EX : curveX falling 1 = 4) by (unfold curveX, cubic, falling; cbn [c_s c_cs c_ce c_e]; rewrite !pnt_X; ring). assert (EY : forall t, curveY falling t = 3 - 3 * t) by (intros t; unfold curveY, cubic, falling; cbn [c_s c_cs c_ce c_e]; rewrite !pnt_Y; ring).
  split.
  - assert (E0 : EqualsPrecision (pnt 1 0) (pnt 5 3) 3 = false).
    { apply (differPt 3). left. rewrite Rabs_left by lra. simpl. lra. }
    unfold Join. cbn [crvSeg falling send sstart c_s c_e c_cs c_ce]. rewrite E0. unfold JoinLineAndCurve. cbn [BezierOps co_intersectProjected bind]. change (mkCrv (pnt 5 3) (pnt 5 2) (pnt 4 0) (pnt 4 1)) with falling.
    assert (I : In (Fin 1) (IntersectsProjectedLine RTrig RBMath falling (pnt 0 0) (pnt 1 0))) by (apply A; split; [lra|]; unfold on_line; rewrite EX, EY, !pnt_X, !pnt_Y; lra).
    destruct (IntersectsProjectedLine RTrig RBMath falling (pnt 0 0) (pnt 1 0)) as [|t0 ts] eqn:ER; [contradiction|]. cbn [map].
    destruct (closest_root RTrig RBMath falling (pnt 0 0) (pnt 1 0) (pnt 1 0) (tP falling t0) (map (tP falling) ts) (Distance (pnt 1 0) (fst (tP falling t0)))) as (t & -> & Ht & It); [rewrite ER; reflexivity|].
    rewrite ER in It. apply A in It. destruct It as [_ It]. assert (T1 : t = 1) by (unfold on_line in It; rewrite EY, !pnt_X, !pnt_Y in It; lra). subst t.
    assert (EP : tP falling (Fin 1 : T RNum) = (pnt 4 0, Fin 1)) by (unfold tP; rewrite FindPoint_spec by exact F; rewrite EX, EY, bpP_finite by apply finitePt_pnt; do 2 f_equal; ring).
    rewrite EP. unfold Split. cbn [crvSeg falling sstart send c_s c_e fst]. assert (ES : EqualsPrecision (pnt 4 0) (pnt 4 0) 7 = true).
    { change 7%Z with (Z.of_nat 7). apply EqualsPrecision_coord. split; apply PrecisionEquals_refl. }
    rewrite ES, orb_true_r. reflexivity.
  - intros C. cbn [connected] in C. inversion C as [|? ? ? _ C2]; subst. inversion C2 as [|? ? ? S _]; subst. destruct S as [S|[S _]].
    + cbn in S. assert (K : X (pnt 4 0) = X (pnt 5 3)) by (rewrite S; reflexivity). rewrite !pnt_X in K. lra.
    + cbn in S. destruct (Reqb_spec 4 5); [lra|discriminate].
Qed.
Print Assumptions C11_far_end_refuted.
