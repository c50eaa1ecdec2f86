(** C91, C76: curves that bend gently and one way are not lost. *)
From Coq Require Import List ZArith Bool Reals Lra Lia Arith.
From Verif Require Import Num RealNum RealTrig PathModel SegOps Bezier PathSpec GeomSpec BezierProofs RootsProofs ReduceProofs ReduceCuts LineGeom PrecisionProofs Prop_C03 Prop_C76 LoopCurve Prop_C90 Prop_C91 Bends.
Import ListNotations.
Local Open Scope R_scope.

Lemma gentle_untied c : gentle c -> ~ tied c.
Proof.
  intros G [E|E]; [destruct (G 0 0 ltac:(lra) ltac:(lra) ltac:(lra)) as [P _]|destruct (G 1 1 ltac:(lra) ltac:(lra) ltac:(lra)) as [P _]]; destruct (speed_ends c) as (E1 & E2 & E3 & E4); unfold dotV in P; rewrite ?E1, ?E2, ?E3, ?E4, ?E in P; lra.
Qed.
(** A curve that is not straight, bends one way and gently, and whose ends are told apart, is moved to the side as a whole: the result is not empty, and its pieces follow the curve from its start to its end.
    The parameter 1.01 in [oneWay] and [gentle], and [clearEnds], are there because the search for pieces looks a hundredth past the end of each of them. *)
Theorem C91_bends fuel n c d : finiteCrv c -> ~ straight c -> oneWay c -> gentle c -> clearEnds c -> EqualsPrecision (c_s c) (c_e c) n = false -> (103 < fuel)%nat ->
  exists ps, side_by fuel n c d = Ok (map crvSeg ps) /\ ps <> [] /\ alongside c d 0 1 ps.
Proof.
  intros F NS OW G CE NE Hf. destruct (reduce_bends fuel c F NS OW G CE Hf) as (rs & ER & NR). destruct (scaleAll_along c d F NS rs 0 1) as [HA HL].
  { apply (reduce_covers RTrig RBMath fuel); assumption. }
  { intros s x y HI HP. eapply piece_open; eauto. }
  exists (scaleAll rs (Fin d : T RNum)). split; [|split; [|exact HA]].
  - unfold Offset. cbn [crvSeg sstart send]. rewrite NE. cbn [BezierOps co_offset]. replace (mkCrv (c_s c) (c_cs c) (c_e c) (c_ce c)) with c by (destruct c; reflexivity). unfold bOffset. rewrite (untied_normalize c F (gentle_untied c G)), ER. cbn [bind]. rewrite (along_finite _ _ _ _ _ HA). reflexivity.
  - intros C. rewrite C in HL. destruct rs; [congruence|discriminate].
Qed.
(** Two such curves are cut into sections that make them up, and every point where they meet is reported, except where the search cuts one of them. *)
Theorem C76_bends fuel c d : finiteCrv c -> smallCrv c -> ~ straight c -> oneWay c -> gentle c -> clearEnds c -> finiteCrv d -> smallCrv d -> ~ straight d -> oneWay d -> gentle d -> clearEnds d -> (103 < fuel)%nat ->
  exists l1 l2, reduce RTrig RBMath fuel c = Ok l1 /\ reduce RTrig RBMath fuel d = Ok l2 /\ covers (fun p => simple RTrig RBMath p = true) c 0 1 l1 /\ covers (fun p => simple RTrig RBMath p = true) d 0 1 l2 /\
    forall th l u w, IntersectsCurve RTrig RBMath fuel c d (Fin th : T RNum) = Ok l -> 0 <= u <= 1 -> 0 <= w <= 1 -> meet c d u w -> ~ isCut l1 u -> ~ isCut l2 w -> found c d th l u w.
Proof.
  intros F S NS OW G CE F' S' NS' OW' G' CE' Hf. destruct (reduce_bends fuel c F NS OW G CE Hf) as (l1 & E1 & N1). destruct (reduce_bends fuel d F' NS' OW' G' CE' Hf) as (l2 & E2 & N2). exists l1, l2. split; [exact E1|]. split; [exact E2|].
  split; [apply (reduce_covers RTrig RBMath fuel); assumption|]. split; [apply (reduce_covers RTrig RBMath fuel); assumption|]. intros th l u w E Hu Hw M C1 C2. apply (C76_meeting RTrig fuel c d th l1 l2 l u w); auto.
Qed.

(** *** how to see that a curve bends gently *)
Lemma cos_twelfth : cos (PI / 12) * cos (PI / 12) < 16 / 17.
Proof.
  pose proof (cos_2a_cos (PI / 12)) as E. replace (2 * (PI / 12)) with (PI / 6) in E by field. rewrite cos_PI6 in E. assert (sqrt 3 < 30 / 17). { rewrite <- (sqrt_square (30 / 17)) by lra. apply sqrt_lt_1; lra. } nra.
Qed.
Lemma turned_small c s t : 0 < dotV c s s -> 0 < dotV c t t -> 0 < dotV c s t -> 4 * Rabs (crossV c s t) <= dotV c s t -> turned c s t < PI / 12.
Proof.
  intros P Q DP H. unfold turned. set (q := sqrt (dotV c s s)). set (q' := sqrt (dotV c t t)). assert (Hq : 0 < q) by (apply sqrt_lt_R0; exact P). assert (Hq' : 0 < q') by (apply sqrt_lt_R0; exact Q).
  assert (QQ : q * q = dotV c s s) by (apply sqrt_sqrt; lra). assert (QQ' : q' * q' = dotV c t t) by (apply sqrt_sqrt; lra). assert (HQ : 0 < q * q') by (apply Rmult_lt_0_compat; assumption). set (v := dotV c s t / (q * q')).
  assert (EV : dotV c s t = v * (q * q')) by (unfold v; field; lra). assert (E2 : (q * q') * (q * q') = dotV c s t * dotV c s t + crossV c s t * crossV c s t) by (replace (q * q' * (q * q')) with ((q * q) * (q' * q')) by ring; rewrite QQ, QQ'; unfold dotV, crossV; ring).
  assert (V0 : 0 < v) by (unfold v; apply Rdiv_lt_0_compat; lra). assert (CR : crossV c s t * crossV c s t <= dotV c s t * dotV c s t / 16). { pose proof (Rabs_pos (crossV c s t)) as RP. assert (Rabs (crossV c s t) * Rabs (crossV c s t) = crossV c s t * crossV c s t) by (rewrite <- Rabs_mult; apply Rabs_right; nra). nra. }
  assert (Q2 : 0 < (q * q') * (q * q')) by nra. assert (VB : v * v <= 1). { apply (Rmult_le_reg_r ((q * q') * (q * q'))); [exact Q2|]. replace (v * v * (q * q' * (q * q'))) with (dotV c s t * dotV c s t) by (rewrite EV; ring). rewrite E2. nra. }
  assert (VL : 16 / 17 <= v * v). { apply (Rmult_le_reg_r ((q * q') * (q * q'))); [exact Q2|]. replace (v * v * (q * q' * (q * q'))) with (dotV c s t * dotV c s t) by (rewrite EV; ring). rewrite E2. nra. }
  assert (HV : cos (PI / 12) < v). { pose proof cos_twelfth. destruct (Rlt_le_dec (cos (PI / 12)) v); [assumption|nra]. }
  assert (V1 : v <= 1) by nra. pose proof PI_RGT_0. pose proof (acos_bound v). apply Rnot_le_lt. intros C. destruct (Rle_lt_or_eq_dec _ _ C) as [L|E].
  - apply cos_decreasing_1 in L; try lra. rewrite cos_acos in L by lra. lra.
  - apply (f_equal cos) in E. rewrite cos_acos in E by lra. lra.
Qed.
Lemma gentle_by c m p a : 0 < m -> p * a / 10 <= m -> (forall t, 0 <= t <= 101 / 100 -> m <= dotV c t t /\ Rabs (speedX c t) <= p /\ Rabs (speedY c t) <= p /\ Rabs (accX c t) <= a /\ Rabs (accY c t) <= a) -> gentle c.
Proof.
  intros Hm HP H s t H1 H2 H3. destruct (H s ltac:(lra)) as (A & BX & BY & _). destruct (H t ltac:(lra)) as (A' & _). split; [lra|].
  assert (D : exists x y, speedX c t = speedX c s + x /\ speedY c t = speedY c s + y /\ Rabs x <= a / 100 /\ Rabs y <= a / 100).
  { exists (speedX c t - speedX c s), (speedY c t - speedY c s). split; [ring|]. split; [ring|]. destruct (Req_dec s t) as [->|NE].
    - rewrite !Rminus_diag_eq by reflexivity. rewrite Rabs_R0. destruct (H t ltac:(lra)) as (_ & _ & _ & BA & _). pose proof (Rabs_pos (accX c t)). lra.
    - split.
      + destruct (MVT_cor2 (speedX c) (accX c) s t ltac:(lra) (fun w _ => speedX_acc c w)) as (w & -> & Hw). destruct (H w ltac:(lra)) as (_ & _ & _ & BA & _). rewrite Rabs_mult, (Rabs_right (t - s)) by lra. pose proof (Rabs_pos (accX c w)). nra.
      + destruct (MVT_cor2 (speedY c) (accY c) s t ltac:(lra) (fun w _ => speedY_acc c w)) as (w & -> & Hw). destruct (H w ltac:(lra)) as (_ & _ & _ & _ & BA). rewrite Rabs_mult, (Rabs_right (t - s)) by lra. pose proof (Rabs_pos (accY c w)). nra. }
  destruct D as (x & y & EX & EY & LX & LY). set (u := speedX c s) in *. set (v := speedY c s) in *. pose proof (Rabs_pos u). pose proof (Rabs_pos v). pose proof (Rabs_pos x). pose proof (Rabs_pos y).
  assert (M : forall e f, Rabs e <= p -> Rabs f <= a / 100 -> Rabs (e * f) <= p * (a / 100)) by (intros e f He Hf; rewrite Rabs_mult; apply Rmult_le_compat; auto using Rabs_pos).
  pose proof (M u x BX LX) as M1. pose proof (M v y BY LY) as M2. pose proof (M u y BX LY) as M3. pose proof (M v x BY LX) as M4.
  assert (DL : m - 2 * (p * (a / 100)) <= dotV c s t). { unfold dotV in *. fold u v in A |- *. rewrite EX, EY. pose proof (Rle_abs (- (u * x))). pose proof (Rle_abs (- (v * y))). rewrite Rabs_Ropp in *. lra. }
  assert (CL : Rabs (crossV c s t) <= 2 * (p * (a / 100))). { unfold crossV. fold u v. rewrite EX, EY. replace (u * (v + y) - v * (u + x)) with (u * y + - (v * x)) by ring. eapply Rle_trans; [apply Rabs_triang|]. rewrite Rabs_Ropp. lra. }
  apply turned_small; [lra|lra| |]; pose proof (Rabs_pos (crossV c s t)); lra.
Qed.

(** *** examples *)
(** a bow, the part of a parabola from (0, h) to (10, h + 5 k) *)
Definition bow (h k : R) : crv RNum := @mkCrv RNum (pnt 0 h) (pnt (10 / 3) h) (pnt 10 (h + 5 * k)) (pnt (20 / 3) (h + 5 * k / 3)).
Lemma bow_X h k t : curveX (bow h k) t = 10 * t. Proof. unfold curveX, cubic, bow. cbn [c_s c_cs c_e c_ce]. rewrite !pnt_X. field. Qed.
Lemma bow_Y h k t : curveY (bow h k) t = h + 5 * k * (t * t). Proof. unfold curveY, cubic, bow. cbn [c_s c_cs c_e c_ce]. rewrite !pnt_Y. field. Qed.
Lemma bow_VX h k t : speedX (bow h k) t = 10. Proof. unfold speedX, dquad, bow. cbn [c_s c_cs c_e c_ce]. rewrite !pnt_X. field. Qed.
Lemma bow_VY h k t : speedY (bow h k) t = 10 * k * t. Proof. unfold speedY, dquad, bow. cbn [c_s c_cs c_e c_ce]. rewrite !pnt_Y. field. Qed.
Lemma bow_AX h k t : accX (bow h k) t = 0. Proof. unfold accX, bow. cbn [c_s c_cs c_e c_ce]. rewrite !pnt_X. field. Qed.
Lemma bow_AY h k t : accY (bow h k) t = 10 * k. Proof. unfold accY, bow. cbn [c_s c_cs c_e c_ce]. rewrite !pnt_Y. field. Qed.
Lemma bow_bends h k : 0 < k <= 17 / 10 -> finiteCrv (bow h k) /\ ~ straight (bow h k) /\ oneWay (bow h k) /\ gentle (bow h k) /\ clearEnds (bow h k).
Proof.
  intros Hk. split; [repeat split|]. split.
  { intros (a & b & e & HN & H). pose proof (H 0) as H0. pose proof (H (1 / 2)) as H1. pose proof (H 1) as H2. rewrite bow_X, bow_Y in H0, H1, H2. assert (b * (5 * k) = 0) by nra. assert (b = 0) by nra. subst b. destruct HN; lra. }
  split. { exists 1. split; [auto|]. intros t Ht. rewrite bow_VX, bow_VY, bow_AX, bow_AY. nra. }
  assert (G : gentle (bow h k)).
  { apply (gentle_by _ 100 18 17); [lra|lra|]. intros t Ht. unfold dotV. rewrite bow_VX, bow_VY, bow_AX, bow_AY. repeat split; try nra; rewrite Rabs_right; nra. }
  split; [exact G|]. intros x y H0 H1 PX PY HS [_ HW]. 
  assert (PL : forall t, placed (bow h k) t -> t = 0 \/ t = 1). { intros t [-> |[-> |[E|[E|[[E (u & Hu)]|[E _]]]]]]; auto; rewrite ?bow_VX, ?bow_VY, ?bow_AX, ?bow_AY in *; try lra. left. nra. }
  assert (x = 0 /\ y = 1) as [-> ->]. { destruct (PL x PX), (PL y PY); lra. } apply Rle_not_lt in HW. apply HW. unfold turned.
  destruct (G 0 0 ltac:(lra) ltac:(lra) ltac:(lra)) as [P _]. destruct (G (101 / 100) (101 / 100) ltac:(lra) ltac:(lra) ltac:(lra)) as [Q _]. replace (1 + (1 - 0) / 100) with (101 / 100) by field. set (t := 101 / 100) in *.
  unfold dotV in *. rewrite !bow_VX, !bow_VY in *. replace (10 * 10 + 10 * k * 0 * (10 * k * 0)) with (10 * 10) by ring. rewrite sqrt_square by lra. set (q := sqrt (10 * 10 + 10 * k * t * (10 * k * t))). assert (Hq : 0 < q) by (apply sqrt_lt_R0; exact Q). assert (QQ : q * q = 10 * 10 + 10 * k * t * (10 * k * t)) by (apply sqrt_sqrt; lra).
  assert (Q1 : 10 <= q) by (assert (0 <= 10 * k * t * (10 * k * t)) by nra; nra). assert (Q2 : q < 20). { assert (0 < k * t < 1718 / 1000) by (unfold t; lra). assert (k * t * (k * t) < 2.96) by nra. nra. }
  replace ((10 * 10 + 10 * k * 0 * (10 * k * t)) / (10 * q)) with (10 / q) by (field; lra). assert (B1 : 10 / q <= 1) by (apply (Rmult_le_reg_r q); [lra|]; replace (10 / q * q) with 10 by (field; lra); lra). assert (B2 : 1 / 2 < 10 / q) by (apply (Rmult_lt_reg_r q); [lra|]; replace (10 / q * q) with 10 by (field; lra); lra). apply acos_third; lra.
Qed.
(** a quarter of a circle of radius 10, as it is drawn with a curve *)
Definition arc0 : crv RNum := @mkCrv RNum (pnt 10 0) (pnt 10 (5523 / 1000)) (pnt 0 10) (pnt (5523 / 1000) 10).
Lemma arc0_VX t : speedX arc0 t = - (t * (26862 / 1000 * (1 - t) + 16569 / 1000 * t)). Proof. unfold speedX, dquad, arc0. cbn [c_s c_cs c_e c_ce]. rewrite !pnt_X. field. Qed.
Lemma arc0_VY t : speedY arc0 t = (1 - t) * (16569 / 1000 * (1 - t) + 26862 / 1000 * t). Proof. unfold speedY, dquad, arc0. cbn [c_s c_cs c_e c_ce]. rewrite !pnt_Y. field. Qed.
Lemma arc0_AX t : accX arc0 t = - (26862 / 1000 * (1 - t) + 6276 / 1000 * t). Proof. unfold accX, arc0. cbn [c_s c_cs c_e c_ce]. rewrite !pnt_X. field. Qed.
Lemma arc0_AY t : accY arc0 t = - (6276 / 1000 * (1 - t) + 26862 / 1000 * t). Proof. unfold accY, arc0. cbn [c_s c_cs c_e c_ce]. rewrite !pnt_Y. field. Qed.
Lemma arc0_bends : finiteCrv arc0 /\ ~ straight arc0 /\ oneWay arc0 /\ gentle arc0 /\ clearEnds arc0.
Proof.
  split; [repeat split|]. split.
  { intros (a & b & e & HN & H). pose proof (proj1 (straight_points a b e arc0) H) as (G1 & G2 & G3 & G4). unfold onLine, arc0 in G1, G2, G3, G4. cbn [c_s c_cs c_e c_ce] in G1, G2, G3, G4. rewrite ?pnt_X, ?pnt_Y in G1, G2, G3, G4. destruct HN; lra. }
  split. { exists 1. split; [auto|]. intros t Ht. rewrite arc0_VX, arc0_VY, arc0_AX, arc0_AY. nra. }
  assert (G : gentle arc0).
  { apply (gentle_by _ 150 20 30); [lra|lra|]. intros t Ht. unfold dotV. rewrite arc0_VX, arc0_VY, arc0_AX, arc0_AY. split; [nra|]. repeat split; apply Rabs_le; nra. }
  split; [exact G|]. intros x y H0 H1 PX PY HS [HW _].
  assert (PL : forall t, 0 <= t <= 1 -> placed arc0 t -> t = 0 \/ t = 1). { intros t Ht [-> |[-> |[E|[E|[[E _]|[E _]]]]]]; auto; rewrite ?arc0_VX, ?arc0_VY, ?arc0_AX, ?arc0_AY in E; try (exfalso; lra); [left|right]; nra. }
  assert (x = 0 /\ y = 1) as [-> ->]. { destruct (PL x ltac:(lra) PX), (PL y ltac:(lra) PY); lra. } apply Rlt_not_le in HW. apply HW. unfold turned. replace (dotV arc0 0 1) with 0 by (unfold dotV; rewrite !arc0_VX, !arc0_VY; ring). unfold Rdiv. rewrite Rmult_0_l, acos_0. pose proof PI_RGT_0. lra.
Qed.
Lemma far_apart a b c d : a + 1 <= c \/ c + 1 <= a -> EqualsPrecision (pnt a b) (pnt c d) 3 = false.
Proof.
  intros H. destruct (EqualsPrecision (pnt a b) (pnt c d) 3) eqn:E; [|reflexivity]. exfalso. apply (EqualsPrecision_coord _ _ 3) in E. destruct E as [E _]. cbn [px pnt] in E. apply (PrecisionEquals_close_R _ _ 3) in E. match type of E with Rabs ?z <= _ => assert (z <= Rabs z) by apply Rle_abs; assert (- z <= Rabs z) by (rewrite <- Rabs_Ropp; apply Rle_abs) end. lra.
Qed.
Example C91_bends_ex d : exists ps, side_by 104 3 arc0 d = Ok (map crvSeg ps) /\ ps <> [] /\ alongside arc0 d 0 1 ps.
Proof. destruct arc0_bends as (F & NS & OW & G & CE). apply C91_bends; try assumption; [|lia]. unfold arc0. cbn [c_s c_e]. apply far_apart. lra. Qed.
(** bows that meet in the point at a third of both *)
Example C76_bends_ex : let c := bow 0 (17 / 10) in let d := bow (1 / 2) (8 / 10) in
  smallCrv c /\ smallCrv d /\ meet c d (1 / 3) (1 / 3) /\ exists l1 l2, reduce RTrig RBMath 104 c = Ok l1 /\ reduce RTrig RBMath 104 d = Ok l2 /\ covers (fun p => simple RTrig RBMath p = true) c 0 1 l1 /\ covers (fun p => simple RTrig RBMath p = true) d 0 1 l2.
Proof.
  cbv zeta. assert (S : forall h k, 0 <= h <= 1 -> 0 <= k <= 2 -> smallCrv (bow h k)). { intros h k Hh Hk. unfold smallCrv, bow, small. cbn [c_s c_cs c_e c_ce]. rewrite !pnt_X, !pnt_Y. repeat split; apply Rabs_def1; lra. }
  split; [apply S; lra|]. split; [apply S; lra|]. split; [split; rewrite ?bow_X, ?bow_Y; lra|]. destruct (bow_bends 0 (17 / 10) ltac:(lra)) as (F & NS & OW & G & CE). destruct (bow_bends (1 / 2) (8 / 10) ltac:(lra)) as (F' & NS' & OW' & G' & CE').
  destruct (C76_bends 104 (bow 0 (17 / 10)) (bow (1 / 2) (8 / 10))) as (l1 & l2 & A & B & C & D & _); try assumption; try (apply S; lra); [lia|]. exists l1, l2. auto.
Qed.
Print Assumptions C91_bends. Print Assumptions C76_bends.
