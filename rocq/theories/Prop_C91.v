(** C91: a curve moved to the side. *)
From Coq Require Import List ZArith Bool Reals Lra Lia Arith.
From Verif Require Import Num RealNum RealTrig PathModel SegOps Bezier PathSpec GeomSpec BezierProofs RootsProofs ReduceProofs ReduceCuts LineGeom PrecisionProofs Prop_C03 Prop_C76 LoopCurve Prop_C90.
Import ListNotations.
Local Open Scope R_scope.

(** *** what is expected *)
(** the point of [c] at [t], moved by [d] along the unit normal there *)
Definition moved (c : crv RNum) (d t : R) (q : Pt RNum) : Prop := exists h, 0 < h /\ h * h = speedX c t * speedX c t + speedY c t * speedY c t /\
  q = pnt (curveX c t - d * (speedY c t / h)) (curveY c t + d * (speedX c t / h)).
(** the normals of [c] at [a] and [b] meet at the signed distances [r] and [r'] *)
Definition centre (c : crv RNum) (a b r r' : R) : Prop := exists o, moved c r a o /\ moved c r' b o.
(** [p] follows the part of [c] from [a] to [b] at the distance [d]: its ends are the ends of the part, moved; it starts and ends in the direction of [c],
    with handles that are as much shorter as the radius is *)
Definition follows (c : crv RNum) (d a b : R) (p : crv RNum) : Prop := finiteCrv p /\ moved c d a (c_s p) /\ moved c d b (c_e p) /\
  exists r r', r <> 0 /\ r' <> 0 /\ centre c a b r r' /\ speedX p 0 = (1 - d / r) * ((b - a) * speedX c a) /\ speedY p 0 = (1 - d / r) * ((b - a) * speedY c a) /\
    speedX p 1 = (1 - d / r') * ((b - a) * speedX c b) /\ speedY p 1 = (1 - d / r') * ((b - a) * speedY c b).
(** pieces that follow [c] from [a] to [b], one after the other *)
Inductive alongside (c : crv RNum) (d : R) : R -> R -> list (crv RNum) -> Prop :=
| along_nil a : alongside c d a a []
| along_cons a m b p r : 0 <= a < m -> m <= 1 -> follows c d a m p -> alongside c d m b r -> alongside c d a b (p :: r).
(** a handle lies on the end it belongs to *)
Definition tied (c : crv RNum) : Prop := c_cs c = c_s c \/ c_ce c = c_e c.

(** *** derivatives *)
Lemma deriv0 p : finiteCrv p -> Derivative p (@zero RNum) = pnt (speedX p 0) (speedY p 0).
Proof.
  intros (F1 & F2 & F3 & F4). unfold Derivative, derive1, dpt, three, two. cbn [px py]. rewrite !(px_fin _ F1), !(px_fin _ F2), !(px_fin _ F3), !(px_fin _ F4), !(py_fin _ F1), !(py_fin _ F2), !(py_fin _ F3), !(py_fin _ F4). fin.
  unfold speedX, speedY, dquad, pnt. f_equal; f_equal; ring.
Qed.
Lemma deriv1 p : finiteCrv p -> Derivative p (@one RNum) = pnt (speedX p 1) (speedY p 1).
Proof.
  intros (F1 & F2 & F3 & F4). unfold Derivative, derive1, dpt, three, two. cbn [px py]. rewrite !(px_fin _ F1), !(px_fin _ F2), !(px_fin _ F3), !(px_fin _ F4), !(py_fin _ F1), !(py_fin _ F2), !(py_fin _ F3), !(py_fin _ F4). fin.
  unfold speedX, speedY, dquad, pnt. f_equal; f_equal; ring.
Qed.
Lemma speed_ends p : speedX p 0 = 3 * (X (c_cs p) - X (c_s p)) /\ speedY p 0 = 3 * (Y (c_cs p) - Y (c_s p)) /\ speedX p 1 = 3 * (X (c_e p) - X (c_ce p)) /\ speedY p 1 = 3 * (Y (c_e p) - Y (c_ce p)).
Proof. unfold speedX, speedY, dquad. repeat split; ring. Qed.
Lemma section_speed c p a b u : section c p a b -> speedX p u = (b - a) * speedX c (a + (b - a) * u) /\ speedY p u = (b - a) * speedY c (a + (b - a) * u).
Proof.
  intros (_ & _ & H).
  assert (L : forall u, derivable_pt_lim (fun u => a + (b - a) * u) u (b - a)).
  { intros v e He. exists (mkposreal 1 Rlt_0_1). intros h Hh _. replace ((a + (b - a) * (v + h) - (a + (b - a) * v)) / h - (b - a)) with 0 by (field; exact Hh). rewrite Rabs_R0. exact He. }
  split; [apply (uniqueness_limite (curveX p) u); [apply speedX_lim|]|apply (uniqueness_limite (curveY p) u); [apply speedY_lim|]].
  - assert (K : derivable_pt_lim (comp (curveX c) (fun u => a + (b - a) * u)) u (speedX c (a + (b - a) * u) * (b - a))) by (apply derivable_pt_lim_comp; [apply L|apply speedX_lim]).
    intros e He. destruct (K e He) as (dl & Hd). exists dl. intros h Hh Hl. unfold comp in Hd. rewrite !(proj1 (H _)), (Rmult_comm (b - a) (speedX _ _)). apply Hd; assumption.
  - assert (K : derivable_pt_lim (comp (curveY c) (fun u => a + (b - a) * u)) u (speedY c (a + (b - a) * u) * (b - a))) by (apply derivable_pt_lim_comp; [apply L|apply speedY_lim]).
    intros e He. destruct (K e He) as (dl & Hd). exists dl. intros h Hh Hl. unfold comp in Hd. rewrite !(proj2 (H _)), (Rmult_comm (b - a) (speedY _ _)). apply Hd; assumption.
Qed.
Lemma curve_ends p : curveX p 0 = X (c_s p) /\ curveY p 0 = Y (c_s p) /\ curveX p 1 = X (c_e p) /\ curveY p 1 = Y (c_e p).
Proof. unfold curveX, curveY, cubic. repeat split; ring. Qed.

(** *** what is known of a simple curve *)
Lemma Ratan2_below y x : y < 0 -> Ratan2 y x < 0.
Proof.
  intros H. pose proof PI_RGT_0. unfold Ratan2. destruct (Rlt_dec 0 x).
  - rewrite <- atan_0. apply atan_increasing. apply (Rmult_lt_reg_r x); [assumption|]. replace (y / x * x) with y by (field; lra). lra.
  - destruct (Rlt_dec x 0); [destruct (Rlt_dec y 0); [|lra]; pose proof (atan_bound (y / x)); lra|]. destruct (Rlt_dec 0 y); [lra|]. destruct (Rlt_dec y 0); lra.
Qed.
Lemma angle_fin o v w : finitePt o -> finitePt v -> finitePt w -> angle RTrig o v w =
  (Fin (Ratan2 ((X v - X o) * (Y w - Y o) - (Y v - Y o) * (X w - X o)) ((X v - X o) * (X w - X o) + (Y v - Y o) * (Y w - Y o))) : T RNum).
Proof. intros F1 F2 F3. unfold angle. rewrite !(px_fin _ F1), !(px_fin _ F2), !(px_fin _ F3), !(py_fin _ F1), !(py_fin _ F2), !(py_fin _ F3). fin. reflexivity. Qed.
(** the sides of the chord on which the handles are *)
Definition side1 (p : crv RNum) : R := (X (c_e p) - X (c_s p)) * (Y (c_cs p) - Y (c_s p)) - (Y (c_e p) - Y (c_s p)) * (X (c_cs p) - X (c_s p)).
Definition side2 (p : crv RNum) : R := (X (c_e p) - X (c_s p)) * (Y (c_ce p) - Y (c_s p)) - (Y (c_e p) - Y (c_s p)) * (X (c_ce p) - X (c_s p)).
Lemma simple_known p : finiteCrv p -> simple RTrig RBMath p = true ->
  0 < speedX p 0 * speedX p 0 + speedY p 0 * speedY p 0 /\ 0 < speedX p 1 * speedX p 1 + speedY p 1 * speedY p 1 /\ 0 < speedX p 0 * speedX p 1 + speedY p 0 * speedY p 1 /\
  ~ (0 < side1 p /\ side2 p < 0) /\ ~ (side1 p < 0 /\ 0 < side2 p).
Proof.
  intros F. unfold simple. cbv zeta. pose proof F as (F1 & F2 & F3 & F4). rewrite (angle_fin _ _ _ F1 F3 F2), (angle_fin _ _ _ F1 F3 F4).  fold (side1 p) (side2 p).
  set (x1 := (X (c_e p) - X (c_s p)) * (X (c_cs p) - X (c_s p)) + _). set (x2 := (X (c_e p) - X (c_s p)) * (X (c_ce p) - X (c_s p)) + _).
  unfold gtb. fin. destruct (_ || _) eqn:EO; [discriminate|]. apply orb_false_iff in EO. destruct EO as [E1 E2].
  assert (S1 : ~ (0 < side1 p /\ side2 p < 0)).
  { intros [A B]. apply (Ratan2_above _ x1) in A. apply (Ratan2_below _ x2) in B. apply Rltb_true in A, B. rewrite A, B in E1. discriminate. }
  assert (S2 : ~ (side1 p < 0 /\ 0 < side2 p)).
  { intros [A B]. apply (Ratan2_below _ x1) in A. apply (Ratan2_above _ x2) in B. apply Rltb_true in A, B. rewrite A, B in E2. discriminate. }
  clear E1 E2. set (a := speedX p 0). set (b := speedY p 0). set (a' := speedX p 1). set (b' := speedY p 1).
  assert (Z : forall t u v, Derivative p t = pnt u v -> ~ 0 < u * u + v * v -> px (normal p t) = (NaN : T RNum)).
  { intros t u v E H. assert (u = 0 /\ v = 0) as [-> ->] by (split; nra). unfold normal. rewrite E. cbn [pnt px py]. fin. rewrite fsqrt by lra. replace (0 * 0 + 0 * 0) with 0 by ring. rewrite sqrt_0. cbn [div RNum er_div]. unfold er_div. replace (Reqb 0 0) with true by (symmetry; apply Reqb_true; reflexivity). replace (Reqb (-0) 0) with true by (symmetry; apply Reqb_true; ring). reflexivity. }
  pose proof (deriv0 p F) as D0. pose proof (deriv1 p F) as D1. fold a b in D0. fold a' b' in D1. rewrite fzero in D0. rewrite fone in D1.
  destruct (Rlt_dec 0 (a * a + b * b)) as [P0|P0].
  2:{ rewrite (Z _ _ _ D0 P0). cbn. discriminate. }
  destruct (Rlt_dec 0 (a' * a' + b' * b')) as [P1|P1].
  2:{ rewrite (Z _ _ _ D1 P1). destruct (px (normal p _)); cbn; discriminate. }
  rewrite (normal_fin _ _ _ _ D0 P0), (normal_fin _ _ _ _ D1 P1). cbn [pnt px py]. fin. set (q := sqrt (a * a + b * b)). set (q' := sqrt (a' * a' + b' * b')). assert (Hq : 0 < q) by (apply sqrt_lt_R0; exact P0). assert (Hq' : 0 < q') by (apply sqrt_lt_R0; exact P1).
  replace (- b / q * (- b' / q') + a / q * (a' / q')) with ((a * a' + b * b') / (q * q')) by (field; lra). set (D := a * a' + b * b'). intros HS. split; [exact P0|]. split; [exact P1|]. split; [|split; assumption].
  assert (HP : 0 < q * q') by (apply Rmult_lt_0_compat; assumption). cbn [nacos RBMath] in HS. unfold er_acos in HS. destruct (Rleb (-1) _ && Rleb _ 1) eqn:EB; [|discriminate HS]. apply andb_true_iff in EB. destruct EB as [B1 B2]. apply Rleb_true in B1, B2.
  unfold three in HS. cbn [npi RTrig] in HS. rewrite fofZ, fdiv in HS by lra. cbn [nabs RNum] in HS. unfold er_abs in HS. rewrite (Rabs_right (acos _)) in HS by (apply Rle_ge, acos_bound). rewrite fltb in HS. apply Rltb_true in HS. apply acos_third in HS; [|lra].
  assert (0 < D / (q * q')) by lra. apply (Rmult_lt_compat_r (q * q')) in H; [|exact HP]. replace (D / (q * q') * (q * q')) with D in H by (field; lra). lra.
Qed.

(** *** crossings of lines *)
Lemma lli4_none x1 y1 x2 y2 x3 y3 x4 y4 : (x1 - x2) * (y3 - y4) - (y1 - y2) * (x3 - x4) = 0 -> lli4 (pnt x1 y1) (pnt x2 y2) (pnt x3 y3) (pnt x4 y4) = None.
Proof. intros H. unfold lli4. cbn [px py pnt]. fin. rewrite H. replace (Reqb 0 0) with true by (symmetry; apply Reqb_true; reflexivity). reflexivity. Qed.
(** the lines through [a] in the direction [v] and through [b] in the direction [w] *)
Lemma lli4_at x1 y1 x2 y2 x3 y3 x4 y4 l m : (x1 - x2) * (y3 - y4) - (y1 - y2) * (x3 - x4) <> 0 -> x1 + l * (x2 - x1) = x3 + m * (x4 - x3) -> y1 + l * (y2 - y1) = y3 + m * (y4 - y3) ->
  lli4 (pnt x1 y1) (pnt x2 y2) (pnt x3 y3) (pnt x4 y4) = Some (pnt (x1 + l * (x2 - x1)) (y1 + l * (y2 - y1))).
Proof.
  intros H EX EY. unfold lli4. cbn [px py pnt]. fin. destruct (Reqb_spec ((x1 - x2) * (y3 - y4) - (y1 - y2) * (x3 - x4)) 0); [contradiction|]. rewrite !fdiv by assumption. set (D := _ - _) in *. unfold pnt. do 2 f_equal; f_equal.
  - apply (Rmult_eq_reg_r D); [|exact H]. unfold Rdiv. rewrite Rmult_assoc, Rinv_l, Rmult_1_r by exact H. unfold D.
    assert (E : (x1 + l * (x2 - x1) - x3) * (y4 - y3) = (y1 + l * (y2 - y1) - y3) * (x4 - x3)) by (rewrite EX, EY; ring). apply Rminus_diag_uniq. apply (f_equal (fun z => (x1 - x2) * z)) in E. apply Rminus_diag_eq in E. rewrite <- E. ring.
  - apply (Rmult_eq_reg_r D); [|exact H]. unfold Rdiv. rewrite Rmult_assoc, Rinv_l, Rmult_1_r by exact H. unfold D.
    assert (E : (x1 + l * (x2 - x1) - x3) * (y4 - y3) = (y1 + l * (y2 - y1) - y3) * (x4 - x3)) by (rewrite EX, EY; ring). apply Rminus_diag_uniq. apply (f_equal (fun z => (y1 - y2) * z)) in E. apply Rminus_diag_eq in E. rewrite <- E. ring.
Qed.

(** *** one piece *)
Lemma normalize_free p : finiteCrv p -> 0 < speedX p 0 * speedX p 0 + speedY p 0 * speedY p 0 -> 0 < speedX p 1 * speedX p 1 + speedY p 1 * speedY p 1 -> normalize p = p.
Proof.
  intros (F1 & F2 & F3 & F4) H0 H1. destruct (speed_ends p) as (E1 & E2 & E3 & E4). rewrite E1, E2 in H0. rewrite E3, E4 in H1. unfold normalize.
  rewrite !(px_fin _ F1), !(px_fin _ F2), !(py_fin _ F1), !(py_fin _ F2), !feqb.
  assert (N1 : Reqb (X (c_s p)) (X (c_cs p)) && Reqb (Y (c_s p)) (Y (c_cs p)) = false).
  { apply not_true_is_false. intros C. apply andb_true_iff in C. destruct C as [C1 C2]. apply Reqb_true in C1, C2. rewrite C1, C2 in H0. replace (3 * (X (c_cs p) - X (c_cs p))) with 0 in H0 by ring. replace (3 * (Y (c_cs p) - Y (c_cs p))) with 0 in H0 by ring. lra. }
  rewrite N1. rewrite !(px_fin _ F3), !(px_fin _ F4), !(py_fin _ F3), !(py_fin _ F4), !feqb.
  assert (N2 : Reqb (X (c_e p)) (X (c_ce p)) && Reqb (Y (c_e p)) (Y (c_ce p)) = false).
  { apply not_true_is_false. intros C. apply andb_true_iff in C. destruct C as [C1 C2]. apply Reqb_true in C1, C2. rewrite C1, C2 in H1. replace (3 * (X (c_ce p) - X (c_ce p))) with 0 in H1 by ring. replace (3 * (Y (c_ce p) - Y (c_ce p))) with 0 in H1 by ring. lra. }
  rewrite N2. reflexivity.
Qed.
Lemma scale_piece p d : finiteCrv p -> 0 < speedX p 0 * speedX p 0 + speedY p 0 * speedY p 0 -> 0 < speedX p 1 * speedX p 1 + speedY p 1 * speedY p 1 ->
  let C := speedX p 0 * speedY p 1 - speedY p 0 * speedX p 1 in let U := X (c_e p) - X (c_s p) in let V := Y (c_e p) - Y (c_s p) in
  (C = 0 -> Scale p (Fin d : T RNum) = None) /\
  (C <> 0 -> U * speedX p 1 + V * speedY p 1 <> 0 -> U * speedX p 0 + V * speedY p 0 <> 0 -> exists q, Scale p (Fin d : T RNum) = Some q /\ follows p d 0 1 q).
Proof.
  intros F P0 P1 C U V. pose proof (deriv0 p F) as D0. pose proof (deriv1 p F) as D1. destruct (speed_ends p) as (E1 & E2 & E3 & E4). destruct (curve_ends p) as (K1 & K2 & K3 & K4).
  assert (HF := F). destruct HF as (F1 & F2 & F3 & F4). assert (NZ := normalize_free p F P0 P1).
  assert (Xcs : X (c_cs p) = X (c_s p) + speedX p 0 / 3) by (rewrite E1; field). assert (Ycs : Y (c_cs p) = Y (c_s p) + speedY p 0 / 3) by (rewrite E2; field).
  assert (Xce : X (c_ce p) = X (c_e p) - speedX p 1 / 3) by (rewrite E3; field). assert (Yce : Y (c_ce p) = Y (c_e p) - speedY p 1 / 3) by (rewrite E4; field). clear E1 E2 E3 E4.
  assert (Q0 := normal_fin _ _ _ _ D0 P0). assert (Q1 := normal_fin _ _ _ _ D1 P1).
  set (q := sqrt (speedX p 0 * speedX p 0 + speedY p 0 * speedY p 0)) in *. set (q' := sqrt (speedX p 1 * speedX p 1 + speedY p 1 * speedY p 1)) in *.
  assert (Hq : 0 < q) by (apply sqrt_lt_R0; exact P0). assert (Hq' : 0 < q') by (apply sqrt_lt_R0; exact P1).
  assert (QQ : q * q = speedX p 0 * speedX p 0 + speedY p 0 * speedY p 0) by (apply sqrt_sqrt; lra). assert (QQ' : q' * q' = speedX p 1 * speedX p 1 + speedY p 1 * speedY p 1) by (apply sqrt_sqrt; lra).
  assert (FP0 : FindPoint p (@zero RNum) = pnt (X (c_s p)) (Y (c_s p))) by (rewrite fzero, FindPoint_spec by exact F; congruence).
  assert (FP1 : FindPoint p (@one RNum) = pnt (X (c_e p)) (Y (c_e p))) by (rewrite fone, FindPoint_spec by exact F; congruence).
  assert (ES : Scale p (Fin d : T RNum) = match lli4 (pnt (X (c_s p) + - speedY p 0 / q * 10) (Y (c_s p) + speedX p 0 / q * 10)) (pnt (X (c_s p)) (Y (c_s p))) (pnt (X (c_e p) + - speedY p 1 / q' * 10) (Y (c_e p) + speedX p 1 / q' * 10)) (pnt (X (c_e p)) (Y (c_e p))) with
    | None => None
    | Some o =>
       Some (mkCrv (pnt (X (c_s p) + d * (- speedY p 0 / q)) (Y (c_s p) + d * (speedX p 0 / q)))
         (orZero (lli4 (pnt (X (c_s p) + d * (- speedY p 0 / q)) (Y (c_s p) + d * (speedX p 0 / q))) (pnt (X (c_s p) + d * (- speedY p 0 / q) + speedX p 0) (Y (c_s p) + d * (speedX p 0 / q) + speedY p 0)) o (pnt (X (c_cs p)) (Y (c_cs p)))))
         (pnt (X (c_e p) + d * (- speedY p 1 / q')) (Y (c_e p) + d * (speedX p 1 / q')))
         (orZero (lli4 (pnt (X (c_e p) + d * (- speedY p 1 / q')) (Y (c_e p) + d * (speedX p 1 / q'))) (pnt (X (c_e p) + d * (- speedY p 1 / q') + speedX p 1) (Y (c_e p) + d * (speedX p 1 / q') + speedY p 1)) o (pnt (X (c_ce p)) (Y (c_ce p))))))
    end).
  { unfold Scale, OffsetPoint. rewrite NZ. cbv zeta. rewrite FP0, FP1, Q0, Q1, D0, D1. cbn [px py pnt]. rewrite !(px_fin _ F1), !(px_fin _ F3), !(py_fin _ F1), !(py_fin _ F3). fin.  rewrite <- (pnt_eta _ F2), <- (pnt_eta _ F4). reflexivity. }
  assert (MV0 : forall r, moved p r 0 (pnt (X (c_s p) + r * (- speedY p 0 / q)) (Y (c_s p) + r * (speedX p 0 / q)))).
  { intros r. exists q. split; [exact Hq|]. split; [exact QQ|]. rewrite K1, K2. unfold pnt. f_equal; f_equal. field. lra. }
  assert (MV1 : forall r, moved p r 1 (pnt (X (c_e p) + r * (- speedY p 1 / q')) (Y (c_e p) + r * (speedX p 1 / q')))).
  { intros r. exists q'. split; [exact Hq'|]. split; [exact QQ'|]. rewrite K3, K4. unfold pnt. f_equal; f_equal. field. lra. }
  rewrite ES. clear ES NZ FP0 FP1 Q0 Q1 D0 D1 K1 K2 K3 K4. unfold C, U, V. clear C U V. rewrite Xcs, Ycs, Xce, Yce. clear Xcs Ycs Xce Yce F F1 F2 F3 F4.
  unfold follows, centre.
  set (sx := X (c_s p)) in *. set (sy := Y (c_s p)) in *. set (ex := X (c_e p)) in *. set (ey := Y (c_e p)) in *. set (a := speedX p 0) in *. set (b := speedY p 0) in *. set (a' := speedX p 1) in *. set (b' := speedY p 1) in *.
  set (c0 := a * b' - b * a'). assert (DET : (sx + - b / q * 10 - sx) * (ey + a' / q' * 10 - ey) - (sy + a / q * 10 - sy) * (ex + - b' / q' * 10 - ex) = 100 * c0 / (q * q')) by (unfold c0; field; lra). split.
  - intros Z. rewrite lli4_none; [reflexivity|]. rewrite DET, Z. field. lra.
  - intros NC N1 N0. set (r := ((ex - sx) * a' + (ey - sy) * b') / c0). set (r' := ((ex - sx) * a + (ey - sy) * b) / c0).
    assert (NR : r <> 0) by (unfold r; intros Z; apply N1; apply (Rmult_eq_reg_r (/ c0)); [|apply Rinv_neq_0_compat, NC]; rewrite Rmult_0_l; exact Z).
    assert (NR' : r' <> 0) by (unfold r'; intros Z; apply N0; apply (Rmult_eq_reg_r (/ c0)); [|apply Rinv_neq_0_compat, NC]; rewrite Rmult_0_l; exact Z).
    assert (M1 : sx + r * - b = ex + r' * - b') by (unfold r, r'; apply (Rmult_eq_reg_r c0); [|exact NC]; field_simplify; [unfold c0; ring|exact NC|exact NC]).
    assert (M2 : sy + r * a = ey + r' * a') by (unfold r, r'; apply (Rmult_eq_reg_r c0); [|exact NC]; field_simplify; [unfold c0; ring|exact NC|exact NC]).
    clearbody r r'. assert (HD : 100 * c0 / (q * q') <> 0). { unfold Rdiv. apply Rmult_integral_contrapositive_currified; [lra|]. apply Rinv_neq_0_compat. apply Rmult_integral_contrapositive_currified; lra. }
    rewrite (lli4_at _ _ _ _ _ _ _ _ (1 - r * q / 10) (1 - r' * q' / 10)); [|rewrite DET; exact HD| |].
    2:{ replace (sx + - b / q * 10 + (1 - r * q / 10) * (sx - (sx + - b / q * 10))) with (sx + r * - b) by (field; lra). rewrite M1. field. lra. }
    2:{ replace (sy + a / q * 10 + (1 - r * q / 10) * (sy - (sy + a / q * 10))) with (sy + r * a) by (field; lra). rewrite M2. field. lra. }
    replace (sx + - b / q * 10 + (1 - r * q / 10) * (sx - (sx + - b / q * 10))) with (sx + r * - b) by (field; lra). replace (sy + a / q * 10 + (1 - r * q / 10) * (sy - (sy + a / q * 10))) with (sy + r * a) by (field; lra).
    rewrite (lli4_at _ _ _ _ (sx + r * - b) (sy + r * a) (sx + a / 3) (sy + b / 3) ((1 - d / (r * q)) / 3) (1 - d / (r * q))); [| |field; lra|field; lra].
    2:{ match goal with |- ?z <> 0 => replace z with (- r * (q * q)) by (rewrite QQ; field; lra) end. apply Rmult_integral_contrapositive_currified; [lra|]. apply Rmult_integral_contrapositive_currified; lra. }
    rewrite M1, M2.
    rewrite (lli4_at _ _ _ _ (ex + r' * - b') (ey + r' * a') (ex - a' / 3) (ey - b' / 3) (- (1 - d / (r' * q')) / 3) (1 - d / (r' * q'))); [| |field; lra|field; lra].
    2:{ match goal with |- ?z <> 0 => replace z with (- r' * (q' * q')) by (rewrite QQ'; field; lra) end. apply Rmult_integral_contrapositive_currified; [lra|]. apply Rmult_integral_contrapositive_currified; lra. }
    cbn [orZero]. eexists. split; [reflexivity|]. cbn [c_s c_e]. split; [repeat split|]. split; [apply MV0|]. split; [apply MV1|]. exists (r * q), (r' * q'). split; [apply Rmult_integral_contrapositive_currified; lra|]. split; [apply Rmult_integral_contrapositive_currified; lra|]. split.
    { exists (pnt (sx + r * - b) (sy + r * a)). split.
      - replace (sx + r * - b) with (sx + r * q * (- b / q)) by (field; lra). replace (sy + r * a) with (sy + r * q * (a / q)) by (field; lra). apply MV0.
      - rewrite M1, M2. replace (ex + r' * - b') with (ex + r' * q' * (- b' / q')) by (field; lra). replace (ey + r' * a') with (ey + r' * q' * (a' / q')) by (field; lra). apply MV1. }
    unfold speedX, speedY, dquad. cbn [c_s c_cs c_e c_ce]. rewrite !pnt_X, !pnt_Y. repeat split; field; lra.
Qed.

(** *** the pieces of a curve that is not straight *)
Lemma sides p : 3 * side1 p = (X (c_e p) - X (c_s p)) * speedY p 0 - (Y (c_e p) - Y (c_s p)) * speedX p 0 /\ 3 * side2 p = - ((X (c_e p) - X (c_s p)) * speedY p 1 - (Y (c_e p) - Y (c_s p)) * speedX p 1).
Proof. destruct (speed_ends p) as (-> & -> & -> & ->). unfold side1, side2. split; ring. Qed.
Lemma opposite x y k : 0 < k -> ~ (0 < x /\ y < 0) -> ~ (x < 0 /\ 0 < y) -> 3 * y = - k * (3 * x) -> x = 0.
Proof. intros Hk N1 N2 E. destruct (Rtotal_order x 0) as [L|[L|L]]; [exfalso; apply N2|exact L|exfalso; apply N1]; split; nra. Qed.
Lemma simple_bent p : finiteCrv p -> simple RTrig RBMath p = true -> speedX p 0 * speedY p 1 - speedY p 0 * speedX p 1 = 0 -> straight p.
Proof.
  intros F HS HC. destruct (simple_known p F HS) as (P0 & P1 & HD & N1 & N2). destruct (sides p) as [S1 S2]. destruct (speed_ends p) as (E1 & E2 & E3 & E4).
  set (n := speedX p 0 * speedX p 0 + speedY p 0 * speedY p 0) in *. set (D := speedX p 0 * speedX p 1 + speedY p 0 * speedY p 1) in *.
  assert (A' : speedX p 1 = speedX p 0 * (D / n)). { apply (Rmult_eq_reg_r n); [|lra]. replace (speedX p 0 * (D / n) * n) with (speedX p 0 * D) by (field; lra). unfold D, n. apply Rminus_diag_uniq. match goal with |- ?z = 0 => replace z with (- speedY p 0 * (speedX p 0 * speedY p 1 - speedY p 0 * speedX p 1)) by ring end. rewrite HC. ring. }
  assert (B' : speedY p 1 = speedY p 0 * (D / n)). { apply (Rmult_eq_reg_r n); [|lra]. replace (speedY p 0 * (D / n) * n) with (speedY p 0 * D) by (field; lra). unfold D, n. apply Rminus_diag_uniq. match goal with |- ?z = 0 => replace z with (speedX p 0 * (speedX p 0 * speedY p 1 - speedY p 0 * speedX p 1)) by ring end. rewrite HC. ring. }
  assert (HK : 0 < D / n) by (apply Rdiv_lt_0_compat; assumption). assert (Z : side1 p = 0). { apply (opposite _ (side2 p) (D / n) HK N1 N2). rewrite S1, S2, A', B'. ring. }
  rewrite Z in S1. set (k := D / n) in *. clearbody k. exists (speedY p 0), (- speedX p 0), (speedY p 0 * X (c_s p) - speedX p 0 * Y (c_s p)). split.
  - destruct (Req_dec (speedY p 0) 0) as [Q|Q]; [right|left; exact Q]. intros Q'. assert (speedX p 0 = 0) as Q'' by lra. unfold n in P0. rewrite Q, Q'' in P0. lra.
  - intros t. assert (Xcs : X (c_cs p) = X (c_s p) + speedX p 0 / 3) by (rewrite E1; field). assert (Ycs : Y (c_cs p) = Y (c_s p) + speedY p 0 / 3) by (rewrite E2; field).
    assert (Xce : X (c_ce p) = X (c_e p) - speedX p 1 / 3) by (rewrite E3; field). assert (Yce : Y (c_ce p) = Y (c_e p) - speedY p 1 / 3) by (rewrite E4; field).
    unfold curveX, curveY. rewrite Xcs, Ycs, Xce, Yce, A', B'. unfold cubic. apply Rminus_diag_uniq. match goal with |- ?z = 0 => replace z with ((3 * (1 - t) * t ^ 2 + t ^ 3) * ((X (c_e p) - X (c_s p)) * speedY p 0 - (Y (c_e p) - Y (c_s p)) * speedX p 0)) by field end. rewrite <- S1. ring.
Qed.
Lemma simple_dots p : finiteCrv p -> simple RTrig RBMath p = true -> let U := X (c_e p) - X (c_s p) in let V := Y (c_e p) - Y (c_s p) in (U <> 0 \/ V <> 0) -> U * speedX p 1 + V * speedY p 1 <> 0 /\ U * speedX p 0 + V * speedY p 0 <> 0.
Proof.
  intros F HS U V HU. destruct (simple_known p F HS) as (P0 & P1 & HD & N1 & N2). destruct (sides p) as [S1 S2]. fold U V in S1, S2.
  set (a := speedX p 0) in *. set (b := speedY p 0) in *. set (a' := speedX p 1) in *. set (b' := speedY p 1) in *. split; intros E.
  - assert (EU : U * (a' * a' + b' * b') = (U * b' - V * a') * b') by (apply Rminus_diag_uniq; match goal with |- ?z = 0 => replace z with (a' * (U * a' + V * b')) by ring end; rewrite E; ring).
    assert (EV : V * (a' * a' + b' * b') = - (U * b' - V * a') * a') by (apply Rminus_diag_uniq; match goal with |- ?z = 0 => replace z with (b' * (U * a' + V * b')) by ring end; rewrite E; ring).
    set (W := U * b' - V * a') in *. set (n := a' * a' + b' * b') in *. assert (Z : side1 p = 0). { apply (opposite _ (side2 p) (n / (a * a' + b * b'))); [apply Rdiv_lt_0_compat; assumption|exact N1|exact N2|]. rewrite S1, S2. apply (Rmult_eq_reg_r (a * a' + b * b')); [|lra]. replace (- (n / (a * a' + b * b')) * (U * b - V * a) * (a * a' + b * b')) with (- (U * n * b - V * n * a)) by (field; lra). rewrite EU, EV. ring. }
    assert (Z2 : W = 0). { assert (W * (a * a' + b * b') = 0). { replace (W * (a * a' + b * b')) with (U * n * b - V * n * a) by (rewrite EU, EV; ring). replace (U * n * b - V * n * a) with (n * (U * b - V * a)) by ring. rewrite <- S1, Z. ring. } apply Rmult_integral in H. destruct H; [assumption|lra]. }
    rewrite Z2 in EU, EV. assert (U * n = 0) by lra. assert (V * n = 0) by lra. apply Rmult_integral in H, H0. destruct HU; destruct H, H0; lra.
  - assert (EU : U * (a * a + b * b) = (U * b - V * a) * b) by (apply Rminus_diag_uniq; match goal with |- ?z = 0 => replace z with (a * (U * a + V * b)) by ring end; rewrite E; ring).
    assert (EV : V * (a * a + b * b) = - (U * b - V * a) * a) by (apply Rminus_diag_uniq; match goal with |- ?z = 0 => replace z with (b * (U * a + V * b)) by ring end; rewrite E; ring).
    set (W := U * b - V * a) in *. set (n := a * a + b * b) in *. assert (Z : side1 p = 0). { apply (opposite _ (side2 p) ((a * a' + b * b') / n)); [apply Rdiv_lt_0_compat; assumption|exact N1|exact N2|]. rewrite S1, S2. apply (Rmult_eq_reg_r n); [|lra]. replace (- ((a * a' + b * b') / n) * W * n) with (- (a * a' + b * b') * W) by (field; lra). replace (- (U * b' - V * a') * n) with (- (U * n * b' - V * n * a')) by ring. rewrite EU, EV. ring. }
    rewrite Z in S1. assert (U * n = 0) by (rewrite EU, <- S1; ring). assert (V * n = 0) by (rewrite EV, <- S1; ring). apply Rmult_integral in H, H0. destruct HU; destruct H, H0; lra.
Qed.
Lemma section_straight c p a b : a < b -> section c p a b -> straight p -> straight c.
Proof.
  intros Hab (_ & _ & H) (x & y & e & HN & HE). exists x, y, e. split; [exact HN|]. intros t. specialize (HE ((t - a) / (b - a))). destruct (H ((t - a) / (b - a))) as [E1 E2]. rewrite E1, E2 in HE. replace (a + (b - a) * ((t - a) / (b - a))) with t in HE by (field; lra). exact HE.
Qed.
Lemma moved_section c p a b u d q : a < b -> section c p a b -> moved p d u q -> moved c d (a + (b - a) * u) q.
Proof.
  intros Hab HS (h & Hh & HH & ->). destruct (section_speed c p a b u HS) as [E1 E2]. destruct HS as (_ & _ & HX). destruct (HX u) as [E3 E4]. rewrite E1, E2 in *. exists (h / (b - a)). split; [apply Rdiv_lt_0_compat; lra|]. split.
  - apply (Rmult_eq_reg_r ((b - a) * (b - a))); [|apply Rmult_integral_contrapositive_currified; lra]. replace (h / (b - a) * (h / (b - a)) * ((b - a) * (b - a))) with (h * h) by (field; lra). rewrite HH. ring.
  - rewrite E3, E4. unfold pnt. f_equal; f_equal; field; lra.
Qed.
Lemma follows_section c p a b d q : a < b -> section c p a b -> follows p d 0 1 q -> follows c d a b q.
Proof.
  intros Hab HS (F & M0 & M1 & r & r' & R & R' & (o & O0 & O1) & E1 & E2 & E3 & E4). assert (G := fun u => moved_section c p a b u). destruct (section_speed c p a b 0 HS) as [S1 S2]. destruct (section_speed c p a b 1 HS) as [S3 S4].
  pose proof (fun d q => G 0 d q Hab HS) as G0. pose proof (fun d q => G 1 d q Hab HS) as G1. clear G. replace (a + (b - a) * 0) with a in * by ring. replace (a + (b - a) * 1) with b in * by ring.
  split; [exact F|]. split; [apply G0, M0|]. split; [apply G1, M1|]. exists r, r'. split; [exact R|]. split; [exact R'|]. split; [exists o; split; [apply G0, O0|apply G1, O1]|]. rewrite E1, E2, E3, E4, S1, S2, S3, S4. repeat split; ring.
Qed.

Lemma piece_unique c s a b x y : piece c s a b -> piece c s x y -> a = x /\ b = y.
Proof. intros (E1 & E2 & _) (G1 & G2 & _). rewrite E1 in G1. rewrite E2 in G2. injection G1 as ->. injection G2 as ->. auto. Qed.
Lemma piece_open fuel c l s a b : finiteCrv c -> ~ straight c -> reduce RTrig RBMath fuel c = Ok l -> In s l -> piece c s a b -> X (c_e (cv s)) - X (c_s (cv s)) <> 0 \/ Y (c_e (cv s)) - Y (c_s (cv s)) <> 0.
Proof.
  intros F NS E HI HP. destruct (Req_dec (X (c_e (cv s)) - X (c_s (cv s))) 0) as [Z|Z]; [exfalso|left; exact Z]. assert (HP' := HP). destruct HP' as (_ & _ & H1 & H2 & _ & _ & HX). destruct (curve_ends (cv s)) as (K1 & _ & K3 & _).
  assert (CX : curveX c a = curveX c b). { pose proof (proj1 (HX 0)) as G0. pose proof (proj1 (HX 1)) as G1. replace (a + (b - a) * 0) with a in G0 by ring. replace (a + (b - a) * 1) with b in G1 by ring. lra. }
  destruct (rolle (curveX c) (speedX c) a b ltac:(lra) (speedX_lim c) CX) as (t & Ht & Zt). assert (NE : l <> []) by (intros ->; exact HI).
  destruct (reduce_cut RTrig RBMath fuel c l t F E NE (still_param c t F NS ltac:(lra) (or_introl Zt))) as (l1 & l2 & -> & C1 & C2). apply in_app_iff in HI. destruct HI as [HI|HI].
  - destruct (covers_in _ _ _ _ _ _ C1 HI) as (x & y & Q & Q1 & Q2 & _). destruct (piece_unique _ _ _ _ _ _ HP Q) as [-> ->]. lra.
  - destruct (covers_in _ _ _ _ _ _ C2 HI) as (x & y & Q & Q1 & Q2 & _). destruct (piece_unique _ _ _ _ _ _ HP Q) as [-> ->]. lra.
Qed.
Lemma scaleAll_along c d : finiteCrv c -> ~ straight c -> forall l a b, covers (fun p => simple RTrig RBMath p = true) c a b l -> (forall s x y, In s l -> piece c s x y -> X (c_e (cv s)) - X (c_s (cv s)) <> 0 \/ Y (c_e (cv s)) - Y (c_s (cv s)) <> 0) ->
  alongside c d a b (scaleAll l (Fin d : T RNum)) /\ length (scaleAll l (Fin d : T RNum)) = length l.
Proof.
  intros F NS. induction 1 as [a|a m b s r HP HS HC IH]; intros HO; [split; [constructor|reflexivity]|]. cbn [scaleAll]. assert (HP' := HP). destruct HP' as (_ & _ & H1 & H2 & HSec). pose proof (proj1 HSec) as Fp.
  destruct (simple_known _ Fp HS) as (P0 & P1 & _). destruct (scale_piece (cv s) d Fp P0 P1) as [_ G]. destruct (simple_dots _ Fp HS (HO s a m (or_introl eq_refl) HP)) as [N1 N0].
  destruct G as (q & -> & HF); [|exact N1|exact N0|].
  - intros Z. apply NS. apply (section_straight c (cv s) a m); [lra|exact HSec|]. apply simple_bent; assumption.
  - destruct IH as [IH IL]; [intros s' x y HI; apply HO; right; exact HI|]. split; [|cbn [length]; rewrite IL; reflexivity]. apply along_cons with (m := m); [exact H1|exact H2| |exact IH]. apply (follows_section c (cv s)); [lra|exact HSec|exact HF].
Qed.
Lemma untied_normalize c : finiteCrv c -> ~ tied c -> normalize c = c.
Proof.
  intros (F1 & F2 & F3 & F4) NT. unfold normalize. rewrite !(px_fin _ F1), !(px_fin _ F2), !(py_fin _ F1), !(py_fin _ F2), !feqb. destruct (Reqb (X (c_s c)) (X (c_cs c)) && Reqb (Y (c_s c)) (Y (c_cs c))) eqn:E.
  - exfalso. apply NT. left. apply andb_true_iff in E. destruct E as [E1 E2]. apply Reqb_true in E1, E2. rewrite F1, F2, E1, E2. reflexivity.
  - rewrite !(px_fin _ F3), !(px_fin _ F4), !(py_fin _ F3), !(py_fin _ F4), !feqb. destruct (Reqb (X (c_e c)) (X (c_ce c)) && Reqb (Y (c_e c)) (Y (c_ce c))) eqn:E'; [|reflexivity].
    exfalso. apply NT. right. apply andb_true_iff in E'. destruct E' as [E1 E2]. apply Reqb_true in E1, E2. rewrite F3, F4, E1, E2. reflexivity.
Qed.
Lemma bOffset_along fuel c d l : finiteCrv (normalize c) -> ~ straight (normalize c) -> bOffset RTrig RBMath fuel c (Fin d : T RNum) = Ok l -> l = [] \/ alongside (normalize c) d 0 1 l.
Proof.
  intros F NS. unfold bOffset. destruct (reduce RTrig RBMath fuel (normalize c)) as [rs| | |] eqn:ER; cbn [bind]; try discriminate. intros [= <-]. destruct rs as [|s rs]; [left; reflexivity|right].
  apply (scaleAll_along (normalize c) d F NS (s :: rs) 0 1); [apply (reduce_covers RTrig RBMath fuel); [exact F|exact ER|discriminate]|]. intros s' x y HI HP. eapply piece_open; eauto.
Qed.
Lemma along_finite c d a b l : alongside c d a b l -> map bcC l = l.
Proof.
  induction 1 as [|a m b p r _ _ (F & _) _ IH]; [reflexivity|]. cbn [map]. rewrite IH. f_equal. destruct F as (F1 & F2 & F3 & F4). unfold bcC. rewrite !bpP_finite by assumption. destruct p; reflexivity.
Qed.

Notation side_by fuel n c d := (Offset (BezierOps RTrig RBMath fuel) n (crvSeg c) (Fin d : T RNum)).
Lemma side_by_cases fuel n c d l : side_by fuel n c d = Ok l -> l = [] \/ exists ps, bOffset RTrig RBMath fuel c (Fin d : T RNum) = Ok ps /\ l = map crvSeg (map bcC ps).
Proof.
  unfold Offset. destruct (EqualsPrecision _ _ _); [intros [= <-]; left; reflexivity|]. cbn [crvSeg BezierOps co_offset]. replace (mkCrv (c_s c) (c_cs c) (c_e c) (c_ce c)) with c by (destruct c; reflexivity).
  destruct (bOffset _ _ _ _ _) as [ps| | |]; cbn [bind]; try discriminate. intros [= <-]. right. exists ps. auto.
Qed.

(** *** claims *)
(** All or nothing: what a bent curve is moved to are pieces that follow it, one after the other, from its start to its end, at the distance; or nothing at all. *)
Theorem C91_whole fuel n c d l : finiteCrv c -> ~ tied c -> ~ straight c -> side_by fuel n c d = Ok l -> l = [] \/ exists ps, l = map crvSeg ps /\ alongside c d 0 1 ps.
Proof.
  intros F NT NS E. destruct (side_by_cases _ _ _ _ _ E) as [->|(ps & E' & ->)]; [left; reflexivity|]. pose proof (untied_normalize c F NT) as EN. destruct (bOffset_along fuel c d ps) as [->|H]; [rewrite EN; exact F|rewrite EN; exact NS|exact E'|left; reflexivity|right]. rewrite EN in H.
  exists ps. split; [rewrite (along_finite _ _ _ _ _ H); reflexivity|exact H].
Qed.
(** The pieces are without gaps: each starts where the one before it ends, and both have the direction of the curve there. *)
Definition parallelTo (c : crv RNum) (t x y : R) : Prop := x * speedY c t = y * speedX c t.
Lemma moved_unique c d t q q' : moved c d t q -> moved c d t q' -> q = q'.
Proof.
  intros (h & Hh & HH & ->) (h' & Hh' & HH' & ->). assert (h = h') as ->; [|reflexivity]. apply Rsqr_inj; [lra|lra|]. unfold Rsqr. lra.
Qed.
Lemma along_app c d a b l r : alongside c d a b (l ++ r) -> exists m, alongside c d a m l /\ alongside c d m b r.
Proof.
  revert a. induction l as [|p l IH]; intros a H; [exists a; split; [constructor|exact H]|]. inversion H as [|? x ? ? ? H1 H2 H3 H4]; subst. destruct (IH _ H4) as (m & K1 & K2). exists m. split; [econstructor; eauto|exact K2].
Qed.
Theorem C91_contiguous c d a b A p q B : alongside c d a b (A ++ p :: q :: B) -> exists t, c_e p = c_s q /\ moved c d t (c_e p) /\ parallelTo c t (speedX p 1) (speedY p 1) /\ parallelTo c t (speedX q 0) (speedY q 0).
Proof.
  intros H. apply along_app in H. destruct H as (m & _ & H). inversion H as [|? x ? ? ? H1 H2 (_ & _ & M1 & r & r' & _ & _ & _ & _ & _ & E3 & E4) H4]; subst. inversion H4 as [|? y ? ? ? H1' H2' (_ & M0 & _ & s & s' & _ & _ & _ & E1 & E2 & _) H4']; subst.
  exists x. split; [eapply moved_unique; eauto|]. split; [exact M1|]. unfold parallelTo. rewrite E1, E2, E3, E4. split; ring.
Qed.
(** Offsetting ends. *)
Theorem C91_ends fuel n c d : (103 < fuel)%nat -> exists l, side_by fuel n c d = Ok l.
Proof.
  intros Hf. unfold Offset. destruct (EqualsPrecision _ _ _); [eauto|]. cbn [crvSeg BezierOps co_offset]. unfold bOffset. destruct (reduce_ends RTrig RBMath fuel (normalize (mkCrv (c_s c) (c_cs c) (c_e c) (c_ce c))) Hf) as (l & ->). cbn [bind]. eauto.
Qed.

(** *** what is lost *)
Lemma straight_speed c a b e : (forall t, a * curveX c t + b * curveY c t = e) -> forall t, a * speedX c t + b * speedY c t = 0.
Proof.
  intros H t. apply (uniqueness_limite (fun t => a * curveX c t + b * curveY c t) t).
  - apply (derivable_pt_lim_plus (mult_real_fct a (curveX c)) (mult_real_fct b (curveY c))); apply derivable_pt_lim_scal; [apply speedX_lim|apply speedY_lim].
  - intros z Hz. exists (mkposreal 1 Rlt_0_1). intros h Hh _. rewrite !H. replace ((e - e) / h - 0) with 0 by (field; exact Hh). rewrite Rabs_R0. exact Hz.
Qed.
Lemma straight_cross c u v : straight c -> speedX c u * speedY c v - speedY c u * speedX c v = 0.
Proof.
  intros (a & b & e & HN & H). pose proof (straight_speed c a b e H u) as E1. pose proof (straight_speed c a b e H v) as E2. destruct HN as [Ha|Hb].
  - apply (Rmult_eq_reg_l a); [|exact Ha]. rewrite Rmult_0_r. replace (a * (speedX c u * speedY c v - speedY c u * speedX c v)) with ((a * speedX c u + b * speedY c u) * speedY c v - (a * speedX c v + b * speedY c v) * speedY c u) by ring. rewrite E1, E2. ring.
  - apply (Rmult_eq_reg_l b); [|exact Hb]. rewrite Rmult_0_r. replace (b * (speedX c u * speedY c v - speedY c u * speedX c v)) with (speedX c u * (a * speedX c v + b * speedY c v) - speedX c v * (a * speedX c u + b * speedY c u)) by ring. rewrite E1, E2. ring.
Qed.
Definition onLine (a b e : R) (p : Pt RNum) : Prop := a * X p + b * Y p = e.
Lemma straight_points a b e c : (forall t, a * curveX c t + b * curveY c t = e) <-> onLine a b e (c_s c) /\ onLine a b e (c_cs c) /\ onLine a b e (c_e c) /\ onLine a b e (c_ce c).
Proof.
  unfold onLine. split.
  - intros H. pose proof (straight_speed c a b e H 0) as S0. pose proof (straight_speed c a b e H 1) as S1. pose proof (H 0) as H0. pose proof (H 1) as H1. destruct (curve_ends c) as (K1 & K2 & K3 & K4). destruct (speed_ends c) as (E1 & E2 & E3 & E4). rewrite K1, K2 in H0. rewrite K3, K4 in H1. rewrite E1, E2 in S0. rewrite E3, E4 in S1. repeat split; lra.
  - intros (H1 & H2 & H3 & H4) t. unfold curveX, curveY, cubic.
    match goal with |- ?z = _ => replace z with ((1 - t) ^ 3 * (a * X (c_s c) + b * Y (c_s c)) + 3 * (1 - t) ^ 2 * t * (a * X (c_cs c) + b * Y (c_cs c)) + 3 * (1 - t) * t ^ 2 * (a * X (c_ce c) + b * Y (c_ce c)) + t ^ 3 * (a * X (c_e c) + b * Y (c_e c))) by ring end. rewrite H1, H2, H3, H4. ring.
Qed.
Lemma normalize_cases c : finiteCrv c -> exists p q, normalize c = mkCrv (c_s c) p (c_e c) q /\ finitePt p /\ finitePt q /\ (forall a b e, (forall t, a * curveX c t + b * curveY c t = e) -> onLine a b e p /\ onLine a b e q).
Proof.
  intros F. assert (F' := F). destruct F' as (F1 & F2 & F3 & F4). unfold normalize. set (c1 := if _ && _ then _ else c).
  assert (H1 : exists p, c1 = mkCrv (c_s c) p (c_e c) (c_ce c) /\ finitePt p /\ (forall a b e, (forall t, a * curveX c t + b * curveY c t = e) -> onLine a b e p)).
  { unfold c1. destruct (_ && _).
    - eexists. split; [reflexivity|]. fin. rewrite fdiv by lra. rewrite FindPoint_spec by exact F. split; [reflexivity|]. intros a b e H. unfold onLine. rewrite pnt_X, pnt_Y. apply H.
    - exists (c_cs c). split; [destruct c; reflexivity|]. split; [exact F2|]. intros a b e H. apply straight_points in H. apply H. }
  clearbody c1. destruct H1 as (p & -> & Fp & Hp). cbn [c_s c_cs c_e c_ce]. assert (F' : finiteCrv (mkCrv (c_s c) p (c_e c) (c_ce c))) by (repeat split; assumption).
  destruct (_ && _).
  - eexists p, _. split; [reflexivity|]. fin. rewrite fdiv by lra. rewrite FindPoint_spec by exact F'. split; [exact Fp|]. split; [reflexivity|]. intros a b e H. split; [apply Hp, H|]. unfold onLine. rewrite pnt_X, pnt_Y.
    pose proof (proj1 (straight_points a b e c) H) as (G1 & G2 & G3 & G4). apply straight_points. cbn [c_s c_cs c_e c_ce]. repeat split; try assumption. apply Hp, H.
  - exists p, (c_ce c). split; [reflexivity|]. split; [exact Fp|]. split; [exact F4|]. intros a b e H. split; [apply Hp, H|]. apply straight_points in H. apply H.
Qed.
(** A curve that is straight is lost, however long it is. *)
Theorem C91_straight_refuted fuel n c d : finiteCrv c -> straight c -> (103 < fuel)%nat -> side_by fuel n c d = Ok [].
Proof.
  intros F HS Hf. unfold Offset. destruct (EqualsPrecision _ _ _); [reflexivity|]. cbn [crvSeg BezierOps co_offset]. replace (mkCrv (c_s c) (c_cs c) (c_e c) (c_ce c)) with c by (destruct c; reflexivity).
  destruct (normalize_cases c F) as (p & q & EN & Fp & Fq & HL). unfold bOffset. set (c' := normalize c) in *. destruct (reduce_ends RTrig RBMath fuel c' Hf) as (l & ER). rewrite ER. cbn [bind]. destruct l as [|s l]; [reflexivity|].
  assert (F' : finiteCrv c') by (rewrite EN; destruct F as (? & ? & ? & ?); repeat split; assumption).
  assert (S' : straight c'). { destruct HS as (a & b & e & HN & H). exists a, b, e. split; [exact HN|]. apply straight_points. rewrite EN. cbn [c_s c_cs c_e c_ce]. pose proof (proj1 (straight_points a b e c) H) as (G1 & G2 & G3 & G4). destruct (HL a b e H). auto. }
  pose proof (reduce_covers RTrig RBMath fuel c' _ F' ER ltac:(discriminate)) as HC. inversion HC as [|? m ? ? ? (_ & _ & H1 & H2 & HSec) HP _]; subst. cbn [scaleAll]. destruct (simple_known _ (proj1 HSec) HP) as (P0 & P1 & _).
  destruct (scale_piece (cv s) d (proj1 HSec) P0 P1) as [G _]. rewrite G; [reflexivity|]. destruct (section_speed _ _ _ _ 0 HSec) as [-> ->]. destruct (section_speed _ _ _ _ 1 HSec) as [-> ->].
  match goal with |- ?x * ?y * (?x * ?z) - _ = 0 => idtac end. replace ((m - 0) * speedX c' (0 + (m - 0) * 0) * ((m - 0) * speedY c' (0 + (m - 0) * 1)) - (m - 0) * speedY c' (0 + (m - 0) * 0) * ((m - 0) * speedX c' (0 + (m - 0) * 1))) with ((m - 0) * (m - 0) * (speedX c' (0 + (m - 0) * 0) * speedY c' (0 + (m - 0) * 1) - speedY c' (0 + (m - 0) * 0) * speedX c' (0 + (m - 0) * 1))) by ring.
  rewrite straight_cross by exact S'. ring.
Qed.
(** So is a curve with a narrow bend, although its ends are far apart and it is not straight: x = s^3 - 3 b^2 s, y = k s^2 for s from -R to R. *)
Theorem C91_narrow_refuted fuel n k b R d : 0 < b -> 2 * b <= R -> 1000 * b <= 3 * k -> (103 < fuel)%nat -> let c := loopc (3 * b * b) k (- R) R in
  ~ tied c /\ ~ straight c /\ X (c_e c) - X (c_s c) >= 2 * b * b * b /\ side_by fuel n c d = Ok [].
Proof.
  intros Hb HR Hk Hf c. assert (NT : ~ tied c).
  { intros [E|E]; apply (f_equal Y) in E; unfold c, loopc in E; cbn [c_s c_cs c_e c_ce] in E; rewrite !pnt_Y in E; unfold polY in E; assert (0 < k * (R * R)) by (apply Rmult_lt_0_compat; [lra|nra]); nra. }
  assert (F : finiteCrv c) by apply loop_finite. split; [exact NT|]. split; [apply loop_bent; lra|]. split.
  - unfold c, loopc, polX. cbn [c_s c_e]. rewrite !pnt_X. assert (R * R >= 4 * (b * b)) by nra. assert (R * (R * R - 3 * (b * b)) >= 2 * b * (b * b)). { assert (R * R - 3 * (b * b) >= b * b) by lra. nra. } nra.
  - unfold Offset. destruct (EqualsPrecision _ _ _); [reflexivity|]. cbn [crvSeg BezierOps co_offset]. replace (mkCrv (c_s c) (c_cs c) (c_e c) (c_ce c)) with c by (destruct c; reflexivity). unfold bOffset. rewrite (untied_normalize c F NT). pose proof (narrow_reduce fuel k b R Hb HR Hk Hf) as E. cbv zeta in E. fold c in E. rewrite E. reflexivity.
Qed.
(** So is a curve that ends where it starts, whatever it encloses: also a drop or a leaf. *)
Theorem C91_closed_refuted fuel n c d : c_e c = c_s c -> side_by fuel (Z.of_nat n) c d = Ok [].
Proof.
  intros E. unfold Offset. cbn [crvSeg sstart send]. rewrite E. replace (EqualsPrecision (c_s c) (c_s c) (Z.of_nat n)) with true; [reflexivity|]. symmetry. apply EqualsPrecision_coord. split; apply PrecisionEquals_refl.
Qed.
(** A curve whose first handle lies on its start leaves in the direction of the other handle, here to the right; its moved start is not above it, as it should be, but off to the left. *)
Definition tied0 : crv RNum := @mkCrv RNum (pnt 0 0) (pnt 0 0) (pnt 4 10) (pnt 3 0).
Theorem C91_handle_refuted fuel n l : side_by fuel n tied0 1 = Ok l -> (forall t, 0 < t <= 1 / 2 -> 0 < curveX tied0 t /\ 0 < curveY tied0 t <= 4 * t * curveX tied0 t) /\ ~ exists p ps, l = map crvSeg (p :: ps) /\ - (1 / 10) <= X (c_s p).
Proof.
  intros E. split.
  - intros t Ht. unfold tied0, curveX, curveY, cubic. cbn [c_s c_cs c_e c_ce]. rewrite !pnt_X, !pnt_Y. assert (0 < t * t) by nra. assert (0 < t * t * t) by nra. split; [|split]; nra.
  - intros (p & ps & EL & HX). destruct (side_by_cases _ _ _ _ _ E) as [EN|(qs & E' & EL')]; [subst l; discriminate|]. assert (F : finiteCrv tied0) by (repeat split).
    assert (EN : normalize tied0 = @mkCrv RNum (pnt 0 0) (pnt (85 / 1000) (1 / 100)) (pnt 4 10) (pnt 3 0)).
    { assert (EP : FindPoint tied0 (div (@one RNum) (ofZ 10)) = pnt (85 / 1000) (1 / 100)).
      { fin. rewrite fdiv by lra. rewrite FindPoint_spec by exact F. unfold curveX, curveY, cubic, tied0. cbn [c_s c_cs c_e c_ce]. rewrite !pnt_X, !pnt_Y. unfold pnt. f_equal; f_equal; field. }
      unfold normalize. rewrite EP. unfold tied0. cbn [c_s c_cs c_e c_ce px py pnt]. rewrite !feqb. rewrite (proj2 (Reqb_true 0 0) eq_refl). cbn [andb c_s c_cs c_e c_ce px py pnt]. rewrite !feqb. destruct (Reqb 4 3) eqn:E43; [apply Reqb_true in E43; lra|]. reflexivity. }
    destruct (bOffset_along fuel tied0 1 qs) as [->|H]; [rewrite EN; repeat split| |exact E'|subst l; discriminate|].
    + rewrite EN. intros (a & b & e & HN & H). apply straight_points in H. unfold onLine in H. cbn [c_s c_cs c_e c_ce] in H. rewrite !pnt_X, !pnt_Y in H. lra.
    + rewrite (along_finite _ _ _ _ _ H) in EL'. rewrite EL in EL'. inversion H as [? E1 E2 E3|? m ? q r H1 H2 (_ & (h & Hh & HH & EQ) & _) H4 E1 E2 E3]; [subst qs; discriminate|]. subst qs. cbn [map] in EL'. assert (c_s p = c_s q) as EP by (unfold crvSeg in EL'; congruence). rewrite EP, EQ, pnt_X in HX.
      rewrite EN in HX, HH. destruct (speed_ends (@mkCrv RNum (pnt 0 0) (pnt (85 / 1000) (1 / 100)) (pnt 4 10) (pnt 3 0))) as (S1 & S2 & _). rewrite S1, S2 in HH. rewrite S2 in HX. destruct (curve_ends (@mkCrv RNum (pnt 0 0) (pnt (85 / 1000) (1 / 100)) (pnt 4 10) (pnt 3 0))) as (C1 & _). rewrite C1 in HX. cbn [c_s c_cs] in HX, HH. rewrite !pnt_X, !pnt_Y in HH. rewrite pnt_X, !pnt_Y in HX.
      assert (h < 3 / 10) by nra. assert (1 / 10 < 3 * (1 / 100 - 0) / h); [|lra]. apply (Rmult_lt_reg_r h); [lra|]. replace (3 * (1 / 100 - 0) / h * h) with (3 * (1 / 100 - 0)) by (field; lra). lra.
Qed.

(** *** examples *)
Lemma loop0_untied : ~ tied loop0.
Proof. intros [E|E]; apply (f_equal Y) in E; unfold loop0, loopc in E; cbn [c_s c_cs c_e c_ce] in E; rewrite !pnt_Y in E; unfold polY in E; lra. Qed.
Lemma loop0_bent : ~ straight loop0. Proof. apply (loop_bent 2 1 (7 / 4)); lra. Qed.
Lemma loop0_apart : EqualsPrecision (c_s loop0) (c_e loop0) 3 = false.
Proof.
  destruct (EqualsPrecision (c_s loop0) (c_e loop0) 3) eqn:E; [|reflexivity]. exfalso. apply (EqualsPrecision_coord _ _ 3) in E. destruct E as [E _]. unfold loop0, loopc in E. cbn [c_s c_e px pnt] in E. apply (PrecisionEquals_close_R _ _ 3) in E. unfold polX in E. match type of E with Rabs ?z <= _ => assert (z <= Rabs z) by apply Rle_abs; assert (- z <= Rabs z) by (rewrite <- Rabs_Ropp; apply Rle_abs) end. lra.
Qed.
(** The curve x = s^3 - 3 s, y = 2 s^2 for s from -7/4 to 7/4 is moved, by whatever distance, to six pieces that follow it. *)
Example C91_whole_ex d : exists ps, side_by 104 3 loop0 d = Ok (map crvSeg ps) /\ length ps = 6%nat /\ alongside loop0 d 0 1 ps.
Proof.
  destruct (loop0_reduce 104 ltac:(lia)) as (d1 & d2 & d3 & d4 & d5 & d6 & ER). match type of ER with _ = Ok ?l => set (rs := l) in * end. assert (F : finiteCrv loop0) by apply loop_finite.
  destruct (scaleAll_along loop0 d F loop0_bent rs 0 1) as [HA HL].
  { apply (reduce_covers RTrig RBMath 104); [exact F|exact ER|discriminate]. }
  { intros s x y HI HP. eapply piece_open; eauto using loop0_bent. }
  exists (scaleAll rs (Fin d : T RNum)). split; [|split; [exact HL|exact HA]]. unfold Offset. cbn [crvSeg sstart send]. rewrite loop0_apart. cbn [BezierOps co_offset]. replace (mkCrv (c_s loop0) (c_cs loop0) (c_e loop0) (c_ce loop0)) with loop0 by reflexivity. unfold bOffset. rewrite (untied_normalize loop0 F loop0_untied), ER. cbn [bind]. rewrite (along_finite _ _ _ _ _ HA). reflexivity.
Qed.
Example C91_contiguous_ex : exists p q B, alongside loop0 (1 / 10) 0 1 ([] ++ p :: q :: B).
Proof. destruct (C91_whole_ex (1 / 10)) as (ps & _ & HL & HA). destruct ps as [|p [|q B]]; try discriminate. exists p, q, B. exact HA. Qed.
Example C91_ends_ex : exists l, side_by 104 3 loop0 (1 / 10) = Ok l. Proof. apply C91_ends. lia. Qed.
(** a straight curve of length 30 *)
Example C91_straight_ex : finiteCrv (line3 0 0 10 0) /\ straight (line3 0 0 10 0).
Proof. split; [apply line3_finite|]. exists 0, 1, 0. split; [right; lra|]. intros t. rewrite line3_Y. ring. Qed.
Example C91_narrow_ex : 0 < 1 / 2 /\ 2 * (1 / 2) <= 1 /\ 1000 * (1 / 2) <= 3 * 200. Proof. lra. Qed.
(** a drop from (0, 0) over (0, 75) back *)
Example C91_closed_ex : let c := @mkCrv RNum (pnt 0 0) (pnt 100 100) (pnt 0 0) (pnt (-100) 100) in c_e c = c_s c /\ curveX c (1 / 2) = 0 /\ curveY c (1 / 2) = 75.
Proof. cbv zeta. unfold curveX, curveY, cubic. cbn [c_s c_cs c_e c_ce]. rewrite !pnt_X, !pnt_Y. repeat split; field. Qed.
Example C91_handle_ex : exists l, side_by 104 3 tied0 1 = Ok l. Proof. apply C91_ends. lia. Qed.
Print Assumptions C91_whole. Print Assumptions C91_contiguous. Print Assumptions C91_ends. Print Assumptions C91_straight_refuted. Print Assumptions C91_narrow_refuted. Print Assumptions C91_closed_refuted. Print Assumptions C91_handle_refuted.
