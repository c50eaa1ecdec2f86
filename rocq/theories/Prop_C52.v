(** C52: circles are round. *)
From Coq Require Import List ZArith Bool Reals Lra Psatz.
From Verif Require Import Num FloatNum RealNum PathModel DrawModel PathSpec GeomSpec BezierProofs Prop_C39 Witness.
Import ListNotations.
Local Open Scope R_scope.

Lemma pen_end d g : pen (d ++ [g]) = send g. Proof. unfold pen. rewrite rev_unit. reflexivity. Qed.
Lemma abs_fin d x y : finitePt (pen d) -> ToAbsPosition d (pnt x y) = pnt (X (pen d) + x) (Y (pen d) + y).
Proof. intros F. unfold ToAbsPosition. rewrite pen_CurrentPosition, (px_fin _ F), (py_fin _ F). unfold pnt. cbn [px py]. fin. apply NewPoint_fin. Qed.
Lemma relMove_fin d x y : finitePt (pen d) -> RelMoveTo d (pnt x y) = d ++ [Move (pen d) (pnt (X (pen d) + x) (Y (pen d) + y))].
Proof. intros F. unfold RelMoveTo, MoveTo. rewrite abs_fin, pen_CurrentPosition; auto. Qed.
Lemma relLine_fin d x y : finitePt (pen d) -> RelLineTo d (pnt x y) = d ++ [Line (pen d) (pnt (X (pen d) + x) (Y (pen d) + y))].
Proof. intros F. unfold RelLineTo, LineTo. rewrite abs_fin, pen_CurrentPosition; auto. Qed.
Lemma relCurve_fin d a b c e x y : finitePt (pen d) -> RelCurveTo d (pnt a b) (pnt c e) (pnt x y) =
  d ++ [Curve (pen d) (pnt (X (pen d) + a) (Y (pen d) + b)) (pnt (X (pen d) + x) (Y (pen d) + y)) (pnt (X (pen d) + c) (Y (pen d) + e))].
Proof. intros F. unfold RelCurveTo, CurveTo. rewrite !abs_fin, pen_CurrentPosition; auto. Qed.

(** the factor 4 (sqrt 2 - 1) / 3 *)
Definition kappa : R := 4 * (sqrt 2 - 1) / 3.
Lemma ctrl_kappa : (@ctrl_frac RNum) = Fin kappa.
Proof. unfold ctrl_frac. rewrite !fofZ, fsqrt by lra. fin. rewrite fdiv by lra. reflexivity. Qed.
Lemma kappa_eq : 9 * kappa ^ 2 + 24 * kappa - 16 = 0.
Proof. unfold kappa. pose proof (sqrt_sqrt 2 ltac:(lra)). replace (sqrt 2 - 1) with (sqrt 2 - 1) by auto. nra. Qed.
Lemma kappa_lo : 0.5522 <= kappa <= 0.5524.
Proof.
  unfold kappa. assert (1.4142 <= sqrt 2 <= 1.4143); [|lra].
  split; [rewrite <- (sqrt_square 1.4142) by lra|rewrite <- (sqrt_square 1.4143) by lra]; apply sqrt_le_1; lra.
Qed.

(** a quarter of the unit circle, from (1, 0) to (0, 1) *)
Definition qa (t : R) : R := cubic 1 1 kappa 0 t.
Definition qb (t : R) : R := cubic 0 kappa 1 1 t.
Lemma quarter t : qa t ^ 2 + qb t ^ 2 = 1 + (10 - 18 * kappa) * (t * (1 - t)) ^ 2 * (1 - 4 * (t * (1 - t))).
Proof.
  assert (E : qa t ^ 2 + qb t ^ 2 - (1 + (10 - 18 * kappa) * (t * (1 - t)) ^ 2 * (1 - 4 * (t * (1 - t)))) =
              (9 * kappa ^ 2 + 24 * kappa - 16) * ((t * (1 - t)) ^ 2 * (1 - 2 * (t * (1 - t))))) by (unfold qa, qb, cubic; ring).
  rewrite kappa_eq in E. lra.
Qed.
Lemma quarter_round t : 0 <= t <= 1 -> 1 <= qa t ^ 2 + qb t ^ 2 <= 1.0003 ^ 2.
Proof.
  intros H. rewrite quarter. set (u := t * (1 - t)). assert (U : 0 <= u <= 1 / 4) by (unfold u; split; [apply Rmult_le_pos; lra|pose proof (pow2_ge_0 (1 / 2 - t)); lra]). pose proof kappa_lo as K.
  set (k := 10 - 18 * kappa). assert (Hk : 0 <= k <= 0.0605) by (unfold k; lra). clearbody u k.
  assert (V : 0 <= u ^ 2 * (1 - 4 * u) <= 1 / 108).
  { split; [apply Rmult_le_pos; [apply pow2_ge_0|lra]|]. assert (0 <= (1 - 6 * u) ^ 2 * (1 + 12 * u)) by (apply Rmult_le_pos; [apply pow2_ge_0|lra]). nra. }
  rewrite Rmult_assoc. set (v := u ^ 2 * (1 - 4 * u)) in *. clearbody v. split; [nra|]. assert (k * v <= 0.0605 * (1 / 108)) by (apply Rmult_le_compat; lra). lra.
Qed.
Lemma quarter_corner t : 0 <= t <= 1 -> 0 <= qa t /\ 0 <= qb t.
Proof.
  intros H. pose proof kappa_lo. unfold qa, qb, cubic.
  assert (0 <= (1 - t) ^ 3) by (apply pow_le; lra). assert (0 <= t ^ 3) by (apply pow_le; lra).
  assert (0 <= 3 * (1 - t) ^ 2 * t) by (apply Rmult_le_pos; [apply Rmult_le_pos; [lra|apply pow2_ge_0]|lra]).
  assert (0 <= 3 * (1 - t) * t ^ 2) by (apply Rmult_le_pos; [lra|apply pow2_ge_0]).
  assert (0 <= 3 * (1 - t) * t ^ 2 * kappa) by (apply Rmult_le_pos; lra). assert (0 <= 3 * (1 - t) ^ 2 * t * kappa) by (apply Rmult_le_pos; lra). lra.
Qed.
(** the quarter meets every ray of its quadrant *)
Lemma quarter_ray p q : 0 <= p -> 0 <= q -> 0 < p + q -> exists t l, 0 <= t <= 1 /\ 0 < l /\ qa t = l * p /\ qb t = l * q.
Proof.
  intros Hp Hq Hpq. set (f := fun t => qa t * q - qb t * p).
  assert (C : continuity f). { unfold f, qa, qb, cubic. intros x. apply derivable_continuous_pt. reg. }
  assert (F0 : f 0 = q) by (unfold f, qa, qb, cubic; ring). assert (F1 : f 1 = - p) by (unfold f, qa, qb, cubic; ring).
  destruct (IVT_cor f 0 1 C ltac:(lra)) as (t & Ht & E); [rewrite F0, F1; nra|].
  pose proof (quarter_round t Ht) as [R1 _]. destruct (quarter_corner t Ht) as [A B]. unfold f in E.
  assert (D : 0 < p ^ 2 + q ^ 2). { pose proof (pow2_ge_0 (p - q)). assert (0 < (p + q) ^ 2) by (apply pow_lt; lra). lra. }
  assert (P0 : 0 < qa t * p + qb t * q).
  { destruct (Rle_lt_dec (qa t * p + qb t * q) 0) as [Hle|]; [|auto]. exfalso. pose proof (Rmult_le_pos _ _ A Hp). pose proof (Rmult_le_pos _ _ B Hq). assert (Z : qa t * p + qb t * q = 0) by lra.
    assert ((qa t * p + qb t * q) ^ 2 + (qa t * q - qb t * p) ^ 2 = (qa t ^ 2 + qb t ^ 2) * (p ^ 2 + q ^ 2)) as I by ring. rewrite Z, E in I. assert (0 < (qa t ^ 2 + qb t ^ 2) * (p ^ 2 + q ^ 2)) by (apply Rmult_lt_0_compat; lra). lra. }
  exists t, ((qa t * p + qb t * q) / (p ^ 2 + q ^ 2)). split; [auto|]. split; [apply Rdiv_lt_0_compat; auto|].
  split; apply (Rmult_eq_reg_r (p ^ 2 + q ^ 2)); try lra; field_simplify; try lra.
  - replace (qa t * p ^ 2 + qa t * q ^ 2) with (qa t * p ^ 2 + q * (qa t * q)) by ring. replace (qa t * q) with (qb t * p) by lra. ring.
  - replace (qb t * p ^ 2 + qb t * q ^ 2) with (p * (qb t * p) + qb t * q ^ 2) by ring. replace (qb t * p) with (qa t * q) by lra. ring.
Qed.

(** Circle appends a move to the top of the circle and four curves, each starting where the one before ends, the last ending where the first started. *)
Definition circleAt (cx cy r : R) : list (seg RNum) :=
  [ Curve (pnt cx (cy - r)) (pnt (cx + kappa * r) (cy - r)) (pnt (cx + r) cy) (pnt (cx + r) (cy - kappa * r));
    Curve (pnt (cx + r) cy) (pnt (cx + r) (cy + kappa * r)) (pnt cx (cy + r)) (pnt (cx + kappa * r) (cy + r));
    Curve (pnt cx (cy + r)) (pnt (cx - kappa * r) (cy + r)) (pnt (cx - r) cy) (pnt (cx - r) (cy + kappa * r));
    Curve (pnt (cx - r) cy) (pnt (cx - r) (cy - kappa * r)) (pnt cx (cy - r)) (pnt (cx - kappa * r) (cy - r)) ].
Theorem C52_shape (d : path RNum) r : finitePt (pen d) -> let cx := X (pen d) + r in let cy := Y (pen d) + r in
  Circle d (Fin r) = d ++ [Move (pen d) (pnt cx (cy - r))] ++ circleAt cx cy r.
Proof.
  intros F cx cy. unfold Circle. rewrite ctrl_kappa. fin.
  assert (NP : forall a b, @NewPoint RNum (Fin a) (Fin b) = pnt a b) by (intros; apply NewPoint_fin). rewrite !NP.
  rewrite relMove_fin by auto.
  rewrite (relCurve_fin (d ++ [_])) by (rewrite pen_end; reflexivity). rewrite pen_end. cbn [send]. rewrite !pnt_X, !pnt_Y.
  rewrite (relCurve_fin ((d ++ [_]) ++ [_])) by (rewrite pen_end; reflexivity). rewrite pen_end. cbn [send]. rewrite !pnt_X, !pnt_Y.
  rewrite (relCurve_fin (((d ++ [_]) ++ [_]) ++ [_])) by (rewrite pen_end; reflexivity). rewrite pen_end. cbn [send]. rewrite !pnt_X, !pnt_Y.
  rewrite (relCurve_fin ((((d ++ [_]) ++ [_]) ++ [_]) ++ [_])) by (rewrite pen_end; reflexivity). rewrite pen_end. cbn [send]. rewrite !pnt_X, !pnt_Y.
  rewrite <- !app_assoc. cbn [app]. unfold circleAt, cx, cy. repeat (first [ring | progress f_equal]).
Qed.
Print Assumptions C52_shape.

Definition dist (x y cx cy : R) : R := sqrt ((x - cx) ^ 2 + (y - cy) ^ 2).
Lemma dist_bounds r a b : 1 <= a ^ 2 + b ^ 2 <= 1.0003 ^ 2 -> Rabs r <= sqrt ((r * a) ^ 2 + (r * b) ^ 2) <= 1.0003 * Rabs r.
Proof.
  intros H. replace ((r * a) ^ 2 + (r * b) ^ 2) with (Rsqr r * (a ^ 2 + b ^ 2)) by (unfold Rsqr; ring). rewrite sqrt_mult, sqrt_Rsqr_abs; [|apply Rle_0_sqr|lra].
  assert (1 <= sqrt (a ^ 2 + b ^ 2)) by (rewrite <- sqrt_1 at 1; apply sqrt_le_1; lra).
  assert (sqrt (a ^ 2 + b ^ 2) <= 1.0003) by (rewrite <- (sqrt_pow2 1.0003) by lra; apply sqrt_le_1; lra). pose proof (Rabs_pos r). nra.
Qed.
(** the quarters of the circle, by their signs *)
Lemma circle_points cx cy r x y : inDrawing (circleAt cx cy r) x y <-> exists t, 0 <= t <= 1 /\
  ((x, y) = (cx + r * qb t, cy - r * qa t) \/ (x, y) = (cx + r * qa t, cy + r * qb t) \/
   (x, y) = (cx - r * qb t, cy + r * qa t) \/ (x, y) = (cx - r * qa t, cy - r * qb t)).
Proof.
  unfold inDrawing, circleAt. split.
  - intros (g & I & _ & t & Ht & E). exists t. split; [auto|]. cbn in I.
    destruct I as [<-|[<-|[<-|[<-|[]]]]]; rewrite ?pnt_X, ?pnt_Y in E; destruct E as [-> ->]; [left|right; left|right; right; left|right; right; right];
      unfold qa, qb, cubic; f_equal; ring.
  - intros (t & Ht & D). assert (K : forall n g, nth_error (circleAt cx cy r) n = Some g -> In g (circleAt cx cy r)) by (intros n g; apply nth_error_In).
    destruct D as [E|[E|[E|E]]]; injection E as -> ->; eexists; idtac.
    + (split; [apply (K 0%nat); reflexivity|]); (split; [exact I|]); exists t; (split; [auto|]); rewrite ?pnt_X, ?pnt_Y; unfold qa, qb, cubic; split; ring.
    + (split; [apply (K 1%nat); reflexivity|]); (split; [exact I|]); exists t; (split; [auto|]); rewrite ?pnt_X, ?pnt_Y; unfold qa, qb, cubic; split; ring.
    + (split; [apply (K 2%nat); reflexivity|]); (split; [exact I|]); exists t; (split; [auto|]); rewrite ?pnt_X, ?pnt_Y; unfold qa, qb, cubic; split; ring.
    + (split; [apply (K 3%nat); reflexivity|]); (split; [exact I|]); exists t; (split; [auto|]); rewrite ?pnt_X, ?pnt_Y; unfold qa, qb, cubic; split; ring.
Qed.
(** Every point drawn by Circle(r) has a distance from the centre between the radius and 1.0003 times the radius. *)
Theorem C52_round (d : path RNum) r x y : finitePt (pen d) -> inDrawing (Circle d (Fin r)) x y ->
  inDrawing d x y \/ Rabs r <= dist x y (X (pen d) + r) (Y (pen d) + r) <= 1.0003 * Rabs r.
Proof.
  intros F. rewrite C52_shape by auto. intros (g & I & V & O). apply in_app_or in I. destruct I as [I|I]; [left; exists g; auto|]. right.
  cbn [app In] in I. destruct I as [<-|I]; [destruct V|]. set (cx := X (pen d) + r). set (cy := Y (pen d) + r). fold cx in I. fold cy in I.
  assert (D : inDrawing (circleAt cx cy r) x y) by (exists g; auto). apply circle_points in D. destruct D as (t & Ht & D). pose proof (quarter_round t Ht) as Q.
  unfold dist. destruct D as [D|[D|[D|D]]]; injection D as -> ->.
  - pose proof (dist_bounds r (qb t) (qa t) ltac:(lra)) as B. replace (_ ^ 2 + _ ^ 2) with ((r * qb t) ^ 2 + (r * qa t) ^ 2) by ring. exact B.
  - pose proof (dist_bounds r (qa t) (qb t) ltac:(lra)) as B. replace (_ ^ 2 + _ ^ 2) with ((r * qa t) ^ 2 + (r * qb t) ^ 2) by ring. exact B.
  - pose proof (dist_bounds r (qb t) (qa t) ltac:(lra)) as B. replace (_ ^ 2 + _ ^ 2) with ((r * qb t) ^ 2 + (r * qa t) ^ 2) by ring. exact B.
  - pose proof (dist_bounds r (qa t) (qb t) ltac:(lra)) as B. replace (_ ^ 2 + _ ^ 2) with ((r * qa t) ^ 2 + (r * qb t) ^ 2) by ring. exact B.
Qed.
Print Assumptions C52_round.
(** It goes all the way around: in every direction from the centre there is a point of it. *)
Theorem C52_around (d : path RNum) r p q : finitePt (pen d) -> 0 < r -> (p, q) <> (0, 0) -> exists l, 0 < l /\
  inDrawing (Circle d (Fin r)) (X (pen d) + r + l * p) (Y (pen d) + r + l * q).
Proof.
  intros F Hr N. rewrite C52_shape by auto. set (cx := X (pen d) + r). set (cy := Y (pen d) + r).
  assert (G : exists l, 0 < l /\ inDrawing (circleAt cx cy r) (cx + l * p) (cy + l * q)).
  { assert (NZ : p <> 0 \/ q <> 0). { destruct (Req_dec p 0) as [->|]; [destruct (Req_dec q 0) as [->|]; [congruence|auto]|auto]. }
    assert (S : exists t l, 0 <= t <= 1 /\ 0 < l /\ ((l * p, l * q) = (qb t, - qa t) \/ (l * p, l * q) = (qa t, qb t) \/ (l * p, l * q) = (- qb t, qa t) \/ (l * p, l * q) = (- qa t, - qb t))).
    { destruct (Rle_lt_dec 0 p) as [Hp|Hp], (Rle_lt_dec 0 q) as [Hq|Hq].
      - destruct (quarter_ray p q Hp Hq ltac:(lra)) as (t & l & Ht & Hl & E1 & E2). exists t, l. repeat split; try lra. right; left. f_equal; lra.
      - destruct (quarter_ray (- q) p ltac:(lra) Hp ltac:(lra)) as (t & l & Ht & Hl & E1 & E2). exists t, l. repeat split; try lra. left. f_equal; lra.
      - destruct (quarter_ray q (- p) Hq ltac:(lra) ltac:(lra)) as (t & l & Ht & Hl & E1 & E2). exists t, l. repeat split; try lra. right; right; left. f_equal; lra.
      - destruct (quarter_ray (- p) (- q) ltac:(lra) ltac:(lra) ltac:(lra)) as (t & l & Ht & Hl & E1 & E2). exists t, l. repeat split; try lra. right; right; right. f_equal; lra. }
    destruct S as (t & l & Ht & Hl & S). exists (r * l). split; [apply Rmult_lt_0_compat; auto|]. apply circle_points. exists t. split; [auto|].
    destruct S as [S|[S|[S|S]]]; injection S as E1 E2; [left|right; left|right; right; left|right; right; right]; rewrite !Rmult_assoc, E1, E2; f_equal; ring. }
  destruct G as (l & Hl & g & I & V & O). exists l. split; [auto|]. exists g. split; [|auto]. apply in_or_app. right. right. exact I.
Qed.
Print Assumptions C52_around.

Example C52_example : finitePt (pen [Move (pnt 0 0) (pnt 3 4)]) /\ 0 < 5 /\ (1, -2) <> (0, 0) /\
  Circle [Move (pnt 0 0) (pnt 3 4)] (Fin 5) = [Move (pnt 0 0) (pnt 3 4); Move (pnt 3 4) (pnt (3 + 5) (4 + 5 - 5))] ++ circleAt (3 + 5) (4 + 5) 5.
Proof. split; [reflexivity|]. split; [lra|]. split; [intros E; injection E; lra|]. rewrite (C52_shape [Move (pnt 0 0) (pnt 3 4)] 5) by reflexivity. reflexivity. Qed.
