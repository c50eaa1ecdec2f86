(** C54: rounded corners. *)
From Coq Require Import List ZArith Bool Reals Lra Psatz.
From Verif Require Import Num FloatNum RealNum RealTrig PathModel DrawModel PathSpec PathProofs GeomSpec BezierProofs LineGeom Prop_C38 Prop_C39 Prop_C52 Witness.
Import ListNotations.
Local Open Scope R_scope.

Definition unit (s : R) : Prop := s = 1 \/ s = -1.
Lemma length_fin x1 y1 x2 y2 : LineLength (pnt x1 y1) (pnt x2 y2) = Fin (Prop_C38.dist x1 y1 x2 y2).
Proof.
  unfold LineLength, Distance, Prop_C38.dist, pnt. cbn [px py]. fin. rewrite fsqrt.
  - do 2 f_equal. ring.
  - pose proof (Rle_0_sqr (x1 - x2)). pose proof (Rle_0_sqr (y1 - y2)). unfold Rsqr in *. lra.
Qed.
Lemma far s L x : unit s -> / 1000 < L -> ~ agree 3 x (x + s * L).
Proof. intros [-> | ->] H; apply no_agree; [rewrite Rabs_left by lra|rewrite Rabs_right by lra]; lra. Qed.
Lemma along_x x y s L d : unit s -> / 1000 < L -> PointAtDistance RTrig (pnt x y) (pnt (x + s * L) y) (Fin d) = pnt (x + s * d) y.
Proof.
  intros S HL. rewrite PointAtDistance_cases. change 3%Z with (Z.of_nat 3). pose proof (far s L x S HL) as A. unfold agree in A.
  destruct (PrecisionEquals (Fin x : T RNum) _ _); [destruct (A eq_refl)|]. rewrite PrecisionProofs.PrecisionEquals_refl.
  destruct S as [-> | ->]; [destruct (Rltb_spec (x + 1 * L) x)|destruct (Rltb_spec (x + -1 * L) x)]; try lra; unfold pnt; do 2 f_equal; ring.
Qed.
Lemma along_y x y s L d : unit s -> 0 < L -> PointAtDistance RTrig (pnt x y) (pnt x (y + s * L)) (Fin d) = pnt x (y + s * d).
Proof.
  intros S HL. rewrite PointAtDistance_cases. change 3%Z with (Z.of_nat 3). rewrite PrecisionProofs.PrecisionEquals_refl.
  destruct S as [-> | ->]; [destruct (Rltb_spec (y + 1 * L) y)|destruct (Rltb_spec (y + -1 * L) y)]; try lra; unfold pnt; do 2 f_equal; ring.
Qed.
Lemma length_x x y s L : unit s -> 0 <= L -> LineLength (pnt x y) (pnt (x + s * L) y) = Fin L.
Proof. intros S HL. rewrite length_fin, dist_horizontal. replace (x + s * L - x) with (s * L) by ring. f_equal. destruct S as [-> | ->]; [rewrite Rabs_right|rewrite Rabs_left1]; lra. Qed.
Lemma length_y x y s L : unit s -> 0 <= L -> LineLength (pnt x y) (pnt x (y + s * L)) = Fin L.
Proof. intros S HL. rewrite length_fin, dist_vertical. replace (y + s * L - y) with (s * L) by ring. f_equal. destruct S as [-> | ->]; [rewrite Rabs_right|rewrite Rabs_left1]; lra. Qed.
Lemma unit_opp s : unit s -> unit (- s). Proof. intros [-> | ->]; [right|left]; lra. Qed.

(** A corner at (cx, cy) with a first leg of length a and a second of length b, in the directions given by the signs, rounded with radius r. *)
Theorem C54_across_then_down (d : path RNum) cx cy sx sy a b r : unit sx -> unit sy -> / 1000 < r -> r <= a -> r <= b -> pen d = pnt (cx - sx * a) cy ->
  RoundedCornerTo RTrig d (pnt cx (cy + sy * b)) (pnt cx cy) (Fin r) =
  d ++ [ Line (pen d) (pnt (cx - sx * r) cy);
         Curve (pnt (cx - sx * r) cy) (pnt (cx - sx * r + sx * (r * kappa)) cy) (pnt cx (cy + sy * r)) (pnt cx (cy + sy * r - sy * (r * kappa)));
         Line (pnt cx (cy + sy * r)) (pnt cx (cy + sy * b)) ].
Proof.
  intros Sx Sy Hr Ha Hb Hp. pose proof (unit_opp sy Sy) as Sy'. unfold RoundedCornerTo. rewrite ctrl_kappa, pen_CurrentPosition, Hp.
  assert (E1 : pnt cx cy = pnt (cx - sx * a + sx * a) cy) by (f_equal; ring).
  assert (L1 : LineLength (pnt (cx - sx * a) cy) (pnt cx cy) = Fin a) by (rewrite E1; apply length_x; auto; lra).
  assert (P1 : PointAtDistance RTrig (pnt (cx - sx * a) cy) (pnt cx cy) (Fin (a - r)) = pnt (cx - sx * r) cy) by (rewrite E1, along_x by (auto; lra); f_equal; ring).
  rewrite L1. fin. rewrite P1. rewrite (along_y cx cy sy b r) by (auto; lra).
  assert (E2 : pnt cx cy = pnt (cx - sx * r + sx * r) cy) by (f_equal; ring).
  assert (L2 : LineLength (pnt (cx - sx * r) cy) (pnt cx cy) = Fin r) by (rewrite E2; apply length_x; auto; lra).
  rewrite L2. fin. assert (P2 : PointAtDistance RTrig (pnt (cx - sx * r) cy) (pnt cx cy) (Fin (r * kappa)) = pnt (cx - sx * r + sx * (r * kappa)) cy) by (rewrite E2, along_x by (auto; lra); reflexivity).
  rewrite P2. assert (E3 : pnt cx cy = pnt cx (cy + sy * r + - sy * r)) by (f_equal; ring).
  assert (L3 : LineLength (pnt cx (cy + sy * r)) (pnt cx cy) = Fin r) by (rewrite E3; apply length_y; auto; lra).
  rewrite L3. fin. assert (P3 : PointAtDistance RTrig (pnt cx (cy + sy * r)) (pnt cx cy) (Fin (r * kappa)) = pnt cx (cy + sy * r - sy * (r * kappa))) by (rewrite E3, along_y by (auto; lra); f_equal; ring).
  rewrite P3. unfold LineTo, CurveTo. rewrite !pen_CurrentPosition, !pen_end, Hp, <- !app_assoc. reflexivity.
Qed.
Print Assumptions C54_across_then_down.
Theorem C54_down_then_across (d : path RNum) cx cy sx sy a b r : unit sx -> unit sy -> / 1000 < r -> r <= a -> r <= b -> pen d = pnt cx (cy - sy * a) ->
  RoundedCornerTo RTrig d (pnt (cx + sx * b) cy) (pnt cx cy) (Fin r) =
  d ++ [ Line (pen d) (pnt cx (cy - sy * r));
         Curve (pnt cx (cy - sy * r)) (pnt cx (cy - sy * r + sy * (r * kappa))) (pnt (cx + sx * r) cy) (pnt (cx + sx * r - sx * (r * kappa)) cy);
         Line (pnt (cx + sx * r) cy) (pnt (cx + sx * b) cy) ].
Proof.
  intros Sx Sy Hr Ha Hb Hp. pose proof (unit_opp sx Sx) as Sx'. unfold RoundedCornerTo. rewrite ctrl_kappa, pen_CurrentPosition, Hp.
  assert (E1 : pnt cx cy = pnt cx (cy - sy * a + sy * a)) by (f_equal; ring).
  assert (L1 : LineLength (pnt cx (cy - sy * a)) (pnt cx cy) = Fin a) by (rewrite E1; apply length_y; auto; lra).
  assert (P1 : PointAtDistance RTrig (pnt cx (cy - sy * a)) (pnt cx cy) (Fin (a - r)) = pnt cx (cy - sy * r)) by (rewrite E1, along_y by (auto; lra); f_equal; ring).
  rewrite L1. fin. rewrite P1. rewrite (along_x cx cy sx b r) by (auto; lra).
  assert (E2 : pnt cx cy = pnt cx (cy - sy * r + sy * r)) by (f_equal; ring).
  assert (L2 : LineLength (pnt cx (cy - sy * r)) (pnt cx cy) = Fin r) by (rewrite E2; apply length_y; auto; lra).
  rewrite L2. fin. assert (P2 : PointAtDistance RTrig (pnt cx (cy - sy * r)) (pnt cx cy) (Fin (r * kappa)) = pnt cx (cy - sy * r + sy * (r * kappa))) by (rewrite E2, along_y by (auto; lra); reflexivity).
  rewrite P2. assert (E3 : pnt cx cy = pnt (cx + sx * r + - sx * r) cy) by (f_equal; ring).
  assert (L3 : LineLength (pnt (cx + sx * r) cy) (pnt cx cy) = Fin r) by (rewrite E3; apply length_x; auto; lra).
  rewrite L3. fin. assert (P3 : PointAtDistance RTrig (pnt (cx + sx * r) cy) (pnt cx cy) (Fin (r * kappa)) = pnt (cx + sx * r - sx * (r * kappa)) cy) by (rewrite E3, along_x by (auto; lra); f_equal; ring).
  rewrite P3. unfold LineTo, CurveTo. rewrite !pen_CurrentPosition, !pen_end, Hp, <- !app_assoc. reflexivity.
Qed.
Print Assumptions C54_down_then_across.

(** The curve stays within 0.03 per cent of the circle of radius r that touches both legs (the lines before and after it lie on the legs). *)
Theorem C54_round cx cy sx sy r x y : unit sx -> unit sy -> 0 < r ->
  onSeg (Curve (pnt (cx - sx * r) cy) (pnt (cx - sx * r + sx * (r * kappa)) cy) (pnt cx (cy + sy * r)) (pnt cx (cy + sy * r - sy * (r * kappa)))) x y ->
  r <= Prop_C38.dist (cx - sx * r) (cy + sy * r) x y <= 1.0003 * r.
Proof.
  intros Sx Sy Hr (t & Ht & Ex & Ey). rewrite !pnt_X in Ex. rewrite !pnt_Y in Ey.
  assert (E1 : x - (cx - sx * r) = sx * r * qb t) by (rewrite Ex; unfold qb, cubic; ring).
  assert (E2 : y - (cy + sy * r) = - (sy * r * qa t)) by (rewrite Ey; unfold qa, cubic; ring).
  pose proof (dist_bounds r (qb t) (qa t)) as B. rewrite (Rabs_right r) in B by lra. unfold Prop_C38.dist. rewrite E1, E2.
  replace ((sx * r * qb t) ^ 2 + (- (sy * r * qa t)) ^ 2) with ((r * qb t) ^ 2 + (r * qa t) ^ 2) by (destruct Sx as [-> | ->], Sy as [-> | ->]; ring).
  apply B. pose proof (quarter_round t Ht). lra.
Qed.
Print Assumptions C54_round.
Theorem C54_round_across cx cy sx sy r x y : unit sx -> unit sy -> 0 < r ->
  onSeg (Curve (pnt cx (cy - sy * r)) (pnt cx (cy - sy * r + sy * (r * kappa))) (pnt (cx + sx * r) cy) (pnt (cx + sx * r - sx * (r * kappa)) cy)) x y ->
  r <= Prop_C38.dist (cx + sx * r) (cy - sy * r) x y <= 1.0003 * r.
Proof.
  intros Sx Sy Hr (t & Ht & Ex & Ey). rewrite !pnt_X in Ex. rewrite !pnt_Y in Ey.
  assert (E1 : x - (cx + sx * r) = - (sx * r * qa t)) by (rewrite Ex; unfold qa, cubic; ring).
  assert (E2 : y - (cy - sy * r) = sy * r * qb t) by (rewrite Ey; unfold qb, cubic; ring).
  pose proof (dist_bounds r (qa t) (qb t)) as B. rewrite (Rabs_right r) in B by lra. unfold Prop_C38.dist. rewrite E1, E2.
  replace ((- (sx * r * qa t)) ^ 2 + (sy * r * qb t) ^ 2) with ((r * qa t) ^ 2 + (r * qb t) ^ 2) by (destruct Sx as [-> | ->], Sy as [-> | ->]; ring).
  apply B. pose proof (quarter_round t Ht). lra.
Qed.
Print Assumptions C54_round_across.

(** Finding: for a corner whose second leg is slanted, either the curve ends off the leg (a leg to the left), or it arrives with its second
    control point on the far side of its end (a leg to the right), so it does not touch the leg. *)
Theorem C54_slanted_refuted (d : path RNum) cx cy tx ty r : ~ agree 3 cx tx -> ~ agree 3 cy ty -> 0 < r ->
  exists l1 cs cpe ex ey, RoundedCornerTo RTrig d (pnt tx ty) (pnt cx cy) (Fin r) = d ++ [Line (pen d) l1; Curve l1 cs (pnt ex ey) cpe; Line (pnt ex ey) (pnt tx ty)] /\
  (tx < cx -> ~ onSeg (Line (pnt cx cy) (pnt tx ty)) ex ey) /\
  (cx < tx -> ~ agree 3 ex cx -> ~ agree 3 ey cy -> cx < ex /\ ex < X cpe).
Proof.
  intros A1 A2 Hr. unfold RoundedCornerTo. rewrite ctrl_kappa, pen_CurrentPosition.
  set (l1 := PointAtDistance RTrig (pen d) (pnt cx cy) _). set (cs := PointAtDistance RTrig l1 (pnt cx cy) _).
  assert (Ex : exists ex ey, PointAtDistance RTrig (pnt cx cy) (pnt tx ty) (Fin r) = pnt ex ey /\ cx < ex /\ (tx < cx -> ~ onSeg (Line (pnt cx cy) (pnt tx ty)) ex ey)).
  { destruct (Rlt_le_dec tx cx) as [H|H].
    - destruct (C38_leftward_refuted cx cy tx ty r A1 A2 H Hr) as (x & y & E & H1 & H2). exists x, y. auto.
    - assert (cx < tx) by (pose proof (not_agree_neq _ _ _ A1); lra). rewrite PointAtDistance_cases. change 3%Z with (Z.of_nat 3). unfold agree in A1, A2.
      destruct (PrecisionEquals (Fin cx : T RNum) _ _); [tauto|]. destruct (PrecisionEquals (Fin cy : T RNum) _ _); [tauto|]. do 2 eexists. split; [reflexivity|]. split; [|lra].
      assert (0 < cos (atan ((ty - cy) / (tx - cx)))) by (apply cos_gt_0; pose proof (atan_bound ((ty - cy) / (tx - cx))); lra). nra. }
  destruct Ex as (ex & ey & E & Hx & NO). rewrite E. set (cpe := PointAtDistance RTrig (pnt ex ey) (pnt cx cy) _).
  exists l1, cs, cpe, ex, ey. split; [|split; [exact NO|]].
  - unfold LineTo, CurveTo. rewrite !pen_CurrentPosition, !pen_end, <- !app_assoc. reflexivity.
  - intros H B1 B2. split; [exact Hx|]. unfold cpe. rewrite length_fin. fin.
    pose proof kappa_lo. assert (0 < Prop_C38.dist ex ey cx cy).
    { unfold Prop_C38.dist. apply sqrt_lt_R0. pose proof (pow2_ge_0 (cy - ey)). assert (0 < (ex - cx) ^ 2) by (apply pow_lt; lra). lra. }
    destruct (C38_leftward_refuted ex ey cx cy (Prop_C38.dist ex ey cx cy * kappa) B1 B2 Hx) as (x & y & E' & K1 & _); [apply Rmult_lt_0_compat; lra|]. rewrite E', pnt_X. exact K1.
Qed.
Print Assumptions C54_slanted_refuted.

(** a corner to the right and down, and a slanted one *)
Example C54_example : unit 1 /\ unit (-1) /\ / 1000 < 2 /\ 2 <= 5 /\ 2 <= 3 /\ pen [Move (pnt 0 0) (pnt 0 0)] = pnt (5 - 1 * 5) 0 /\ ~ agree 3 0 3 /\ ~ agree 3 0 4.
Proof.
  split; [left; auto|]. split; [right; auto|]. do 3 (split; [lra|]). split; [cbn; unfold pnt; do 2 f_equal; ring|]. split; apply no_agree; rewrite Rabs_left; lra.
Qed.
