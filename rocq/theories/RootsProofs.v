(** The roots of cubic polynomials as package bezier computes them, in exact arithmetic (C56, C57). *)
From Coq Require Import List ZArith Bool Reals Lra Lia.
From Verif Require Import Num RealNum RealTrig PathModel SegOps Bezier PathSpec GeomSpec BezierProofs RotateProofs.
Import ListNotations.
Local Open Scope R_scope.

(** The exact-arithmetic instance of [BMath] (package math: Acos, Pow, Round).  Simplified: the power of a negative number is left undefined
    (Crt takes powers of non-negative numbers only), and so are the powers of and to infinity. *)
Definition er_acos (a : ER) : ER := match a with Fin x => if Rleb (-1) x && Rleb x 1 then Fin (acos x) else NaN | _ => NaN end.
Definition er_pow (a b : ER) : ER :=
  match a, b with
  | Fin x, Fin y => if Reqb y 0 then Fin 1 else if Rltb 0 x then Fin (Rpower x y) else if Reqb x 0 then (if Rltb 0 y then Fin 0 else Inf false) else NaN
  | _, _ => NaN
  end.
Definition er_round (a : ER) : ER :=
  match a with Fin x => Fin ((if Rltb x 0 then -1 else 1) * IZR (Int_part (Rabs x + 1 / 2))) | _ => a end.
Definition RBMath : BMath RNum := @mkBMath RNum er_acos er_pow er_round.

(** ** cube roots *)
Lemma Rpower_third x : 0 < x -> Rpower x (1 / 3) * Rpower x (1 / 3) * Rpower x (1 / 3) = x.
Proof. intros H. rewrite <- !Rpower_plus. replace (1 / 3 + 1 / 3 + 1 / 3) with 1 by field. apply Rpower_1. exact H. Qed.
Lemma Crt_spec x : exists r, Crt RBMath (Fin x : T RNum) = Fin r /\ r * r * r = x.
Proof.
  unfold Crt, three. fin. rewrite fdiv by lra. unfold RBMath. cbn [npow].
  assert (P : forall y, 0 <= y -> exists r, er_pow (Fin y) (Fin (1 / 3)) = Fin r /\ r * r * r = y).
  { intros y Hy. cbn. destruct (Reqb_spec (1 / 3) 0); [lra|]. destruct (Rltb_spec 0 y).
    - exists (Rpower y (1 / 3)). split; [reflexivity|apply Rpower_third; auto].
    - destruct (Reqb_spec y 0); [|lra]. destruct (Rltb_spec 0 (1 / 3)); [|lra]. exists 0. split; [reflexivity|subst; ring]. }
  destruct (Rltb_spec x 0).
  - fin. destruct (P (- x)) as (w & E & Hw); [lra|]. rewrite E. exists (- w). split; [reflexivity|]. lra.
  - apply P. lra.
Qed.
Lemma cube_inj x y : x * x * x = y * y * y -> x = y.
Proof. intros H. assert (E : (x - y) * (x * x + x * y + y * y) = 0) by (ring_simplify; lra). apply Rmult_integral in E. destruct E as [E|E]; [lra|]. 
  assert (A : 0 <= (2 * x + y) * (2 * x + y)) by apply Rle_0_sqr. assert (B : 0 <= y * y) by apply Rle_0_sqr.
  assert (Y0 : y * y = 0) by nra. assert (X0 : x * x + x * y = 0) by lra. apply Rmult_integral in Y0. assert (Y1 : y = 0) by tauto. subst y. assert (x * x = 0) by lra. apply Rmult_integral in H0. tauto.
Qed.

(** ** the depressed cubic x^3 + p x + q *)
Section Depressed.
Variables p q : R.
Let f x := x * x * x + p * x + q.
Lemma third_root x0 x1 x2 : f x0 = 0 -> f x1 = 0 -> f x2 = 0 -> x0 <> x1 -> x0 <> x2 -> x1 <> x2 -> forall x, f x = 0 -> x = x0 \/ x = x1 \/ x = x2.
Proof.
  unfold f. intros H0 H1 H2 N1 N2 N3 x H.
  assert (F : forall y, y * y * y + p * y + q = 0 -> y = x0 \/ y * y + y * x0 + x0 * x0 + p = 0).
  { intros y Hy. assert (E : (y - x0) * (y * y + y * x0 + x0 * x0 + p) = 0) by (ring_simplify; lra). apply Rmult_integral in E. destruct E; [left; lra|right; lra]. }
  destruct (F x H) as [|G]; [auto|]. destruct (F x1 H1) as [|G1]; [congruence|]. destruct (F x2 H2) as [|G2]; [congruence|].
  assert (E2 : (x2 - x1) * (x2 + x1 + x0) = 0) by (ring_simplify; lra). apply Rmult_integral in E2. destruct E2 as [E2|E2]; [exfalso; lra|].
  assert (E : (x - x1) * (x + x1 + x0) = 0) by (ring_simplify; lra). apply Rmult_integral in E. destruct E as [E|E]; [right; left; lra|right; right; lra].
Qed.
Lemma one_root u v sd : u * u * u = - (q / 2) + sd -> v * v * v = q / 2 + sd -> sd * sd = q / 2 * (q / 2) + p / 3 * (p / 3) * (p / 3) -> 0 < sd ->
  forall x, f x = 0 <-> x = u - v.
Proof.
  intros Hu Hv Hs Ps. assert (UV : u * v = p / 3).
  { apply cube_inj. replace (u * v * (u * v) * (u * v)) with ((u * u * u) * (v * v * v)) by ring. rewrite Hu, Hv. lra. }
  assert (G : forall x, f x = (x - (u - v)) * (x * x + (u - v) * x + (u * u + v * v + u * v))).
  { intros x. unfold f. assert (Ep : p = 3 * (u * v)) by lra. assert (Eq : q = v * v * v - u * u * u) by lra. rewrite Ep, Eq. ring. }
  intros x. rewrite G. split.
  - intros H. apply Rmult_integral in H. destruct H as [H|H]; [lra|]. exfalso.
    assert (S : u + v <> 0). { intros E. assert (u = - v) by lra. subst u. assert (- v * - v * - v = - (v * v * v)) by ring. lra. }
    assert (0 < (u + v) * (u + v)) by (apply Rlt_0_sqr in S; exact S). assert (0 <= (2 * x + (u - v)) * (2 * x + (u - v))) by (apply Rle_0_sqr). nra.
  - intros ->. ring.
Qed.
Lemma two_roots u : u * u * u = - (q / 2) -> q / 2 * (q / 2) + p / 3 * (p / 3) * (p / 3) = 0 -> forall x, f x = 0 <-> x = 2 * u \/ x = - u.
Proof.
  intros Hu Hd. assert (U2 : u * u = - (p / 3)).
  { apply cube_inj. replace (u * u * (u * u) * (u * u)) with ((u * u * u) * (u * u * u)) by ring. rewrite Hu. lra. }
  assert (G : forall x, f x = (x - 2 * u) * ((x + u) * (x + u))).
  { intros x. unfold f. assert (Ep : p = - (3 * (u * u))) by lra. assert (Eq : q = - (2 * (u * u * u))) by lra. rewrite Ep, Eq. ring. }
  intros x. rewrite G. split.
  - intros H. apply Rmult_integral in H. destruct H as [H|H]; [left; lra|]. apply Rmult_integral in H. right. lra.
  - intros [-> | ->]; ring.
Qed.
Lemma cos_3 t : cos (3 * t) = 4 * (cos t * cos t * cos t) - 3 * cos t.
Proof.
  replace (3 * t) with (2 * t + t) by ring. rewrite cos_plus, cos_2a, sin_2a. pose proof (sin2_cos2 t) as S. unfold Rsqr in S.
  replace (sin t * cos t * sin t) with (sin t * sin t * cos t) by ring. replace (2 * sin t * cos t * sin t) with (2 * (sin t * sin t) * cos t) by ring.
  replace (sin t * sin t) with (1 - cos t * cos t) by lra. ring.
Qed.
Lemma three_roots : q / 2 * (q / 2) + p / 3 * (p / 3) * (p / 3) < 0 ->
  let m := - p / 3 in let r := sqrt (m * m * m) in let t := - q / (2 * r) in let phi := acos t in
  0 <= m * m * m /\ r <> 0 /\ -1 < t < 1 /\
  forall s, s * s * s = r -> forall x, f x = 0 <-> x = 2 * s * cos (phi / 3) \/ x = 2 * s * cos ((phi + 2 * PI) / 3) \/ x = 2 * s * cos ((phi + 2 * (2 * PI)) / 3).
Proof.
  intros Hd m r t phi. assert (M : q / 2 * (q / 2) < m * m * m) by (unfold m; lra). assert (Q0 : 0 <= q / 2 * (q / 2)) by apply Rle_0_sqr.
  assert (Mp : 0 < m). { destruct (Rle_or_lt m 0); [|assumption]. exfalso. assert (0 <= m * m) by apply Rle_0_sqr. nra. }
  assert (R2 : r * r = m * m * m) by (apply sqrt_sqrt; lra). assert (Rp : 0 < r) by (apply sqrt_lt_R0; lra).
  assert (T : -1 < t < 1).
  { assert (B : - r < q / 2 < r) by (split; nra). unfold t. split; apply (Rmult_lt_reg_r (2 * r)); try lra; unfold Rdiv; rewrite Rmult_assoc, Rinv_l; lra. }
  split; [lra|]. split; [lra|]. split; [exact T|]. intros s Hs.
  assert (S2 : s * s = m). { apply cube_inj. replace (s * s * (s * s) * (s * s)) with ((s * s * s) * (s * s * s)) by ring. rewrite Hs. exact R2. }
  assert (Sp : 0 < s). { destruct (Rle_or_lt s 0); [|assumption]. exfalso. assert (0 <= s * s) by apply Rle_0_sqr. nra. }
  assert (PP : 0 < PI) by apply PI_RGT_0.
  assert (Ph : 0 < phi < PI).
  { unfold phi. pose proof (acos_bound t) as Bd. pose proof (cos_acos t ltac:(lra)) as C. split.
    - destruct (Req_dec (acos t) 0) as [E|E]; [rewrite E, cos_0 in C; lra|lra].
    - destruct (Req_dec (acos t) PI) as [E|E]; [rewrite E, cos_PI in C; lra|lra]. }
  assert (Cp : cos phi = t) by (apply cos_acos; lra).
  assert (Root : forall h, cos (3 * h) = t -> f (2 * s * cos h) = 0).
  { intros h Hh. unfold f. rewrite cos_3 in Hh. assert (Ep : p = - (3 * (s * s))) by (unfold m in S2; lra).
    assert (Eq : q = - (2 * (s * s * s) * t)) by (unfold t; rewrite Hs; field; lra). rewrite Ep, Eq, <- Hh. ring. }
  assert (H0 : f (2 * s * cos (phi / 3)) = 0) by (apply Root; rewrite <- Cp; f_equal; field).
  assert (H1 : f (2 * s * cos ((phi + 2 * PI) / 3)) = 0) by (apply Root; rewrite <- Cp; replace (3 * ((phi + 2 * PI) / 3)) with (phi + 2 * 1 * PI) by field; apply (cos_period phi 1)).
  assert (H2 : f (2 * s * cos ((phi + 2 * (2 * PI)) / 3)) = 0) by (apply Root; rewrite <- Cp; replace (3 * ((phi + 2 * (2 * PI)) / 3)) with (phi + 2 * (1 + 1) * PI) by field; apply (cos_period phi 2)).
  assert (E2 : cos ((phi + 2 * (2 * PI)) / 3) = cos ((2 * PI - phi) / 3)).
  { replace ((2 * PI - phi) / 3) with (- ((phi + 2 * (2 * PI)) / 3) + 2 * 1 * PI) by field. rewrite (cos_period _ 1). symmetry. apply cos_neg. }
  assert (L1 : cos ((phi + 2 * PI) / 3) < cos ((2 * PI - phi) / 3)) by (apply cos_decreasing_1; lra).
  assert (L2 : cos ((2 * PI - phi) / 3) < cos (phi / 3)) by (apply cos_decreasing_1; lra).
  intros x. split; [|intros [->|[->| ->]]; auto]. intros Hx. apply third_root; auto; rewrite ?E2; intros X; apply Rmult_eq_reg_l in X; lra.
Qed.
End Depressed.

(** ** cubicRoots and polyRoots *)
Lemma keep01_in (t : R) l : In (Fin t) (keep01 (N := RNum) l) <-> 0 <= t <= 1 /\ In (Fin t) l.
Proof.
  unfold keep01. rewrite filter_In. fin. destruct (Rleb_spec 0 t), (Rleb_spec t 1); cbn; intuition (lra || discriminate || auto).
Qed.
Lemma in_fins t l : In (Fin t) (map Fin l) <-> In t l.
Proof. rewrite in_map_iff. split; [intros (x & E & H); injection E as <-; auto|intros H; exists t; auto]. Qed.

Definition poly (d a b c t : R) : R := d * (t * t * t) + a * (t * t) + b * t + c.

Lemma cubicRoots_spec (a b c t : R) :
  In (Fin t) (cubicRoots (N := RNum) RTrig RBMath (Fin a) (Fin b) (Fin c)) <-> 0 <= t <= 1 /\ poly 1 a b c t = 0.
Proof.
  set (p := (3 * b - a * a) / 3). set (q := (2 * a * a * a - 9 * a * b + 27 * c) / 27).
  assert (Shift : forall x, poly 1 a b c (x - a / 3) = x * x * x + p * x + q) by (intros x; unfold poly, p, q; field).
  assert (Back : poly 1 a b c t = 0 <-> (t + a / 3) * (t + a / 3) * (t + a / 3) + p * (t + a / 3) + q = 0).
  { rewrite <- Shift. replace (t + a / 3 - a / 3) with t by ring. reflexivity. }
  rewrite Back. unfold cubicRoots, two, three. fin. rewrite !fdiv by lra. fin. change ((3 * b - a * a) / 3) with p. change ((2 * a * a * a - 9 * a * b + 27 * c) / 27) with q.
  rewrite !fdiv by lra. fin. set (D := q / 2 * (q / 2) + p / 3 * (p / 3) * (p / 3)).
  destruct (Rltb_spec D 0) as [HD|HD].
  - destruct (three_roots p q HD) as (M0 & R0 & T & H). rewrite fsqrt by exact M0. fin. rewrite fdiv by lra.
    set (r := sqrt (- p / 3 * (- p / 3) * (- p / 3))) in *. unfold gtb. fin. destruct (Rltb_spec (- q / (2 * r)) (- (1))); [lra|]. destruct (Rltb_spec 1 (- q / (2 * r))); [lra|].
    destruct (Crt_spec r) as (s & -> & Hs). cbn [RBMath nacos er_acos]. destruct (Rleb_spec (-1) (- q / (2 * r))); [|lra]. destruct (Rleb_spec (- q / (2 * r)) 1); [|lra]. cbn [andb].
    rewrite fpi. fin. rewrite !fdiv by lra. rewrite !fcos. fin. rewrite keep01_in. rewrite (H s Hs). cbn [In].
    assert (K : forall x : R, Fin (x - a / 3) = Fin t <-> t + a / 3 = x) by (intros x; split; [intros E; injection E; lra|intros <-; f_equal; ring]).
    rewrite !K. intuition.
  - destruct (Reqb_spec D 0) as [E0|N0].
    + destruct (Crt_spec (q / 2)) as (s & -> & Hs). fin. rewrite keep01_in. rewrite (two_roots p q (- s)); [|rewrite <- Hs; ring|exact E0]. cbn [In].
      assert (K : forall x : R, Fin (x - a / 3) = Fin t <-> t + a / 3 = x) by (intros x; split; [intros E; injection E; lra|intros <-; f_equal; ring]).
      rewrite !K. intuition.
    + assert (HD' : 0 < D) by lra. rewrite fsqrt by lra. fin.
      destruct (Crt_spec (- (q / 2) + sqrt D)) as (u & -> & Hu). destruct (Crt_spec (q / 2 + sqrt D)) as (v & -> & Hv). fin. rewrite keep01_in.
      rewrite (one_root p q u v (sqrt D)); [|exact Hu|exact Hv|apply sqrt_sqrt; unfold D in HD; exact (Rlt_le _ _ HD')|apply sqrt_lt_R0; exact HD']. cbn [In].
      assert (K : forall x : R, Fin (x - a / 3) = Fin t <-> t + a / 3 = x) by (intros x; split; [intros E; injection E; lra|intros <-; f_equal; ring]).
      rewrite !K. intuition.
Qed.

(** a coefficient the code takes for what it is: exactly zero or larger than its tolerance *)
Definition settled (x : R) : Prop := x = 0 \/ / 1000000 < Rabs x.
Lemma Approx_zero x : settled x -> Approx (Fin x : T RNum) zero = true <-> x = 0.
Proof.
  unfold Approx. fin. rewrite fdiv by lra. change (nabs (Fin (x - 0) : T RNum)) with (Fin (Rabs (x - 0)) : T RNum). fin. rewrite Rminus_0_r. intros [->|H].
  - rewrite Rabs_R0. destruct (Rleb_spec 0 (1 / 1000000)); [tauto|lra].
  - destruct (Rleb_spec (Rabs x) (1 / 1000000)); [lra|]. split; [discriminate|]. intros ->. rewrite Rabs_R0 in H. lra.
Qed.

Lemma polyRoots_spec (d a b c t : R) : settled d -> (d = 0 -> settled a) -> (d = 0 -> a = 0 -> settled b) -> (d <> 0 \/ a <> 0 \/ b <> 0 \/ c <> 0) ->
  In (Fin t) (polyRoots (N := RNum) RTrig RBMath (Fin d) (Fin a) (Fin b) (Fin c)) <-> 0 <= t <= 1 /\ poly d a b c t = 0.
Proof.
  intros Sd Sa Sb NZ. unfold polyRoots. pose proof (Approx_zero d Sd) as Ad. destruct (Approx (Fin d : T RNum) zero).
  - assert (D0 : d = 0) by (apply Ad; reflexivity). pose proof (Approx_zero a (Sa D0)) as Aa. destruct (Approx (Fin a : T RNum) zero).
    + assert (A0 : a = 0) by (apply Aa; reflexivity). pose proof (Approx_zero b (Sb D0 A0)) as Ab. unfold poly. subst d a. destruct (Approx (Fin b : T RNum) zero).
      * assert (b = 0) by (apply Ab; reflexivity). subst b. cbn. split; [contradiction|]. intros [_ E]. destruct NZ as [?|[?|[?|?]]]; lra.
      * assert (B0 : b <> 0) by (intros X; apply Ab in X; discriminate). fin. rewrite fdiv by auto. rewrite keep01_in. cbn [In].
        assert (K : Fin (- c / b) = Fin t <-> 0 * (t * t * t) + 0 * (t * t) + b * t + c = 0).
        { split; [intros E; injection E as <-; field; auto|]. intros E. f_equal. apply (Rmult_eq_reg_l b); [|auto]. replace (b * (- c / b)) with (- c) by (field; auto). lra. }
        rewrite K. intuition.
    + assert (A0 : a <> 0) by (intros X; apply Aa in X; discriminate). unfold two. fin. subst d. unfold poly.
      set (Q := b * b - 4 * a * c). assert (Sq : forall t, 4 * a * (0 * (t * t * t) + a * (t * t) + b * t + c) = (2 * a * t + b) * (2 * a * t + b) - Q) by (intros; unfold Q; ring).
      assert (Z : forall t, 0 * (t * t * t) + a * (t * t) + b * t + c = 0 <-> (2 * a * t + b) * (2 * a * t + b) = Q).
      { intros x. split; [intros E; specialize (Sq x); rewrite E in Sq; lra|]. intros E. apply (Rmult_eq_reg_l (4 * a)); [|lra]. rewrite Sq. lra. }
      rewrite Z. destruct (Rle_or_lt 0 Q) as [HQ|HQ].
      * rewrite fsqrt by exact HQ. fin. rewrite !fdiv by lra. rewrite keep01_in. cbn [In].
        assert (K : forall x, Fin ((x - b) / (2 * a)) = Fin t <-> 2 * a * t + b = x) by (intros x; split; [intros E; injection E as <-; field; auto|intros <-; f_equal; field; auto]).
        replace ((- b - sqrt Q) / (2 * a)) with ((- sqrt Q - b) / (2 * a)) by (field; auto). rewrite !K.
        assert (W : forall w, w * w = Q <-> w = sqrt Q \/ w = - sqrt Q).
        { intros w. pose proof (sqrt_sqrt Q HQ) as E. split; [|intros [->| ->]; lra]. intros Ew. assert (F : (w - sqrt Q) * (w + sqrt Q) = 0) by (ring_simplify; lra). apply Rmult_integral in F. destruct F; [left|right]; lra. }
        rewrite W. intuition.
      * assert (EN : @nsqrt RNum (Fin Q) = NaN) by (cbn; destruct (Rltb_spec Q 0); [reflexivity|lra]). rewrite EN.
        split; [intros H; cbn in H; destruct (Reqb (2 * a) 0) in H; cbn in H; contradiction|]. intros [_ E]. assert (0 <= (2 * a * t + b) * (2 * a * t + b)) by apply Rle_0_sqr. lra.
  - assert (D0 : d <> 0) by (intros X; apply Ad in X; discriminate). rewrite !fdiv by auto. rewrite cubicRoots_spec.
    assert (E : poly d a b c t = d * poly 1 (a / d) (b / d) (c / d) t) by (unfold poly; field; auto). rewrite E.
    split; intros [H1 H2]; split; auto; [rewrite H2; ring|]. apply Rmult_integral in H2. destruct H2; [contradiction|auto].
Qed.

(** ** the curve against the line *)
(** how far [p] lies off the line from [a] to [b], to its left *)
Definition off (a b p : Pt RNum) : R :=
  ((Y p - Y a) * (X b - X a) - (X p - X a) * (Y b - Y a)) / sqrt ((X b - X a) * (X b - X a) + (Y b - Y a) * (Y b - Y a)).

Lemma Align_off l a b : finitePt a -> finitePt b -> Forall finitePt l -> X a <> X b \/ Y a <> Y b ->
  map py (Align (N := RNum) RTrig l a b) = map (fun p => Fin (off a b p)) l.
Proof.
  intros Fa Fb Fl N. unfold Align. rewrite map_map. induction Fl as [|v r Fv Fr IH]; [reflexivity|]. cbn [map]. rewrite IH. f_equal. cbn [py].
  rewrite (px_fin _ Fa), (py_fin _ Fa), (px_fin _ Fb), (py_fin _ Fb), (px_fin _ Fv), (py_fin _ Fv). fin. change (natan2 RTrig (Fin (Y b - Y a)) (Fin (X b - X a))) with (Fin (Ratan2 (Y b - Y a) (X b - X a)) : T RNum).
  fin. rewrite fsin, fcos. fin. f_equal. rewrite sin_neg, cos_neg.
  destruct (Ratan2_spec (X b - X a) (Y b - Y a)) as [E1 E2]; [destruct N; [left|right]; lra|]. unfold off.
  set (L := sqrt ((X b - X a) * (X b - X a) + (Y b - Y a) * (Y b - Y a))) in *.
  assert (L0 : L <> 0). { intros E. rewrite E in E1, E2. destruct N; lra. }
  set (th := Ratan2 (Y b - Y a) (X b - X a)) in *. clearbody L th. rewrite E1, E2. field. exact L0.
Qed.
