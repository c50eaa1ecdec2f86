(** C59: the outline of a gear. *)
From Coq Require Import List ZArith Bool Reals Lra Lia Machin.
From Verif Require Import Num RealNum RealTrig PathModel DrawModel SegOps Bezier PathSpec GeomSpec PathProofs BezierProofs RootsProofs Components.
Import ListNotations.
Local Open Scope R_scope.

(** the point at distance [r] from the centre, [a] away from straight ahead *)
Definition polar (r a : R) : Pt RNum := pnt (r * sin a) (r * cos a).
(** the closed outline through a list of points *)
Fixpoint lines (a : Pt RNum) (l : list (Pt RNum)) : path RNum := match l with [] => [] | b :: r => Line a b :: lines b r end.
Definition outline (l : list (Pt RNum)) : path RNum := match l with [] => [] | v :: r => Move (pnt 0 0) v :: lines v (r ++ [v]) end.
Definition gear (n : Z) (w phi cl bl : R) : gearSpec RNum := @mkGear RNum n (Fin w) (Fin phi) (Fin cl) (Fin bl).
Definition pitch (n : Z) (w : R) : R := w * IZR n / (2 * PI).

(** the end of a string unwound by the angle [th] from a circle of radius [b], which it left at the angle [s] *)
Definition involute (b s th : R) : Pt RNum := pnt (b * sin (s + th) - b * th * cos (s + th)) (b * cos (s + th) + b * th * sin (s + th)).
(** one tooth: sixteen corners (radius, angle), the two flanks mirror images of each other, from the valley up to the tip and down again *)
Record is_tooth (n : Z) (pitch base inner outer thick : R) (t : list (R * R)) : Prop := {
  t_length : length t = 16%nat;
  t_radii : Forall (fun ra => inner <= fst ra <= outer) t;
  t_valley : nth 0 t (0, 0) = (inner, - (PI / IZR n)) /\ nth 15 t (0, 0) = (inner, 3.142 / IZR n) /\ fst (nth 1 t (0, 0)) = inner;
  t_mirror : forall j, (1 <= j <= 14)%nat -> nth (15 - j) t (0, 0) = (fst (nth j t (0, 0)), - snd (nth j t (0, 0)));
  t_even : forall i, (0 <= i <= 5)%nat -> fst (nth (2 + i) t (0, 0)) = Rmax base inner + INR i / 5 * (outer - Rmax base inner);
  t_flank : exists s,
    (exists th, 0 <= th /\ involute base s th = polar pitch (- (thick / 2) / pitch)) /\
    (forall j, (2 <= j <= 7)%nat -> exists th, 0 <= th /\ polar (fst (nth j t (0, 0))) (snd (nth j t (0, 0))) = involute base s th) /\
    snd (nth 1 t (0, 0)) = (if Rlt_dec inner base then s else - (PI / IZR n)) }.

Lemma PolarToCartesian_polar r a : PolarToCartesian RTrig (Fin r : T RNum) (Fin a) = polar r a.
Proof. unfold PolarToCartesian. cbn. apply NewPoint_fin. Qed.
Lemma iang_fin b d : 0 < b <= d -> exists a, iang RBMath (Fin b : T RNum) (Fin d) = Fin a.
Proof.
  intros H. unfold iang. rewrite !fdiv by lra. fin. assert (1 <= d / b) by (apply (Rmult_le_reg_r b); [lra|]; unfold Rdiv; rewrite Rmult_assoc, Rinv_l; lra).
  rewrite fsqrt by nra. cbn [RBMath nacos er_acos]. assert (0 < b / d <= 1).
  { split; [apply Rdiv_lt_0_compat; lra|]. apply (Rmult_le_reg_r d); [lra|]. unfold Rdiv. rewrite Rmult_assoc, Rinv_l; lra. }
  destruct (Rleb_spec (-1) (b / d)); [|lra]. destruct (Rleb_spec (b / d) 1); [|lra]. cbn [andb]. fin. eauto.
Qed.
Definition flank (b d : R) : R := match iang RBMath (Fin b : T RNum) (Fin d) with Fin a => a | _ => 0 end.
Lemma iang_flank b d : 0 < b <= d -> iang RBMath (Fin b : T RNum) (Fin d) = Fin (flank b d).
Proof. intros H. unfold flank. destruct (iang_fin b d H) as (a & ->). reflexivity. Qed.
Lemma nmax_fin a b : nmax (Fin a : T RNum) (Fin b) = Fin (Rmax a b).
Proof. unfold nmax. fin. destruct (Rltb_spec a b); unfold Rmax; destruct (Rle_dec a b); try reflexivity; f_equal; lra. Qed.

Section Gear.
Variables (n : Z) (w phi cl bl : R).
Hypotheses (Hn : (2 <= n)%Z) (Hw : 0 < w) (Hphi : -90 < phi < 90) (Hcl : 0 <= cl <= w / PI).
Let p := pitch n w.
Let c := p + w / PI - cl.
Let r := p - w / PI.
Let b := p * cos (PI / 180 * phi).
Let k := - flank b p - (w / 2 - bl / 2) / 2 / p.

Lemma n_pos : 2 <= IZR n. Proof. apply IZR_le in Hn. lra. Qed.
Lemma p_pos : 0 < p. Proof. pose proof n_pos. pose proof PI_RGT_0. unfold p, pitch. apply Rdiv_lt_0_compat; nra. Qed.
Lemma b_range : 0 < b <= p.
Proof.
  pose proof p_pos. pose proof PI_RGT_0. assert (0 < cos (PI / 180 * phi)) by (apply cos_gt_0; nra). pose proof (COS_bound (PI / 180 * phi)). unfold b. nra.
Qed.
Lemma r_range : 0 <= r <= p.
Proof.
  pose proof n_pos. pose proof PI_RGT_0. assert (0 < w / PI) by (apply Rdiv_lt_0_compat; lra). unfold r, p, pitch. replace (w * IZR n / (2 * PI)) with (w / PI * (IZR n / 2)) by (field; lra). split; nra.
Qed.
Lemma c_range : p <= c. Proof. unfold c. lra. Qed.
Lemma gearPitch_fin : gearPitch RTrig (gear n w phi cl bl) = Fin p.
Proof. pose proof PI_RGT_0. unfold gearPitch, gear, two. cbn [ge_width ge_teeth]. fin. cbn [npi RTrig]. rewrite fdiv by lra. rewrite fdiv by lra. f_equal. unfold p, pitch. field. lra. Qed.
Lemma gearOuter_fin : gearOuter RTrig (gear n w phi cl bl) = Fin c.
Proof. pose proof PI_RGT_0. unfold gearOuter. rewrite gearPitch_fin. cbn [ge_width ge_clearance gear npi RTrig]. rewrite fdiv by lra. fin. reflexivity. Qed.
Lemma gearRoot_fin : gearRoot RTrig (gear n w phi cl bl) = Fin r.
Proof. unfold gearRoot. rewrite gearOuter_fin, gearPitch_fin. cbn [ge_clearance gear]. fin. f_equal. unfold c, r. ring. Qed.
Lemma gearBase_fin : gearBase RTrig (gear n w phi cl bl) = Fin b.
Proof. unfold gearBase, DegreesToRadians. rewrite gearPitch_fin. cbn [npi RTrig ge_pressure gear]. fin. rewrite fdiv by lra. fin. cbn [ncos RTrig er_cos]. fin. reflexivity. Qed.

Let m := Rmax b r.
Let rad (f : R) := (1 - f) * m + f * c.
Lemma m_range : b <= m <= p /\ r <= m.
Proof. pose proof b_range. pose proof r_range. unfold m, Rmax. destruct (Rle_dec b r); lra. Qed.
Lemma rad_range f : 0 <= f <= 1 -> b <= rad f /\ r <= rad f <= c.
Proof. pose proof m_range. pose proof c_range. unfold rad. intros. split; nra. Qed.
Lemma q7_polar f s : 0 <= f <= 1 -> q7 RTrig RBMath (Fin f : T RNum) (Fin r) (Fin b) (Fin c) (Fin k) (Fin s) = polar (rad f) (s * (flank b (rad f) + k)).
Proof.
  intros Hf. unfold q7, q6. rewrite nmax_fin. fin. fold m. fold (rad f). pose proof (rad_range f Hf). pose proof b_range. rewrite iang_flank by lra. fin. apply PolarToCartesian_polar.
Qed.
Let a1 := if Rltb r b then k else - PI / IZR n.
Let fs := map (fun i => IZR i / 5) [0; 1; 2; 3; 4; 5]%Z.
Definition toothOf : list (R * R) :=
  [(r, - PI / IZR n); (r, a1)] ++ map (fun f => (rad f, flank b (rad f) + k)) fs ++ map (fun f => (rad f, - (flank b (rad f) + k))) (rev fs) ++ [(r, - a1); (r, 3142 / 1000 / IZR n)].

Lemma gearTooth_polar : gearTooth RTrig RBMath (gear n w phi cl bl) = map (fun ra => polar (fst ra) (snd ra)) toothOf.
Proof.
  pose proof n_pos. pose proof p_pos. pose proof b_range. unfold gearTooth. rewrite gearPitch_fin, gearOuter_fin, gearRoot_fin, gearBase_fin. cbn [ge_teeth ge_width ge_backlash gear npi RTrig]. unfold two. fin. rewrite !fdiv by lra. fin.
  rewrite iang_flank by lra. fin. repeat rewrite fdiv by lra. fin. fold k.
  assert (E1 : (if Rltb r b then Fin k else Fin (- PI / IZR n)) = Fin a1) by (unfold a1; destruct (Rltb r b); reflexivity).
  assert (E2 : (if Rltb r b then Fin (- k) else Fin (PI / IZR n)) = Fin (- a1)) by (unfold a1; destruct (Rltb r b); [reflexivity|f_equal; field; lra]).
  cbn [T RNum] in *. rewrite E1, E2.
  assert (U : map (fun i : Z => @div RNum (@ofZ RNum i) (Fin 5)) [0; 1; 2; 3; 4; 5]%Z = map Fin fs).
  { unfold fs. rewrite map_map. apply map_ext. intros i. fin. apply fdiv. lra. }
  match goal with |- context [map ?g [0%Z; 1%Z; 2%Z; 3%Z; 4%Z; 5%Z]] => change (map g [0%Z; 1%Z; 2%Z; 3%Z; 4%Z; 5%Z]) with (map (fun i : Z => @div RNum (@ofZ RNum i) (Fin 5)) [0; 1; 2; 3; 4; 5]%Z) end. rewrite U. rewrite <- map_rev. unfold toothOf. rewrite !map_app, !map_map. unfold nearPi. fin. rewrite !fdiv by lra. fin. cbn [map fst snd]. rewrite !PolarToCartesian_polar.
  assert (B : forall f, In f fs -> 0 <= f <= 1) by (intros f Hf; cbn in Hf; repeat destruct Hf as [<-|Hf]; try lra; destruct Hf).
  f_equal. f_equal; [|f_equal].
  - apply map_ext_in. intros f Hf. rewrite q7_polar by (apply B; exact Hf). cbn. f_equal. ring.
  - apply map_ext_in. intros f Hf. rewrite q7_polar by (apply B; rewrite in_rev; exact Hf). cbn. f_equal. ring.
Qed.
Lemma turned_polar i ra : turned RTrig (div (mul (mul (ofZ (- i) : T RNum) two) (npi RTrig)) (ofZ n)) (polar (fst ra) (snd ra)) = polar (fst ra) (snd ra + IZR i * (2 * PI / IZR n)).
Proof.
  pose proof n_pos. unfold two. fin. cbn [npi RTrig]. fin. rewrite fdiv by lra. unfold turned, polar, pnt. cbn [px py ncos nsin RTrig er_cos er_sin]. fin. rewrite NewPoint_fin. unfold pnt. rewrite opp_IZR.
  replace (- IZR i * 2 * PI / IZR n) with (- (IZR i * (2 * PI / IZR n))) by (field; lra). rewrite cos_neg, sin_neg, sin_plus, cos_plus. f_equal; f_equal; ring.
Qed.
End Gear.

Lemma fold_lines l : forall d a, CurrentPosition d = a -> fold_left (LineTo (N := RNum)) l d = (d ++ lines a l)%list.
Proof.
  induction l as [|q l IH]; intros d a E; cbn [fold_left lines]; [symmetry; apply app_nil_r|]. rewrite (IH (LineTo d q) q).
  - unfold LineTo. rewrite E, <- app_assoc. reflexivity.
  - unfold LineTo. rewrite CurrentPosition_snoc. reflexivity.
Qed.

Lemma flank_involute b d s : 0 < b <= d -> exists th, 0 <= th /\ polar d (s + flank b d) = involute b s th.
Proof.
  intros H. exists (sqrt (d / b * (d / b) - 1)). split; [apply sqrt_pos|]. unfold flank, iang. rewrite !fdiv by lra. fin.
  assert (1 <= d / b) by (apply (Rmult_le_reg_r b); [lra|]; unfold Rdiv; rewrite Rmult_assoc, Rinv_l; lra).
  rewrite fsqrt by nra. cbn [RBMath nacos er_acos]. assert (B : 0 < b / d <= 1).
  { split; [apply Rdiv_lt_0_compat; lra|]. apply (Rmult_le_reg_r d); [lra|]. unfold Rdiv. rewrite Rmult_assoc, Rinv_l; lra. }
  destruct (Rleb_spec (-1) (b / d)); [|lra]. destruct (Rleb_spec (b / d) 1); [|lra]. cbn [andb]. fin.
  set (th := sqrt (d / b * (d / b) - 1)). replace (s + (th - acos (b / d))) with (s + th - acos (b / d)) by ring. unfold polar, involute. rewrite sin_minus, cos_minus, cos_acos, sin_acos by lra.
  replace (sqrt (1 - (b / d)²)) with (th * (b / d)).
  2:{ unfold th. rewrite <- (sqrt_Rsqr (b / d)) at 1 by lra. rewrite <- sqrt_mult_alt by nra. f_equal. unfold Rsqr. field. lra. }
  unfold pnt. f_equal; f_equal; field; lra.
Qed.

(** every radius and angle of the gear, for at least two teeth of positive width, a pressure angle below a right angle and a clearance of at most the
    height of a tooth above the pitch circle: the two radii handed out as variables are those of the valleys and of the tips; the path is one closed outline,
    the same tooth n times, each turned by the n-th part of a full turn *)
Theorem C59_gear n w phi cl bl : (2 <= n)%Z -> 0 < w -> -90 < phi < 90 -> 0 <= cl <= w / PI ->
  exists inner outer t,
    gearRoot RTrig (gear n w phi cl bl) = Fin inner /\ gearOuter RTrig (gear n w phi cl bl) = Fin outer /\
    inner = pitch n w - w / PI /\ outer = pitch n w + w / PI - cl /\
    is_tooth n (pitch n w) (pitch n w * cos (PI / 180 * phi)) inner outer ((w - bl) / 2) t /\
    GearPath RTrig RBMath (gear n w phi cl bl) =
      outline (flat_map (fun i => map (fun ra => polar (fst ra) (snd ra + INR i * (2 * PI / IZR n))) t) (seq 0 (Z.to_nat n))).
Proof.
  intros Hn Hw Hphi Hcl. exists (pitch n w - w / PI), (pitch n w + w / PI - cl), (toothOf n w phi cl bl).
  split; [apply gearRoot_fin|]. split; [apply gearOuter_fin|]. split; [reflexivity|]. split; [reflexivity|].
  pose proof (n_pos n Hn) as N2. pose proof (b_range n w phi Hn Hw Hphi) as Bp. pose proof (r_range n w Hn Hw) as Rp. pose proof (p_pos n w Hn Hw) as Pp. pose proof (c_range n w cl Hcl) as Cp.
  set (p := pitch n w) in *. set (r := p - w / PI) in *. set (c := p + w / PI - cl) in *. set (b := p * cos (PI / 180 * phi)) in *.
  assert (RR : forall f, 0 <= f <= 1 -> b <= (1 - f) * Rmax b r + f * c /\ r <= (1 - f) * Rmax b r + f * c <= c) by (intros f Hf; apply (rad_range n w phi cl Hn Hw Hphi Hcl f Hf)).
  split.
  - unfold toothOf. fold p. fold r. fold c. fold b. set (k := - flank b p - (w / 2 - bl / 2) / 2 / p). set (rad := fun f => (1 - f) * Rmax b r + f * c) in *. cbn [map rev app].
    constructor.
    + reflexivity.
    + assert (Q : forall f (a : R), 0 <= f <= 1 -> r <= fst (rad f, a) <= c) by (intros f a Hf; cbn; apply RR; exact Hf).
      repeat (apply Forall_cons; [first [apply Q; lra | cbn [fst]; lra]|]). apply Forall_nil.
    + cbn [nth fst]. split; [f_equal; field; lra|]. split; [f_equal; field; lra|reflexivity].
    + intros j Hj. assert (J : In j (seq 1 14)) by (apply in_seq; lia). cbn [seq In] in J.
      repeat destruct J as [<-|J]; try (cbn [nth fst snd Nat.sub]; try rewrite Ropp_involutive; reflexivity). destruct J.
    + intros j Hj. assert (J : In j (seq 0 6)) by (apply in_seq; lia). cbn [seq In] in J.
      repeat destruct J as [<-|J]; try (cbn [nth fst snd Nat.add]; unfold rad; cbn [INR]; field). destruct J.
    + exists k. split; [|split].
      * destruct (flank_involute b p k Bp) as (th & H1 & H2). exists th. split; [exact H1|]. rewrite <- H2. f_equal. unfold k. field. lra.
      * intros j Hj. assert (Q : forall f, 0 <= f <= 1 -> exists th, 0 <= th /\ polar (fst (rad f, flank b (rad f) + k)) (snd (rad f, flank b (rad f) + k)) = involute b k th).
        { intros f Hf. cbn [fst snd]. rewrite Rplus_comm. apply flank_involute. destruct (RR f Hf). fold (rad f) in *. lra. }
        assert (J : In j (seq 2 6)) by (apply in_seq; lia). cbn [seq In] in J.
        repeat destruct J as [<-|J]; try (cbn [nth]; apply Q; lra). destruct J.
      * cbn [nth snd]. destruct (Rltb_spec r b), (Rlt_dec r b); try reflexivity; try lra; try contradiction; field; lra.
  - unfold GearPath, gearPoints. cbn [ge_teeth gear]. fold (gear n w phi cl bl). rewrite gearTooth_polar by assumption.
    assert (E : flat_map (fun i : Z => map (turned RTrig (div (mul (mul (ofZ (- i) : T RNum) two) (npi RTrig)) (ofZ n))) (map (fun ra : R * R => polar (fst ra) (snd ra)) (toothOf n w phi cl bl))) (upto n)
              = flat_map (fun i => map (fun ra => polar (fst ra) (snd ra + INR i * (2 * PI / IZR n))) (toothOf n w phi cl bl)) (seq 0 (Z.to_nat n))).
    { unfold upto. rewrite !flat_map_concat_map, map_map. f_equal. apply map_ext. intros i. rewrite map_map. apply map_ext. intros ra. rewrite turned_polar by assumption. rewrite INR_IZR_INZ. reflexivity. }
    cbn [T RNum] in E |- *. rewrite E. clear E. assert (Ez : exists m, Z.to_nat n = S m) by (exists (Nat.pred (Z.to_nat n)); lia). destruct Ez as (m & ->). cbn [seq flat_map].
    assert (Et : exists ra t', toothOf n w phi cl bl = ra :: t') by (unfold toothOf; cbn [app]; eexists; eexists; reflexivity). destruct Et as (ra & t' & ->). cbn [map app]. set (rest := (map _ t' ++ _)%list).
    cbn [INR]. rewrite Rmult_0_l, Rplus_0_r. set (v := polar (fst ra) (snd ra)). change (LineTo (fold_left LineTo rest (MoveTo NewDraw v)) v) with (fold_left (LineTo (N := RNum)) [v] (fold_left LineTo rest (MoveTo NewDraw v))).
    rewrite <- fold_left_app. rewrite (fold_lines (rest ++ [v])%list _ v) by reflexivity. unfold MoveTo, NewDraw. cbn [CurrentPosition app outline]. change (@zero RNum) with (Fin 0). rewrite NewPoint_fin. reflexivity.
Qed.

Lemma lines_In l : forall a g, In g (lines a l) -> exists u v, g = Line u v /\ In u (a :: l) /\ In v l.
Proof.
  induction l as [|q l IH]; intros a g [].
  - subst g. exists a, q. cbn. auto.
  - destruct (IH _ _ H) as (u & v & -> & Hu & Hv). exists u, v. split; [reflexivity|]. cbn in *. intuition.
Qed.
Lemma outline_In l g : In g (outline l) -> visible g -> exists u v, g = Line u v /\ In u l /\ In v l.
Proof.
  destruct l as [|q l]; [intros []|]. intros [<-|H] V; [destruct V|]. destruct (lines_In _ _ _ H) as (u & v & -> & Hu & Hv). exists u, v. split; [reflexivity|].
  cbn in *. rewrite in_app_iff in *. cbn in *. intuition.
Qed.
Lemma polar_norm r a : X (polar r a) ^ 2 + Y (polar r a) ^ 2 = r ^ 2.
Proof. unfold polar. rewrite pnt_X, pnt_Y. pose proof (sin2_cos2 a) as E. unfold Rsqr in E. nra. Qed.
(** nothing is drawn outside the circle of the outer radius around the centre *)
Theorem C59_within n w phi cl bl x y : (2 <= n)%Z -> 0 < w -> -90 < phi < 90 -> 0 <= cl <= w / PI ->
  inDrawing (GearPath RTrig RBMath (gear n w phi cl bl)) x y ->
  exists outer, gearOuter RTrig (gear n w phi cl bl) = Fin outer /\ x ^ 2 + y ^ 2 <= outer ^ 2.
Proof.
  intros Hn Hw Hphi Hcl (g & Hg & V & On). destruct (C59_gear n w phi cl bl Hn Hw Hphi Hcl) as (inner & outer & t & E1 & E2 & Ei & Eo & Ht & EP).
  exists outer. split; [exact E2|]. rewrite EP in Hg. destruct (outline_In _ _ Hg V) as (u & v & -> & Hu & Hv).
  assert (Q : forall u, In u (flat_map (fun i => map (fun ra => polar (fst ra) (snd ra + INR i * (2 * PI / IZR n))) t) (seq 0 (Z.to_nat n))) -> X u ^ 2 + Y u ^ 2 <= outer ^ 2).
  { intros z Hz. apply in_flat_map in Hz. destruct Hz as (i & _ & Hz). apply in_map_iff in Hz. destruct Hz as (ra & <- & Hra). rewrite polar_norm. pose proof (t_radii _ _ _ _ _ _ _ Ht) as F. rewrite Forall_forall in F. specialize (F _ Hra).
    pose proof (r_range n w Hn Hw). rewrite <- Ei in *. apply pow_incr. lra. }
  apply Q in Hu. apply Q in Hv. destruct On as (s & Hs & -> & ->).
  replace ((X u + s * (X v - X u)) ^ 2 + (Y u + s * (Y v - Y u)) ^ 2) with ((1 - s) * (X u ^ 2 + Y u ^ 2) + s * (X v ^ 2 + Y v ^ 2) - s * (1 - s) * ((X u - X v) ^ 2 + (Y u - Y v) ^ 2)) by ring.
  assert (0 <= s * (1 - s) * ((X u - X v) ^ 2 + (Y u - Y v) ^ 2)) by (apply Rmult_le_pos; [apply Rmult_le_pos; lra|pose proof (pow2_ge_0 (X u - X v)); pose proof (pow2_ge_0 (Y u - Y v)); lra]).
  assert ((1 - s) * (X u ^ 2 + Y u ^ 2) <= (1 - s) * outer ^ 2) by (apply Rmult_le_compat_l; lra). assert (s * (X v ^ 2 + Y v ^ 2) <= s * outer ^ 2) by (apply Rmult_le_compat_l; lra). lra.
Qed.

Lemma PI_bounds : 3.1415 < PI < 3.142.
Proof. pose proof (PI_2_3_7_ineq 1) as H. pose proof (PI_2_3_7_ineq 3) as H'. cbn in H, H'. unfold tg_alt, PI_2_3_7_tg, Ratan_seq in *. cbn in H, H'. split; lra. Qed.
Lemma nth_lines l : forall a j d, (j < length l)%nat -> nth j (lines a l) d = Line (nth j (a :: l) a) (nth j l a).
Proof.
  induction l as [|q l IH]; intros a j d H; cbn in H; [lia|]. destruct j; [reflexivity|]. cbn [lines nth]. rewrite IH by lia. f_equal; [|apply nth_indep; lia]. 
  destruct j; [reflexivity|]. cbn. apply nth_indep. lia.
Qed.
Lemma nth_flat (f : nat -> list (Pt RNum)) k d : (forall i, length (f i) = k) -> forall m s i j, (i < m)%nat -> (j < k)%nat -> nth (k * i + j) (flat_map f (seq s m)) d = nth j (f (s + i)%nat) d.
Proof.
  intros L. induction m as [|m IH]; intros s i j Hi Hj; [lia|]. cbn [seq flat_map]. destruct i.
  - rewrite Nat.mul_0_r, Nat.add_0_r, app_nth1 by (rewrite L; lia). reflexivity.
  - rewrite app_nth2 by (rewrite L; nia). rewrite L. replace (k * S i + j - k)%nat with (k * i + j)%nat by nia. rewrite IH by lia. f_equal. f_equal. lia.
Qed.
Lemma flat_length (f : nat -> list (Pt RNum)) k : (forall i, length (f i) = k) -> forall m s, length (flat_map f (seq s m)) = (k * m)%nat.
Proof. intros L. induction m as [|m IH]; intros s; cbn [seq flat_map]; [cbn; lia|]. rewrite app_length, L, IH. lia. Qed.
Lemma chord r a b : (X (polar r a) - X (polar r b)) ^ 2 + (Y (polar r a) - Y (polar r b)) ^ 2 <= (r * (a - b)) ^ 2.
Proof.
  unfold polar. rewrite !pnt_X, !pnt_Y. assert (E : (r * sin a - r * sin b) ^ 2 + (r * cos a - r * cos b) ^ 2 = (r * (2 * sin ((a - b) / 2))) ^ 2).
  { rewrite <- !Rmult_minus_distr_l, form4, form2. pose proof (sin2_cos2 ((a + b) / 2)) as Q. unfold Rsqr in Q.
    transitivity ((r * (2 * sin ((a - b) / 2))) ^ 2 * (sin ((a + b) / 2) * sin ((a + b) / 2) + cos ((a + b) / 2) * cos ((a + b) / 2))); [ring|]. rewrite Q. ring. }
  rewrite E. rewrite !Rpow_mult_distr. apply Rmult_le_compat_l; [nra|]. set (h := (a - b) / 2). replace (a - b) with (2 * h) by (unfold h; field). rewrite Rpow_mult_distr. 
  assert (S : sin h ^ 2 <= h ^ 2).
  { destruct (Rle_dec 0 h).
    - destruct (Rle_dec h PI). + pose proof (sin_ge_0 h r0 r1). destruct (Req_dec h 0) as [->|]. rewrite sin_0; lra. pose proof (sin_lt_x h). nra. + pose proof (SIN_bound h). pose proof PI_bounds. nra.
    - destruct (Rle_dec (- h) PI). + pose proof (sin_ge_0 (- h)). rewrite sin_neg in *. pose proof (sin_lt_x (- h)). rewrite sin_neg in *. nra. + pose proof (SIN_bound h). pose proof PI_bounds. nra. }
  nra.
Qed.
(** the next tooth begins where the last one ended, up to 0.0005 / n of the inner radius; so does the first one after the last *)
Theorem C59_seam n w phi cl bl i : (2 <= n)%Z -> 0 < w -> -90 < phi < 90 -> 0 <= cl <= w / PI -> (1 <= i <= Z.to_nat n)%nat ->
  exists inner a b, gearRoot RTrig (gear n w phi cl bl) = Fin inner /\ 0 <= inner /\
    nth (16 * i) (GearPath RTrig RBMath (gear n w phi cl bl)) (Line origin origin) = Line a b /\
    (X a - X b) ^ 2 + (Y a - Y b) ^ 2 <= (inner * (0.0005 / IZR n)) ^ 2.
Proof.
  intros Hn Hw Hphi Hcl Hi. destruct (C59_gear n w phi cl bl Hn Hw Hphi Hcl) as (inner & outer & t & E1 & E2 & Ei & Eo & Ht & EP).
  pose proof (n_pos n Hn) as N2. pose proof (r_range n w Hn Hw) as Rr. rewrite <- Ei in Rr. exists inner.
  set (f := fun i => map (fun ra => polar (fst ra) (snd ra + INR i * (2 * PI / IZR n))) t) in *.
  assert (L : forall i, length (f i) = 16%nat) by (intros; unfold f; rewrite map_length; apply (t_length _ _ _ _ _ _ _ Ht)).
  destruct (t_valley _ _ _ _ _ _ _ Ht) as (V0 & V15 & _).
  assert (F0 : forall i d, nth 0 (f i) d = polar inner (- (PI / IZR n) + INR i * (2 * PI / IZR n))).
  { intros j d. rewrite (nth_indep _ d (polar (fst (0, 0)) (snd (0, 0) + INR j * (2 * PI / IZR n)))) by (rewrite L; lia). unfold f. rewrite map_nth with (f := fun ra => polar (fst ra) (snd ra + INR j * (2 * PI / IZR n))). rewrite V0. reflexivity. }
  assert (F15 : forall i d, nth 15 (f i) d = polar inner (3.142 / IZR n + INR i * (2 * PI / IZR n))).
  { intros j d. rewrite (nth_indep _ d (polar (fst (0, 0)) (snd (0, 0) + INR j * (2 * PI / IZR n)))) by (rewrite L; lia). unfold f. rewrite map_nth with (f := fun ra => polar (fst ra) (snd ra + INR j * (2 * PI / IZR n))). rewrite V15. reflexivity. }
  set (V := flat_map f (seq 0 (Z.to_nat n))) in *. assert (LV : length V = (16 * Z.to_nat n)%nat) by (apply flat_length; exact L).
  set (o := nth 0 V origin). exists (nth (16 * i - 1) V o), (if Nat.eqb i (Z.to_nat n) then o else nth (16 * i) V o). split; [exact E1|]. split; [lra|]. split.
  - rewrite EP. destruct V as [|v V'] eqn:EV; [cbn in LV; lia|]. cbn [outline]. assert (Ej : exists j, (16 * i = S j)%nat) by (exists (16 * i - 1)%nat; lia). destruct Ej as (j & Ej). rewrite Ej. replace (S j - 1)%nat with j by lia. change (o) with v. clear o. cbn in LV. change (nth (S j) (v :: V') v) with (nth j V' v).
    change (nth (S j) (Move (pnt 0 0) v :: lines v (V' ++ [v])%list) (Line origin origin)) with (nth j (lines v (V' ++ [v])%list) (Line origin origin)). rewrite nth_lines by (rewrite app_length; cbn; lia). f_equal.
    + rewrite app_comm_cons. apply app_nth1. cbn. lia.
    + destruct (Nat.eqb_spec i (Z.to_nat n)) as [->|].
      * rewrite app_nth2 by lia. replace (j - length V')%nat with 0%nat by lia. reflexivity.
      * rewrite app_nth1 by lia. reflexivity.
  - assert (A : nth (16 * i - 1) V o = polar inner (3.142 / IZR n + INR (i - 1) * (2 * PI / IZR n))).
    { unfold V. replace (16 * i - 1)%nat with (16 * (i - 1) + 15)%nat by lia. rewrite nth_flat with (k := 16%nat) by (try exact L; lia). apply F15. }
    assert (B : (if Nat.eqb i (Z.to_nat n) then o else nth (16 * i) V o) = polar inner (- (PI / IZR n) + INR i * (2 * PI / IZR n))).
    { destruct (Nat.eqb_spec i (Z.to_nat n)) as [->|].
      - unfold o, V. change 0%nat with (16 * 0 + 0)%nat. rewrite nth_flat with (k := 16%nat) by (try exact L; lia). cbn [Nat.add]. rewrite F0. rewrite (INR_IZR_INZ (Z.to_nat n)), Z2Nat.id by lia. cbn [INR]. replace (IZR n * (2 * PI / IZR n)) with (2 * PI) by (field; lra).
        unfold polar. rewrite Rmult_0_l, Rplus_0_r, sin_plus, cos_plus, sin_2PI, cos_2PI. unfold pnt. f_equal; f_equal; ring.
      - unfold V. replace (16 * i)%nat with (16 * i + 0)%nat by lia. rewrite nth_flat with (k := 16%nat) by (try exact L; lia). apply F0. }
    rewrite A, B. eapply Rle_trans; [apply chord|]. rewrite minus_INR by lia. cbn [INR]. pose proof PI_bounds as PB.
    replace (3.142 / IZR n + (INR i - 1) * (2 * PI / IZR n) - (- (PI / IZR n) + INR i * (2 * PI / IZR n))) with ((3.142 - PI) * / IZR n) by (field; lra).
    unfold Rdiv. assert (0 < / IZR n) by (apply Rinv_0_lt_compat; lra). apply pow_incr. split; [apply Rmult_le_pos; [lra|apply Rmult_le_pos; lra]|]. apply Rmult_le_compat_l; [lra|]. apply Rmult_le_compat_r; lra.
Qed.

(** a gear with the default parameters of the component: ten teeth of width 0.5, 20 degrees, clearance and backlash 0.01 *)
Example C59_example : (2 <= 10)%Z /\ 0 < 0.5 /\ -90 < 20 < 90 /\ 0 <= 0.01 <= 0.5 / PI /\ length (GearPath RTrig RBMath (gear 10 0.5 20 0.01 0.01)) = 161%nat.
Proof.
  pose proof PI_bounds as PB. split; [lia|]. split; [lra|]. split; [lra|]. split.
  - split; [lra|]. apply (Rmult_le_reg_r PI); [lra|]. unfold Rdiv. rewrite Rmult_assoc, Rinv_l by lra. lra.
  - reflexivity.
Qed.
