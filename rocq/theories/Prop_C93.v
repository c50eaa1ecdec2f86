(** C93: the point of a curve that is nearest to a point. *)
From Coq Require Import String List ZArith NArith Bool Lia Reals Lra Psatz.
From Verif Require Import Num FloatNum RealNum PathModel DrawModel SegOps Bezier PathSpec GeomSpec BezierProofs Witness.
Import ListNotations.
Local Open Scope R_scope.

(** the distance between the point (u, v) and the point of the curve at t *)
Definition away (c : crv RNum) (u v t : R) : R := sqrt ((u - curveX c t) * (u - curveX c t) + (v - curveY c t) * (v - curveY c t)).
(** the points of the curve are closer to the origin than 2^63, where the search starts *)
Definition inReach (c : crv RNum) : Prop := forall t, 0 <= t <= 1 -> away c 0 0 t < 2 ^ 63.
(** no handle, start or end is farther than m from the next one, in either direction *)
Definition legs (c : crv RNum) (m : R) : Prop :=
  Rabs (X (c_cs c) - X (c_s c)) <= m /\ Rabs (X (c_ce c) - X (c_cs c)) <= m /\ Rabs (X (c_e c) - X (c_ce c)) <= m /\
  Rabs (Y (c_cs c) - Y (c_s c)) <= m /\ Rabs (Y (c_ce c) - Y (c_cs c)) <= m /\ Rabs (Y (c_e c) - Y (c_ce c)) <= m.

Lemma sumsq a b : 0 <= a * a + b * b.
Proof. pose proof (Rle_0_sqr a) as A. pose proof (Rle_0_sqr b) as B. unfold Rsqr in A, B. lra. Qed.
Lemma away_pos c u v t : 0 <= away c u v t. Proof. apply sqrt_pos. Qed.
Lemma bDistance_fin x1 y1 x2 y2 : bDistance (pnt x1 y1) (pnt x2 y2) = (Fin (sqrt ((x1 - x2) * (x1 - x2) + (y1 - y2) * (y1 - y2))) : T RNum).
Proof. unfold bDistance. cbn [px py pnt]. fin. rewrite fsqrt; [reflexivity|]. pose proof (Rle_0_sqr (x1 - x2)) as A. pose proof (Rle_0_sqr (y1 - y2)) as B. unfold Rsqr in A, B. lra. Qed.
Lemma at_distance c u v t : finiteCrv c -> bDistance (pnt u v) (FindPoint c (Fin t : T RNum)) = (Fin (away c u v t) : T RNum).
Proof. intros F. rewrite FindPoint_spec by exact F. apply bDistance_fin. Qed.

(** *** points of the curve whose parameters are close are close *)
Lemma abs_in x m : Rabs x <= m -> - m <= x <= m.
Proof. intros H. pose proof (Rle_abs x). pose proof (Rle_abs (- x)) as N. rewrite Rabs_Ropp in N. lra. Qed.
Lemma cubic_step a b d e m t s : Rabs (b - a) <= m -> Rabs (d - b) <= m -> Rabs (e - d) <= m -> 0 <= t <= 1 -> 0 <= s <= 1 -> Rabs (cubic a b d e t - cubic a b d e s) <= 3 * m * Rabs (t - s).
Proof.
  intros H0 H1 H2 Ht Hs. set (q := (t * t + t * s + s * s) / 3).
  assert (E : cubic a b d e t - cubic a b d e s = 3 * (t - s) * ((1 - (t + s) + q) * (b - a) + ((t + s) - 2 * q) * (d - b) + q * (e - d))) by (unfold cubic, q; field).
  assert (Q2 : 0 <= q) by (unfold q; nra). assert (Q0 : 0 <= 1 - (t + s) + q) by (unfold q; nra). assert (Q1 : 0 <= (t + s) - 2 * q) by (unfold q; nra).
  rewrite E, !Rabs_mult, (Rabs_right 3) by lra. 
  assert (B : Rabs ((1 - (t + s) + q) * (b - a) + ((t + s) - 2 * q) * (d - b) + q * (e - d)) <= m).
  { apply abs_in in H0, H1, H2. apply Rabs_le. nra. }
  pose proof (Rabs_pos (t - s)). nra.
Qed.
Definition apart (c : crv RNum) (t s : R) : R := sqrt ((curveX c t - curveX c s) * (curveX c t - curveX c s) + (curveY c t - curveY c s) * (curveY c t - curveY c s)).
Lemma curve_step c m t s : legs c m -> 0 <= t <= 1 -> 0 <= s <= 1 -> apart c t s <= sqrt 2 * (3 * m * Rabs (t - s)).
Proof.
  intros (A0 & A1 & A2 & B0 & B1 & B2) Ht Hs. pose proof (cubic_step _ _ _ _ m t s A0 A1 A2 Ht Hs) as DX. pose proof (cubic_step _ _ _ _ m t s B0 B1 B2 Ht Hs) as DY. fold (curveX c t) in DX. fold (curveX c s) in DX. fold (curveY c t) in DY. fold (curveY c s) in DY.
  set (w := 3 * m * Rabs (t - s)) in *. assert (W : 0 <= w) by (eapply Rle_trans; [apply Rabs_pos|exact DX]).
  rewrite <- (sqrt_square w W), <- sqrt_mult by nra. apply sqrt_le_1_alt. apply abs_in in DX, DY. nra.
Qed.
Lemma away_step c m u v t s : legs c m -> 0 <= t <= 1 -> 0 <= s <= 1 -> away c u v t <= away c u v s + sqrt 2 * (3 * m * Rabs (t - s)).
Proof.
  intros HL Ht Hs. pose proof (triangle u v (curveX c t) (curveY c t) (curveX c s) (curveY c s)) as TR. unfold dist_euc, Rsqr in TR. fold (away c u v t) in TR. fold (away c u v s) in TR. fold (apart c s t) in TR.
  pose proof (curve_step c m s t HL Hs Ht) as D. rewrite Rabs_minus_sym in D. lra.
Qed.

(** *** the first search: a hundred points *)
Definition sample (k : nat) : R := INR k / 99.
Lemma lut_points c : finiteCrv c -> getLUT c 100 = map (fun k => FindPoint c (Fin (sample k) : T RNum)) (seq 0 100).
Proof.
  intros F. unfold getLUT. apply map_ext. intros k. f_equal. change (Z.of_nat (100 - 1)) with 99%Z. change (@ofZ RNum 99) with (Fin 99 : T RNum). change (@ofZ RNum (Z.of_nat k)) with (Fin (IZR (Z.of_nat k)) : T RNum). rewrite fdiv by lra. unfold sample. rewrite INR_IZR_INZ. reflexivity.
Qed.
Lemma closest_spec c : finiteCrv c -> forall ks i bi (b : R), exists (d : R) j, closest_loop (map (fun k => FindPoint c (Fin (sample k) : T RNum)) (seq i ks)) i bi (Fin b : T RNum) = ((Fin d : T RNum), j) /\ d <= b /\
  (forall k, (i <= k < i + ks)%nat -> d <= away c 0 0 (sample k)) /\ ((d = b /\ j = bi) \/ ((i <= j < i + ks)%nat /\ d = away c 0 0 (sample j))).
Proof.
  intros F. induction ks as [|ks IH]; intros i bi b; cbn [seq map closest_loop].
  - exists b, bi. split; [reflexivity|]. split; [lra|]. split; [intros; lia|]. left. auto.
  - change (@zeroPt RNum) with (pnt 0 0). rewrite at_distance by exact F. cbn zeta. rewrite fltb. destruct (Rltb_spec (away c 0 0 (sample i)) b) as [L|L].
    + destruct (IH (S i) i (away c 0 0 (sample i))) as (d & j & E & B & A & D). exists d, j. split; [exact E|]. split; [lra|]. split.
      * intros k Hk. destruct (Nat.eq_dec k i) as [->|]; [exact B|apply A; lia].
      * right. destruct D as [[-> ->]|[Hj ->]]; [split; [lia|reflexivity]|split; [lia|reflexivity]].
    + destruct (IH (S i) bi b) as (d & j & E & B & A & D). exists d, j. split; [exact E|]. split; [lra|]. split.
      * intros k Hk. destruct (Nat.eq_dec k i) as [->|]; [lra|apply A; lia].
      * destruct D as [[-> ->]|[Hj ->]]; [left; auto|right; split; [lia|reflexivity]].
Qed.
Lemma sample_range k : (k <= 99)%nat -> 0 <= sample k <= 1.
Proof. intros H. unfold sample. pose proof (pos_INR k). apply le_INR in H. change (INR 99) with (IZR 99) in H || (replace (INR 99) with 99 in H by (rewrite INR_IZR_INZ; reflexivity)). lra. Qed.
Lemma closest_lut c : finiteCrv c -> inReach c -> exists j, closest (getLUT c 100) = ((Fin (away c 0 0 (sample j)) : T RNum), j) /\ (j <= 99)%nat /\ forall k, (k <= 99)%nat -> away c 0 0 (sample j) <= away c 0 0 (sample k).
Proof.
  intros F R. unfold closest. rewrite lut_points by exact F. change (@ofZ RNum (2 ^ 63)) with (Fin (IZR (2 ^ 63)) : T RNum).
  destruct (closest_spec c F 100 0%nat 0%nat (IZR (2 ^ 63))) as (d & j & E & _ & A & D). rewrite E. exists j.
  assert (S0 : away c 0 0 (sample 0) < IZR (2 ^ 63)). { change (2 ^ 63)%Z with (2 ^ Z.of_nat 63)%Z. rewrite <- pow_IZR. apply R. apply sample_range. lia. }
  destruct D as [[-> ->]|[Hj ->]]; [exfalso; specialize (A 0%nat ltac:(lia)); lra|]. split; [reflexivity|]. split; [lia|]. intros k Hk. apply A. lia.
Qed.

(** *** the second search *)
Lemma fine_spec c u v t1 t2 step : finiteCrv c -> forall n k fuel b ft, t1 + INR (k + n) * step = t2 + step -> 0 < step -> (n < fuel)%nat ->
  exists d f, fineSearch fuel c (pnt u v) (Fin (t1 + INR k * step) : T RNum) (Fin t2) (Fin step) (Fin b) (Fin ft) = Ok ((Fin d : T RNum), (Fin f : T RNum)) /\ d <= b /\
    (forall j, (k <= j < k + n)%nat -> d <= away c u v (t1 + INR j * step)) /\ ((d = b /\ f = ft) \/ exists j, (k <= j < k + n)%nat /\ f = t1 + INR j * step /\ d = away c u v f).
Proof.
  intros F. induction n as [|n IH]; intros k fuel b ft E S L; (destruct fuel as [|fuel]; [lia|]); cbn [fineSearch]; fin; rewrite ?fltb.
  - rewrite Nat.add_0_r in E. destruct (Rltb_spec (t1 + INR k * step) (t2 + step)); [lra|]. exists b, ft. split; [reflexivity|]. split; [lra|]. split; [intros; lia|]. left. auto.
  - assert (LT : t1 + INR k * step < t2 + step). { rewrite <- E. apply Rplus_lt_compat_l. apply Rmult_lt_compat_r; [exact S|]. apply lt_INR. lia. }
    destruct (Rltb_spec (t1 + INR k * step) (t2 + step)); [|lra]. rewrite at_distance by exact F. cbn zeta. rewrite ?fltb.
    assert (NX : t1 + INR k * step + step = t1 + INR (Datatypes.S k) * step) by (rewrite S_INR; ring).
    destruct (Rltb_spec (away c u v (t1 + INR k * step)) b) as [H|H]; fin; rewrite NX.
    + destruct (IH (Datatypes.S k) fuel (away c u v (t1 + INR k * step)) (t1 + INR k * step)) as (d & f & Ef & B & A & D); [rewrite <- E; f_equal; f_equal; f_equal; lia|exact S|lia|].
      exists d, f. split; [exact Ef|]. split; [lra|]. split.
      * intros j Hj. destruct (Nat.eq_dec j k) as [->|]; [exact B|apply A; lia].
      * right. destruct D as [[-> ->]|(j & Hj & D)]; [exists k; split; [lia|auto]|exists j; split; [lia|exact D]].
    + destruct (IH (Datatypes.S k) fuel b ft) as (d & f & Ef & B & A & D); [rewrite <- E; f_equal; f_equal; f_equal; lia|exact S|lia|].
      exists d, f. split; [exact Ef|]. split; [lra|]. split.
      * intros j Hj. destruct (Nat.eq_dec j k) as [->|]; [lra|apply A; lia].
      * destruct D as [[-> ->]|(j & Hj & D)]; [left; auto|right; exists j; split; [lia|exact D]].
Qed.

(** the case that the hundred points find nothing nearer to the origin than an end of the curve *)
Definition endNearest (c : crv RNum) : Prop := exists e, (e = 0%nat \/ e = 99%nat) /\ (forall k, (k <= 99)%nat -> away c 0 0 (sample e) <= away c 0 0 (sample k)).

Section Claims.
Variable c : crv RNum.
Hypothesis F : finiteCrv c.
Hypothesis HR : inReach c.
Notation project := (Project (N := RNum)).

Lemma project_cases fuel : (21 < fuel)%nat -> exists j, (j <= 99)%nat /\ (forall k, (k <= 99)%nat -> away c 0 0 (sample j) <= away c 0 0 (sample k)) /\
  forall u v, (((j = 0%nat \/ j = 99%nat) /\ project fuel c (pnt u v) = Ok (FindPoint c (Fin (sample j) : T RNum), (Fin (sample j) : T RNum), (Fin (away c 0 0 (sample j)) : T RNum))) \/
   ((0 < j < 99)%nat /\ exists d t, project fuel c (pnt u v) = Ok (FindPoint c (Fin t : T RNum), (Fin d : T RNum), (Fin t : T RNum)) /\ d <= away c 0 0 (sample j) + 1 /\
     (forall i, (i < 21)%nat -> d <= away c u v ((INR j - 1) / 99 + INR i * (/ 990))) /\ (exists i, (i < 21)%nat /\ t = (INR j - 1) / 99 + INR i * (/ 990)) /\ (d = away c u v t \/ d = away c 0 0 (sample j) + 1))).
Proof.
  intros HF. destruct (closest_lut c F HR) as (j & E & Hj & A). exists j. split; [exact Hj|]. split; [exact A|]. intros u v. unfold Project. rewrite E.
  destruct (Nat.eqb_spec j 0) as [E0|N0]; [|destruct (Nat.eqb_spec j 99) as [E9|N9]]; cbn [orb].
  3: { right. split; [lia|]. change (@ofZ RNum 99) with (Fin 99 : T RNum). change (@ofZ RNum (Z.of_nat j)) with (Fin (IZR (Z.of_nat j)) : T RNum). change (@one RNum) with (Fin 1 : T RNum). change (@ofZ RNum 10) with (Fin 10 : T RNum). fin. rewrite !fdiv by lra. rewrite <- INR_IZR_INZ.
    set (t1 := (INR j - 1) / 99). set (t2 := (INR j + 1) / 99).
    destruct (fine_spec c u v t1 t2 (1 / 10 / 99) F 21 0 fuel (away c 0 0 (sample j) + 1) t1) as (d & f & Ef & B & G & D); [change (0 + 21)%nat with 21%nat; replace (INR 21) with 21 by (rewrite INR_IZR_INZ; reflexivity); unfold t1, t2; lra|lra|exact HF|].
    replace (t1 + INR 0 * (1 / 10 / 99)) with t1 in Ef by (cbn; ring). rewrite Ef. cbn [bind]. exists d, f. split; [reflexivity|]. split; [exact B|]. replace (/ 990) with (1 / 10 / 99) by lra. split; [intros i Hi; apply G; lia|].
    destruct D as [[-> ->]|(i & Hi & -> & ->)]; [split; [exists 0%nat; split; [lia|cbn; ring]|right; reflexivity]|]. split; [exists i; split; [lia|reflexivity]|left; reflexivity]. }
  all: left; split; [auto|]; rewrite lut_points by exact F; change (@ofZ RNum 99) with (Fin 99 : T RNum); change (@ofZ RNum (Z.of_nat j)) with (Fin (IZR (Z.of_nat j)) : T RNum); rewrite fdiv by lra; rewrite <- INR_IZR_INZ; fold (sample j); rewrite E0 || rewrite E9; reflexivity.
Qed.

(** The search ends: 22 rounds are enough, whatever the curve and the point. *)
Theorem C93_ends u v fuel : (21 < fuel)%nat -> exists p d t, project fuel c (pnt u v) = Ok (p, d, t).
Proof. intros HF. destruct (project_cases fuel HF) as (j & _ & _ & P); destruct (P u v) as [[_ E]|[_ (d & t & E & _)]]; do 3 eexists; exact E. Qed.

(** What is returned is a point of the curve; unless an end is found, the parameter that is returned is its parameter. *)
Theorem C93_on_curve u v fuel p d t : (21 < fuel)%nat -> project fuel c (pnt u v) = Ok (p, d, t) ->
  (exists r, 0 <= r <= 1 /\ p = pnt (curveX c r) (curveY c r)) /\ (endNearest c \/ exists r, t = Fin r /\ 0 <= r <= 1 /\ p = pnt (curveX c r) (curveY c r)).
Proof.
  intros HF E. destruct (project_cases fuel HF) as (j & Hj & A & P); destruct (P u v) as [[Ej E']|[Hj' (d' & t' & E' & _ & _ & (i & Hi & ->) & _)]]; rewrite E in E'; injection E' as -> -> ->; rewrite FindPoint_spec by exact F.
  - split; [exists (sample j); split; [apply sample_range; exact Hj|reflexivity]|]. left. exists j. split; [exact Ej|exact A].
  - assert (B : 0 <= (INR j - 1) / 99 + INR i * / 990 <= 1).
    { assert (1 <= INR j <= 98) by (split; [apply (le_INR 1); lia|replace 98 with (INR 98) by (rewrite INR_IZR_INZ; reflexivity); apply le_INR; lia]). assert (0 <= INR i <= 20) by (split; [apply pos_INR|replace 20 with (INR 20) by (rewrite INR_IZR_INZ; reflexivity); apply le_INR; lia]). lra. }
    split; [|right]; exists ((INR j - 1) / 99 + INR i * / 990); auto.
Qed.

(** Unless an end is found: the distance that is returned is not more than the distance to the point that is returned, and it is that
    distance unless it is one more than the distance from the origin to the nearest of a hundred points of the curve. *)
Theorem C93_distance u v fuel p d t : (21 < fuel)%nat -> ~ endNearest c -> project fuel c (pnt u v) = Ok (p, d, t) ->
  exists r e, t = Fin r /\ d = Fin e /\ 0 <= e <= away c u v r /\ (e = away c u v r \/ exists j, (0 < j < 99)%nat /\ e = away c 0 0 (sample j) + 1 /\ forall k, (k <= 99)%nat -> away c 0 0 (sample j) <= away c 0 0 (sample k)).
Proof.
  intros HF NE E. destruct (project_cases fuel HF) as (j & Hj & A & P); destruct (P u v) as [[Ej E']|[Hj' (d' & t' & E' & B & G & (i & Hi & Et) & D)]]; [exfalso; apply NE; exists j; auto|]. rewrite E in E'. injection E' as -> -> ->.
  exists t', d'. split; [reflexivity|]. split; [reflexivity|]. split; [|destruct D as [D|D]; [left; exact D|right; exists j; auto]].
  split; [destruct D as [-> | ->]; [apply away_pos|pose proof (away_pos c 0 0 (sample j)); lra]|]. rewrite Et. apply G. exact Hi.
Qed.

Lemma fine_range j i : (0 < j < 99)%nat -> (i < 21)%nat -> 0 <= (INR j - 1) / 99 + INR i * / 990 <= 1 /\ Rabs ((INR j - 1) / 99 + INR i * / 990 - sample j) <= 1 / 99.
Proof.
  intros Hj' Hi. assert (1 <= INR j <= 98) by (split; [apply (le_INR 1); lia|replace 98 with (INR 98) by (rewrite INR_IZR_INZ; reflexivity); apply le_INR; lia]).
  assert (0 <= INR i <= 20) by (split; [apply pos_INR|replace 20 with (INR 20) by (rewrite INR_IZR_INZ; reflexivity); apply le_INR; lia]). split; [lra|]. unfold sample. apply Rabs_le. lra.
Qed.
Lemma near_sample t : 0 <= t <= 1 -> exists k, (k <= 99)%nat /\ Rabs (sample k - t) <= 1 / 198.
Proof.
  intros Ht. set (z := Int_part (99 * t + 1 / 2)). destruct (base_Int_part (99 * t + 1 / 2)) as [B1 B2]. fold z in B1, B2.
  assert (Z0 : (0 <= z)%Z) by (assert (-1 < z)%Z by (apply lt_IZR; lra); lia). assert (Z1 : (z <= 99)%Z) by (assert (z < 100)%Z by (apply lt_IZR; lra); lia).
  exists (Z.to_nat z). split; [lia|]. unfold sample. rewrite INR_IZR_INZ, Z2Nat.id by exact Z0. apply Rabs_le. lra.
Qed.

(** For the origin the answer is right up to sqrt 2 / 66 of the longest leg: no point of the curve is nearer than that. *)
Theorem C93_origin m fuel p d t : legs c m -> (21 < fuel)%nat -> project fuel c (pnt 0 0) = Ok (p, d, t) ->
  exists r, 0 <= r <= 1 /\ p = pnt (curveX c r) (curveY c r) /\ (forall s, 0 <= s <= 1 -> away c 0 0 r <= away c 0 0 s + sqrt 2 * m / 66) /\ (endNearest c \/ d = Fin (away c 0 0 r)).
Proof.
  intros HL HF E. assert (NEAR : forall j, (forall k, (k <= 99)%nat -> away c 0 0 (sample j) <= away c 0 0 (sample k)) -> forall s, 0 <= s <= 1 -> away c 0 0 (sample j) <= away c 0 0 s + sqrt 2 * m / 66).
  { intros j A s Hs. destruct (near_sample s Hs) as (k & Hk & Ek). pose proof (away_step c m 0 0 (sample k) s HL (sample_range k Hk) Hs) as ST. specialize (A k Hk).
    assert (M : 0 <= m) by (destruct HL as [H _]; eapply Rle_trans; [apply Rabs_pos|exact H]). pose proof (sqrt_pos 2).
    assert (sqrt 2 * (3 * m * Rabs (sample k - s)) <= sqrt 2 * (3 * m * (1 / 198))) by (apply Rmult_le_compat_l; [assumption|]; apply Rmult_le_compat_l; lra). lra. }
  destruct (project_cases fuel HF) as (j & Hj & A & P); destruct (P 0 0) as [[Ej E']|[Hj' (d' & t' & E' & B & G & (i & Hi & Et) & D)]]; rewrite E in E'; injection E' as -> -> ->; rewrite FindPoint_spec by exact F.
  - exists (sample j). split; [apply sample_range; exact Hj|]. split; [reflexivity|]. split; [apply NEAR; exact A|]. left. exists j. auto.
  - destruct (fine_range j i Hj' Hi) as [RG _]. rewrite <- Et in RG. specialize (G 10%nat ltac:(lia)). replace ((INR j - 1) / 99 + INR 10 * / 990) with (sample j) in G by (unfold sample; replace (INR 10) with 10 by (rewrite INR_IZR_INZ; reflexivity); lra).
    destruct D as [D|D]; [|exfalso; lra]. exists t'. split; [exact RG|]. split; [reflexivity|]. split; [|right; rewrite D; reflexivity]. intros s Hs. specialize (NEAR j A s Hs). lra.
Qed.

(** The point that is asked about hardly matters: whatever the two points, the answers are within sqrt 2 * 4 / 66 of the longest leg of each other. *)
Theorem C93_blind m u v u' v' fuel p d t p' d' t' : legs c m -> (21 < fuel)%nat -> project fuel c (pnt u v) = Ok (p, d, t) -> project fuel c (pnt u' v') = Ok (p', d', t') ->
  exists x y x' y', p = pnt x y /\ p' = pnt x' y' /\ sqrt ((x - x') * (x - x') + (y - y') * (y - y')) <= sqrt 2 * m * 4 / 66.
Proof.
  intros HL HF E E'. destruct (project_cases fuel HF) as (j & Hj & A & P).
  assert (K : forall u v p d t, project fuel c (pnt u v) = Ok (p, d, t) -> exists r, 0 <= r <= 1 /\ Rabs (r - sample j) <= 1 / 99 /\ p = pnt (curveX c r) (curveY c r)).
  { clear - P F Hj. intros u v p d t E. destruct (P u v) as [[Ej E']|[Hj' (d' & t' & E' & _ & _ & (i & Hi & Et) & _)]]; rewrite E in E'; injection E' as -> -> ->; rewrite FindPoint_spec by exact F.
    - exists (sample j). split; [apply sample_range; exact Hj|]. split; [|reflexivity]. rewrite Rminus_diag_eq, Rabs_R0 by reflexivity. lra.
    - exists t'. destruct (fine_range j i Hj' Hi) as [R1 R2]. rewrite <- Et in R1, R2. auto. }
  destruct (K _ _ _ _ _ E) as (r & R1 & R2 & ->). destruct (K _ _ _ _ _ E') as (r' & R1' & R2' & ->). do 4 eexists. split; [reflexivity|]. split; [reflexivity|].
  pose proof (curve_step c m r r' HL R1 R1') as ST. unfold apart in ST. eapply Rle_trans; [exact ST|]. apply abs_in in R2, R2'. assert (Q : Rabs (r - r') <= 2 / 99) by (apply Rabs_le; lra).
  assert (M : 0 <= m) by (destruct HL as [H _]; eapply Rle_trans; [apply Rabs_pos|exact H]). pose proof (sqrt_pos 2).
  assert (sqrt 2 * (3 * m * Rabs (r - r')) <= sqrt 2 * (3 * m * (2 / 99))) by (apply Rmult_le_compat_l; [assumption|]; apply Rmult_le_compat_l; lra). lra.
Qed.
End Claims.

(** *** Examples and counterexamples: a straight curve above the origin, from (-6, 1) to (6, 1) *)
Definition beam : crv RNum := mkCrv (pnt (-6) 1) (pnt (-2) 1) (pnt 6 1) (pnt 2 1).
Lemma beam_X t : curveX beam t = 12 * t - 6. Proof. unfold curveX, beam, cubic. cbn. ring. Qed.
Lemma beam_Y t : curveY beam t = 1. Proof. unfold curveY, beam, cubic. cbn. ring. Qed.
Lemma beam_away u v t : away beam u v t = sqrt ((u - (12 * t - 6)) * (u - (12 * t - 6)) + (v - 1) * (v - 1)). Proof. unfold away. rewrite beam_X, beam_Y. reflexivity. Qed.
Example C93_beam_ex : finiteCrv beam /\ inReach beam /\ legs beam 4 /\ ~ endNearest beam.
Proof.
  split; [repeat split|]. split.
  { intros t Ht. rewrite beam_away. assert (sqrt ((0 - (12 * t - 6)) * (0 - (12 * t - 6)) + (0 - 1) * (0 - 1)) < sqrt (7 * 7)) by (apply sqrt_lt_1_alt; set (z := 12 * t - 6); assert (-6 <= z <= 6) by (unfold z; lra); nra). rewrite (sqrt_square 7) in H by lra. assert (7 < 2 ^ 63) by (change (7 < 2 ^ (3 + 60)); rewrite pow_add; pose proof (pow_R1_Rle 2 60 ltac:(lra)); lra). lra. }
  split; [unfold legs; cbn; repeat split; apply Rabs_le; lra|].
  intros (e & He & A). specialize (A 50%nat ltac:(lia)). rewrite !beam_away in A. apply sqrt_le_0 in A; [|apply sumsq|apply sumsq]. unfold sample in A. replace (INR 50) with 50 in A by (rewrite INR_IZR_INZ; reflexivity).
  destruct He as [-> | ->]; [cbn in A|replace (INR 99) with 99 in A by (rewrite INR_IZR_INZ; reflexivity)]; nra.
Qed.

(** The claim, that the point returned is the nearest of the curve, fails: for one of the two ends of this curve, both of them points
    of the curve, the point that is returned is more than four away. *)
Theorem C93_nearest_refuted : exists (c : crv RNum) u v s p d t x y, finiteCrv c /\ 0 <= s <= 1 /\ curveX c s = u /\ curveY c s = v /\ Project (N := RNum) 22 c (pnt u v) = Ok (p, d, t) /\ p = pnt x y /\ 4 < sqrt ((u - x) * (u - x) + (v - y) * (v - y)).
Proof.
  destruct C93_beam_ex as (F & HR & HL & _). destruct (C93_ends beam F HR (-6) 1 22 ltac:(lia)) as (p & d & t & E). destruct (C93_ends beam F HR 6 1 22 ltac:(lia)) as (p' & d' & t' & E').
  destruct (C93_blind beam F HR 4 _ _ _ _ 22 _ _ _ _ _ _ HL ltac:(lia) E E') as (x & y & x' & y' & -> & -> & B).
  assert (S2 : sqrt 2 <= 3 / 2) by (rewrite <- (sqrt_square (3 / 2)) by lra; apply sqrt_le_1_alt; lra).
  assert (DX : Rabs (x - x') <= 1). { eapply Rle_trans; [|eapply Rle_trans; [exact B|lra]]. rewrite <- sqrt_Rsqr_abs. apply sqrt_le_1_alt. pose proof (Rle_0_sqr (y - y')) as Q. unfold Rsqr in *. lra. }
  apply abs_in in DX. destruct (Rle_dec x 0) as [L|L].
  - exists beam, 6, 1, 1, (pnt x' y'), d', t', x', y'. split; [exact F|]. split; [lra|]. rewrite beam_X, beam_Y. split; [lra|]. split; [reflexivity|]. split; [exact E'|]. split; [reflexivity|].
    rewrite <- (sqrt_square 4) at 1 by lra. apply sqrt_lt_1_alt. pose proof (Rle_0_sqr (1 - y')) as Q. unfold Rsqr in Q. assert (4 * 4 < (6 - x') * (6 - x')) by (apply Rmult_gt_0_lt_compat; lra). lra.
  - exists beam, (-6), 1, 0, (pnt x y), d, t, x, y. split; [exact F|]. split; [lra|]. rewrite beam_X, beam_Y. split; [lra|]. split; [reflexivity|]. split; [exact E|]. split; [reflexivity|].
    rewrite <- (sqrt_square 4) at 1 by lra. apply sqrt_lt_1_alt. pose proof (Rle_0_sqr (1 - y)) as Q. unfold Rsqr in Q. assert (4 * 4 < (x + 6) * (x + 6)) by (apply Rmult_gt_0_lt_compat; lra). lra.
Qed.

(** A straight curve from (3, 0) to (6, 0), whose start is nearest to the origin. *)
Definition rail : crv RNum := mkCrv (pnt 3 0) (pnt 4 0) (pnt 6 0) (pnt 5 0).
Lemma rail_away t : 0 <= t -> away rail 0 0 t = 3 + 3 * t.
Proof. intros H. unfold away. replace (curveX rail t) with (3 + 3 * t) by (unfold curveX, rail, cubic; cbn; ring). replace (curveY rail t) with 0 by (unfold curveY, rail, cubic; cbn; ring). replace ((0 - (3 + 3 * t)) * (0 - (3 + 3 * t)) + (0 - 0) * (0 - 0)) with ((3 + 3 * t) * (3 + 3 * t)) by ring. apply sqrt_square. lra. Qed.
Example C93_rail_ex : finiteCrv rail /\ inReach rail /\ legs rail 1 /\ endNearest rail.
Proof.
  split; [repeat split|]. split.
  { intros t Ht. rewrite rail_away by lra. assert (7 < 2 ^ 63) by (change (7 < 2 ^ (3 + 60)); rewrite pow_add; pose proof (pow_R1_Rle 2 60 ltac:(lra)); lra). lra. }
  split; [unfold legs; cbn; repeat split; apply Rabs_le; lra|].
  exists 0%nat. split; [auto|]. intros k Hk. pose proof (sample_range k Hk). pose proof (sample_range 0 ltac:(lia)). rewrite !rail_away by lra. unfold sample in *. cbn [INR]. pose proof (pos_INR k). lra.
Qed.
(** The claim, that the distance and the parameter returned are those of the point returned, fails when an end is found: whatever the
    point, the distance to this curve is said to be 0 and the parameter of its start to be 3. *)
Theorem C93_exchanged_refuted : exists c : crv RNum, finiteCrv c /\ inReach c /\ forall u v fuel, (21 < fuel)%nat -> Project (N := RNum) fuel c (pnt u v) = Ok (c_s c, (Fin 0 : T RNum), (Fin 3 : T RNum)).
Proof.
  exists rail. destruct C93_rail_ex as (F & HR & _). split; [exact F|]. split; [exact HR|]. intros u v fuel HF. destruct (project_cases rail F HR fuel HF) as (j & Hj & A & P). specialize (A 0%nat ltac:(lia)).
  pose proof (sample_range j Hj) as [J _]. rewrite !rail_away in A by (try exact J; apply sample_range; lia). assert (j = 0)%nat as ->. { destruct j as [|j]; [reflexivity|exfalso]. unfold sample in A. rewrite S_INR in A. cbn [INR] in A. pose proof (pos_INR j). lra. }
  destruct (P u v) as [[_ E]|[Hj' _]]; [|lia]. rewrite E. rewrite FindPoint_spec by exact F. rewrite rail_away by exact J. replace (sample 0) with 0 by (unfold sample; cbn; lra). replace (curveX rail 0) with 3 by (unfold curveX, rail, cubic; cbn; ring). replace (curveY rail 0) with 0 by (unfold curveY, rail, cubic; cbn; ring). replace (3 + 3 * 0) with 3 by ring. reflexivity.
Qed.

(** On floats: asked for the point nearest to (6, 1), the end of the curve, the search answers with t = 0.4848.. and the distance 2.0018..,
    which is one more than the distance from the origin and is the distance to no point at all. *)
Definition beamF : crv FNum := mkCrv (pt (-6) 1) (pt (-2) 1) (pt 6 1) (pt 2 1).
Example C93_float_ex : match Project (N := FNum) 30 beamF (pt 6 1) with Ok (p, d, t) => (Some (d, t)) | _ => None end = Some (SpecFloat.S754_finite false 4507731373622324 (-51), SpecFloat.S754_finite false 8734253822779144 (-54)).
Proof. vm_compute. reflexivity. Qed.
(** For the origin the search answers with a point of the beam, its parameter and its distance, and the point is nearly the nearest. *)
Example C93_answer_ex : exists p r, Project (N := RNum) 22 beam (pnt 0 0) = Ok (p, (Fin (away beam 0 0 r) : T RNum), (Fin r : T RNum)) /\ 0 <= r <= 1 /\ p = pnt (12 * r - 6) 1 /\ away beam 0 0 r <= 1 + sqrt 2 * 4 / 66.
Proof.
  destruct C93_beam_ex as (F & HR & HL & NE). destruct (C93_ends beam F HR 0 0 22 ltac:(lia)) as (p & d & t & E).
  destruct (C93_origin beam F HR 4 22 p d t HL ltac:(lia) E) as (r & R1 & Ep & NR & [K|Ed]); [contradiction|].
  destruct (C93_on_curve beam F HR 0 0 22 p d t ltac:(lia) E) as [_ [K|(r' & Et & R1' & Ep')]]; [contradiction|].
  assert (r' = r). { rewrite Ep in Ep'. rewrite !beam_X in Ep'. unfold pnt in Ep'. injection Ep' as EX _. lra. } subst r'.
  exists p, r. rewrite E, Ed, Et. split; [reflexivity|]. split; [exact R1|]. rewrite beam_X, beam_Y in Ep. split; [exact Ep|]. specialize (NR (1 / 2) ltac:(lra)). rewrite (beam_away 0 0 (1 / 2)) in NR.
  replace ((0 - (12 * (1 / 2) - 6)) * (0 - (12 * (1 / 2) - 6)) + (0 - 1) * (0 - 1)) with (1 * 1) in NR by field. rewrite sqrt_square in NR by lra. exact NR.
Qed.
