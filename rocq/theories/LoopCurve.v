(** Curves with a loop, x = s^3 - e s and y = k s^2, and the pieces that [reduce] cuts them into. *)
From Coq Require Import List ZArith Bool Reals Lra Lia Arith Znumtheory.
From Verif Require Import Num RealNum RealTrig PathModel SegOps Bezier PathSpec GeomSpec BezierProofs RootsProofs ReduceProofs ReduceCuts Prop_C76.
Import ListNotations.
Local Open Scope R_scope.
Notation sec p a b := (cv (fst (splitSectionS p (Fin a : T RNum) (Fin b : T RNum)))).

Definition polX (e a b c : R) : R := a * b * c - e * (a + b + c) / 3.
Definition polY (k a b c : R) : R := k * (a * b + b * c + c * a) / 3.
(** the part of the curve from s to r *)
Definition loopc (e k s r : R) : crv RNum := mkCrv (pnt (polX e s s s) (polY k s s s)) (pnt (polX e s s r) (polY k s s r)) (pnt (polX e r r r) (polY k r r r)) (pnt (polX e s r r) (polY k s r r)).
Lemma loop_X e k s r t : curveX (loopc e k s r) t = (s + (r - s) * t) ^ 3 - e * (s + (r - s) * t).
Proof. unfold curveX, cubic, loopc, polX. cbn [c_s c_cs c_e c_ce]. rewrite !pnt_X. field. Qed.
Lemma loop_Y e k s r t : curveY (loopc e k s r) t = k * (s + (r - s) * t) ^ 2.
Proof. unfold curveY, cubic, loopc, polY. cbn [c_s c_cs c_e c_ce]. rewrite !pnt_Y. field. Qed.
Lemma loop_finite e k s r : finiteCrv (loopc e k s r). Proof. repeat split. Qed.
Lemma loop_eq e k s r s' r' : s = s' -> r = r' -> loopc e k s r = loopc e k s' r'. Proof. intros -> ->. reflexivity. Qed.
Lemma loop_split e k s r t : hullSplit (loopc e k s r) (Fin t : T RNum) = (loopc e k s (s + (r - s) * t), loopc e k (s + (r - s) * t) r).
Proof. unfold hullSplit, loopc, lerp, pnt, NewPoint, polX, polY. cbn [c_s c_cs c_e c_ce px py fst snd]. fin. repeat (f_equal; try field). Qed.
Lemma loop_sec e k s r a b t1 t2 : 0 <= t1 < t2 -> t1 < 1 -> sec (mkCseg (loopc e k s r) a b) t1 t2 = loopc e k (s + (r - s) * t1) (s + (r - s) * t2).
Proof.
  intros H1 H2. unfold splitSectionS. fin. destruct (Reqb_spec t1 0) as [->|N0].
  - cbn [fst]. unfold splitAtS, hullSplitS. fin. replace (Reqb t2 0) with false by (symmetry; apply Reqb_false; lra). cbn [cv]. rewrite loop_split. cbn [fst cv]. apply loop_eq; ring.
  - destruct (Reqb_spec t2 1) as [->|N1].
    + cbn [fst]. unfold splitAtS, hullSplitS. fin. replace (Reqb t1 0) with false by (symmetry; apply Reqb_false; lra). cbn [cv]. rewrite loop_split. cbn [snd cv]. apply loop_eq; ring.
    + destruct (Rltb_spec t2 0); [lra|]. assert (EM : @mapRange RNum (Fin t2) (Fin t1) (Fin 1) (Fin 0) (Fin 1) = Fin ((t2 - t1) / (1 - t1))) by (unfold mapRange; fin; rewrite fdiv by lra; fin; f_equal; field; lra). rewrite EM.
      assert (0 < (t2 - t1) / (1 - t1)) by (apply Rdiv_lt_0_compat; lra). unfold splitAtS, hullSplitS. fin. replace (Reqb ((t2 - t1) / (1 - t1)) 0) with false by (symmetry; apply Reqb_false; lra). cbn [cv]. rewrite loop_split. cbn [snd cv fst]. rewrite loop_split. cbn [fst cv]. apply loop_eq; [ring|field; lra].
Qed.

(** *** how far a part of it turns *)
Definition dotD (e k s r : R) : R := (3 * s * s - e) * (3 * r * r - e) + 4 * k * k * s * r.
Definition crossC (e k s r : R) : R := 2 * k * (s - r) * (3 * s * r + e).
Lemma loop_derivative0 e k s r : Derivative (loopc e k s r) (Fin 0 : T RNum) = pnt ((r - s) * (3 * s * s - e)) ((r - s) * (2 * k * s)).
Proof. unfold Derivative, derive1, dpt, loopc, pnt, three, two, polX, polY. cbn [c_s c_cs c_e c_ce px py]. fin. f_equal; f_equal; field. Qed.
Lemma loop_derivative1 e k s r : Derivative (loopc e k s r) (Fin 1 : T RNum) = pnt ((r - s) * (3 * r * r - e)) ((r - s) * (2 * k * r)).
Proof. unfold Derivative, derive1, dpt, loopc, pnt, three, two, polX, polY. cbn [c_s c_cs c_e c_ce px py]. fin. f_equal; f_equal; field. Qed.
Lemma normal_fin (c : crv RNum) t a b : Derivative c t = pnt a b -> 0 < a * a + b * b -> normal c t = pnt (- b / sqrt (a * a + b * b)) (a / sqrt (a * a + b * b)).
Proof. intros E H. unfold normal. rewrite E. cbn [pnt px py]. fin. rewrite fsqrt by lra. assert (0 < sqrt (a * a + b * b)) by (apply sqrt_lt_R0; exact H). rewrite !fdiv by lra. reflexivity. Qed.
Lemma acos_third x : -1 <= x <= 1 -> (acos x < PI / 3 <-> 1 / 2 < x).
Proof.
  intros H. pose proof (acos_bound x) as [B1 B2]. pose proof PI_RGT_0. pose proof (cos_acos x H) as E. pose proof cos_PI3 as E3. split; intros K.
  - pose proof (cos_decreasing_1 (acos x) (PI / 3) B1 B2 ltac:(lra) ltac:(lra) K) as C. rewrite E, E3 in C. exact C.
  - apply (cos_decreasing_0 (PI / 3) (acos x)); lra.
Qed.
Section Turn.
Variables e k s r : R.
Hypothesis Hk : 0 < k.
Hypothesis He : 0 < e.
Hypothesis Hsr : s < r.
Let A := (r - s) * (3 * s * s - e).
Let B := (r - s) * (2 * k * s).
Let A' := (r - s) * (3 * r * r - e).
Let B' := (r - s) * (2 * k * r).
Lemma speed_pos h z : h <> 0 -> 0 < h * (3 * z * z - e) * (h * (3 * z * z - e)) + h * (2 * k * z) * (h * (2 * k * z)).
Proof.
  intros Hh. replace (h * (3 * z * z - e) * (h * (3 * z * z - e)) + h * (2 * k * z) * (h * (2 * k * z))) with (h * h * ((3 * z * z - e) * (3 * z * z - e) + 4 * (k * k) * (z * z))) by ring. assert (HZ : forall a, a <> 0 -> 0 < a * a) by (intros a Ha; destruct (Rtotal_order a 0) as [L|[L|L]]; [nra|congruence|nra]).
  apply Rmult_lt_0_compat; [apply HZ, Hh|]. destruct (Req_dec z 0) as [->|Z]; [assert (0 < e * e) by nra; replace (3 * 0 * 0 - e) with (- e) by ring; lra|].
  assert (0 < (k * k) * (z * z)) by (apply Rmult_lt_0_compat; [nra|apply HZ, Z]). pose proof (Rle_0_sqr (3 * z * z - e)) as S0. unfold Rsqr in S0. lra.
Qed.
Lemma loop_turn : exists x, -1 <= x <= 1 /\ add (mul (px (normal (loopc e k s r) zero)) (px (normal (loopc e k s r) one))) (mul (py (normal (loopc e k s r) zero)) (py (normal (loopc e k s r) one))) = (Fin x : T RNum) /\
  (1 / 2 < x <-> 0 < dotD e k s r /\ crossC e k s r * crossC e k s r < 3 * (dotD e k s r * dotD e k s r)).
Proof.
  assert (HA : 0 < A * A + B * B) by (apply speed_pos; lra). assert (HB : 0 < A' * A' + B' * B') by (apply speed_pos; lra).
  pose proof (normal_fin _ _ _ _ (loop_derivative0 e k s r) HA) as E0. pose proof (normal_fin _ _ _ _ (loop_derivative1 e k s r) HB) as E1. fold A B in E0. fold A' B' in E1. rewrite fzero, fone. rewrite E0, E1. cbn [pnt px py]. fin. clear E0 E1.
  set (q := sqrt (A * A + B * B)). set (q' := sqrt (A' * A' + B' * B')). assert (Hq : 0 < q) by (apply sqrt_lt_R0; exact HA). assert (Hq' : 0 < q') by (apply sqrt_lt_R0; exact HB).
  assert (Q : q * q = A * A + B * B) by (apply sqrt_sqrt; lra). assert (Q' : q' * q' = A' * A' + B' * B') by (apply sqrt_sqrt; lra).
  set (D := A * A' + B * B'). set (C := A * B' - B * A'). assert (HD : D = (r - s) * (r - s) * dotD e k s r) by (unfold D, A, A', B, B', dotD; ring). assert (HC : C = (r - s) * (r - s) * crossC e k s r) by (unfold C, A, A', B, B', crossC; ring).
  assert (HP : 0 < q * q') by (apply Rmult_lt_0_compat; assumption). assert (HS : (q * q') * (q * q') = D * D + C * C). { replace (q * q' * (q * q')) with ((q * q) * (q' * q')) by ring. rewrite Q, Q'. unfold D, C. ring. }
  assert (EX : - B / q * (- B' / q') + A / q * (A' / q') = D / (q * q')) by (unfold D; field; lra). exists (D / (q * q')). split; [|split; [f_equal; exact EX|]].
  - split; [apply (Rmult_le_reg_r (q * q')); [exact HP|]|apply (Rmult_le_reg_r (q * q')); [exact HP|]]; replace (D / (q * q') * (q * q')) with D by (field; lra); nra.
  - assert (HH : 0 < (r - s) * (r - s)) by nra. assert (K1 : 1 / 2 < D / (q * q') <-> q * q' < 2 * D). { split; intros H; [apply (Rmult_lt_compat_r (q * q')) in H; [|exact HP]; replace (D / (q * q') * (q * q')) with D in H by (field; lra); lra|apply (Rmult_lt_reg_r (q * q')); [exact HP|]; replace (D / (q * q') * (q * q')) with D by (field; lra); lra]. }
    rewrite K1. assert (K2 : q * q' < 2 * D <-> 0 < D /\ C * C < 3 * (D * D)). { split; [intros H; split; nra|intros [H1 H2]]. apply Rnot_le_lt. intros L. nra. } rewrite K2.
    set (h := (r - s) * (r - s)) in *. assert (C * C = h * h * (crossC e k s r * crossC e k s r)) as -> by (rewrite HC; ring). rewrite HD. set (dd := dotD e k s r). set (cc := crossC e k s r * crossC e k s r). assert (HH2 : 0 < h * h) by nra. replace (3 * (h * dd * (h * dd))) with (h * h * (3 * (dd * dd))) by ring. split; intros [H1 H2]; split.
    + apply (Rmult_lt_reg_l h); lra.
    + apply (Rmult_lt_reg_l (h * h)); assumption.
    + apply Rmult_lt_0_compat; assumption.
    + apply Rmult_lt_compat_l; assumption.
Qed.
Lemma Ratan2_above y x : 0 < y -> 0 < Ratan2 y x.
Proof.
  intros H. pose proof PI_RGT_0. unfold Ratan2. destruct (Rlt_dec 0 x); [rewrite <- atan_0; apply atan_increasing, Rdiv_lt_0_compat; assumption|]. destruct (Rlt_dec x 0).
  - destruct (Rlt_dec y 0); [lra|]. pose proof (atan_bound (y / x)). lra.
  - destruct (Rlt_dec 0 y); lra.
Qed.
(** a part of the curve is simple exactly if it turns by less than 60 degrees *)
Lemma loop_simple : 0 < e + s * s + 2 * s * r -> 0 < e + r * r + 2 * s * r -> (simple RTrig RBMath (loopc e k s r) = true <-> 0 < dotD e k s r /\ crossC e k s r * crossC e k s r < 3 * (dotD e k s r * dotD e k s r)).
Proof.
  intros H1 H2. unfold simple. destruct loop_turn as (x & Hx & EX & HT). cbv zeta. rewrite EX. clear EX. assert (HH : 0 < (r - s) * (r - s) * (r - s) * k) by (repeat apply Rmult_lt_0_compat; lra).
  assert (A1 : exists a, angle RTrig (c_s (loopc e k s r)) (c_e (loopc e k s r)) (c_cs (loopc e k s r)) = (Fin a : T RNum) /\ 0 < a).
  { unfold angle, loopc. cbn [c_s c_cs c_e c_ce pnt px py]. fin. cbn [natan2 RTrig er_atan2]. eexists. split; [reflexivity|]. apply Ratan2_above. unfold polX, polY.
    match goal with |- 0 < ?z => replace z with ((r - s) * (r - s) * (r - s) * k * (e + s * s + 2 * s * r) / 3) by field end. apply Rdiv_lt_0_compat; [|lra]. apply Rmult_lt_0_compat; assumption. }
  assert (A2 : exists a, angle RTrig (c_s (loopc e k s r)) (c_e (loopc e k s r)) (c_ce (loopc e k s r)) = (Fin a : T RNum) /\ 0 < a).
  { unfold angle, loopc. cbn [c_s c_cs c_e c_ce pnt px py]. fin. cbn [natan2 RTrig er_atan2]. eexists. split; [reflexivity|]. apply Ratan2_above. unfold polX, polY.
    match goal with |- 0 < ?z => replace z with ((r - s) * (r - s) * (r - s) * k * (e + r * r + 2 * s * r) / 3) by field end. apply Rdiv_lt_0_compat; [|lra]. apply Rmult_lt_0_compat; assumption. }
  destruct A1 as (a1 & -> & P1). destruct A2 as (a2 & -> & P2). unfold gtb. fin. replace (Rltb a2 0) with false by (symmetry; apply Rltb_false; lra). replace (Rltb a1 0) with false by (symmetry; apply Rltb_false; lra). rewrite andb_false_r. cbn [andb orb].
  cbn [nacos RBMath]. unfold er_acos. replace (Rleb (-1) x && Rleb x 1) with true by (symmetry; apply andb_true_intro; split; apply Rleb_true; lra). unfold three. cbn [npi RTrig]. fin. rewrite fdiv by lra. cbn [nabs RNum]. unfold er_abs. rewrite (Rabs_right (acos x)) by (apply Rle_ge, acos_bound). fin. rewrite <- HT, <- acos_third by exact Hx. apply Rltb_true.
Qed.
Lemma loop_simple_only : simple RTrig RBMath (loopc e k s r) = true -> 0 < dotD e k s r /\ crossC e k s r * crossC e k s r < 3 * (dotD e k s r * dotD e k s r).
Proof.
  unfold simple. destruct loop_turn as (x & Hx & EX & HT). cbv zeta. rewrite EX. destruct (_ || _); [discriminate|]. 
  cbn [nacos RBMath]. unfold er_acos. replace (Rleb (-1) x && Rleb x 1) with true by (symmetry; apply andb_true_intro; split; apply Rleb_true; lra). unfold three. cbn [npi RTrig]. fin. rewrite fdiv by lra. cbn [nabs RNum]. unfold er_abs. rewrite (Rabs_right (acos x)) by (apply Rle_ge, acos_bound). fin. rewrite <- HT, <- acos_third by exact Hx. apply Rltb_true.
Qed.
End Turn.

(** *** runs of the second pass *)
Section Runs.
Variable tr : Trig RNum.
Variable bm : BMath RNum.
Lemma inner_break p t1 n f : (1 <= n)%nat -> (forall i, (1 <= i <= n)%nat -> simple tr bm (sec p t1 (t1 + INR i / 100)) = true) -> simple tr bm (sec p t1 (t1 + INR (S n) / 100)) = false -> t1 + INR (S n) / 100 <= 1 + 1 / 100 ->
  forall i, (1 <= i <= S n)%nat -> (S n - i < f)%nat -> innerLoop tr bm f p (Fin t1 : T RNum) (Fin (t1 + INR i / 100) : T RNum) =
    IBreak (mkCseg (sec p t1 (t1 + INR n / 100)) (mapRange (Fin t1 : T RNum) zero one (st1 p) (st2 p)) (mapRange (Fin (t1 + INR n / 100) : T RNum) zero one (st1 p) (st2 p))) (Fin (t1 + INR n / 100) : T RNum).
Proof.
  intros Hn HS HF HL. induction f as [|f IH]; intros i Hi Hf; [lia|]. cbn [innerLoop]. rewrite rstep_fin. fin.
  assert (LE : INR i <= INR (S n)) by (apply le_INR; lia). replace (Rleb (t1 + INR i / 100) (1 + 1 / 100)) with true by (symmetry; apply Rleb_true; lra). destruct (Nat.eq_dec i (S n)) as [->|NE].
  - rewrite HF. rewrite S_INR. replace (t1 + (INR n + 1) / 100 - 1 / 100) with (t1 + INR n / 100) by field. replace (t1 - (t1 + INR n / 100)) with (- (INR n / 100)) by ring. cbn [nabs RNum]. unfold er_abs. rewrite Rabs_Ropp. assert (1 <= INR n) by (change 1 with (INR 1); apply le_INR; lia). rewrite Rabs_right by lra. fin.
    replace (Rltb (INR n / 100) (1 / 100)) with false by (symmetry; apply Rltb_false; lra). reflexivity.
  - rewrite HS by lia. replace (t1 + INR i / 100 + 1 / 100) with (t1 + INR (S i) / 100) by (rewrite S_INR; field). apply IH; lia.
Qed.
Lemma inner_done p t1 : (forall i, (1 <= i)%nat -> t1 + INR i / 100 <= 1 + 1 / 100 -> simple tr bm (sec p t1 (t1 + INR i / 100)) = true) -> 0 <= t1 ->
  forall f i, (1 <= i)%nat -> (102 - i < f)%nat -> innerLoop tr bm f p (Fin t1 : T RNum) (Fin (t1 + INR i / 100) : T RNum) = IDone.
Proof.
  intros HS H0. induction f as [|f IH]; intros i Hi Hf; [lia|]. cbn [innerLoop]. rewrite rstep_fin. fin. destruct (Rleb_spec (t1 + INR i / 100) (1 + 1 / 100)) as [L|G]; [|reflexivity]. rewrite HS by assumption.
  replace (t1 + INR i / 100 + 1 / 100) with (t1 + INR (S i) / 100) by (rewrite S_INR; field). apply IH; [lia|]. assert (i <= 101)%nat by (apply INR_le; rewrite (INR_IZR_INZ 101); cbn; lra). lia.
Qed.
(** a piece that is simple as a whole *)
Lemma pass2_whole p a b fuel : st1 p = (Fin a : T RNum) -> st2 p = (Fin b : T RNum) -> (103 < fuel)%nat -> (forall i, (1 <= i <= 101)%nat -> simple tr bm (sec p 0 (INR i / 100)) = true) -> exists d, pass2 tr bm fuel p = Ok (Some [mkCseg d (Fin a : T RNum) (Fin b : T RNum)]).
Proof.
  intros E1 E2 Hf HS. unfold pass2. destruct fuel as [|f]; [lia|]. cbn [outerLoop]. rewrite rstep_fin. fin. replace (0 + 1 / 100) with (0 + INR 1 / 100) by (cbn; lra). rewrite inner_done; [|intros i Hi HL; rewrite Rplus_0_l; apply HS; split; [exact Hi|]; apply INR_le; rewrite (INR_IZR_INZ 101); cbn; lra|lra|lia|lia]. cbn [bind]. fin. replace (Rltb 0 1) with true by (symmetry; apply Rltb_true; lra).
  rewrite E1, E2, mapRange01. eexists. cbn [app]. replace (a + (b - a) * 0) with a by ring. reflexivity.
Qed.
(** a piece that is cut once *)
Lemma pass2_once p a b n fuel : st1 p = (Fin a : T RNum) -> st2 p = (Fin b : T RNum) -> (103 < fuel)%nat -> (1 <= n < 100)%nat -> (forall i, (1 <= i <= n)%nat -> simple tr bm (sec p 0 (INR i / 100)) = true) -> simple tr bm (sec p 0 (INR (S n) / 100)) = false ->
  (forall i, (1 <= i)%nat -> (n + i <= 101)%nat -> simple tr bm (sec p (INR n / 100) (INR n / 100 + INR i / 100)) = true) ->
  exists d d', pass2 tr bm fuel p = Ok (Some [mkCseg d (Fin a : T RNum) (Fin (a + (b - a) * (INR n / 100)) : T RNum); mkCseg d' (Fin (a + (b - a) * (INR n / 100)) : T RNum) (Fin b : T RNum)]).
Proof.
  intros E1 E2 Hf Hn HS HF HS2. unfold pass2. destruct fuel as [|f]; [lia|]. cbn [outerLoop]. rewrite rstep_fin. fin. replace (0 + 1 / 100) with (0 + INR 1 / 100) by (cbn; lra).
  assert (LN : INR (S n) <= 100) by (replace 100 with (INR 100) by (rewrite INR_IZR_INZ; reflexivity); apply le_INR; lia). assert (L1 : 1 <= INR n) by (change 1 with (INR 1); apply le_INR; lia). rewrite (inner_break p 0 n); [|lia|intros i Hi; rewrite Rplus_0_l; apply HS; lia|rewrite Rplus_0_l; exact HF|lra|lia|lia]. rewrite S_INR in LN. fin.
  replace (Rleb (0 + INR n / 100) 1) with true by (symmetry; apply Rleb_true; lra). destruct f as [|f]; [lia|]. cbn [outerLoop]. rewrite rstep_fin. fin. rewrite !Rplus_0_l. replace (INR n / 100 + 1 / 100) with (INR n / 100 + INR 1 / 100) by (cbn; lra).
  rewrite inner_done; [|intros i Hi HL; apply HS2; [exact Hi|]; apply INR_le; rewrite plus_INR, (INR_IZR_INZ 101); cbn; lra|lra|lia|lia]. cbn [bind]. fin. replace (Rltb (INR n / 100) 1) with true by (symmetry; apply Rltb_true; lra).
  rewrite E1, E2, !mapRange01. do 2 eexists. cbn [app]. replace (a + (b - a) * 0) with a by ring. reflexivity.
Qed.
(** a piece that turns too much at its end *)
Lemma outer_up p f : (forall n, (n < 100)%nat -> simple tr bm (sec p (INR n / 100) 1) = false) -> forall k o, (k < 100)%nat -> outerLoop tr bm f p (Fin (INR k / 100) : T RNum) = Ok o -> o = None.
Proof.
  intros HS. induction f as [|f IH]; intros k o Hk; cbn [outerLoop]; [discriminate|]. rewrite rstep_fin. fin. pose proof (inner_spec tr bm f p (INR k / 100) 1 ltac:(intros j Hj; lia) (le_n 1)) as HI. replace (INR k / 100 + INR 1 / 100) with (INR k / 100 + 1 / 100) in HI by (cbn; lra).
  destruct (innerLoop tr bm f p _ _) as [| |s t2|]; try discriminate; [|intros [= <-]; reflexivity|].
  - exfalso. specialize (HI (100 - k)%nat ltac:(lia)). rewrite minus_INR in HI by lia. replace (INR k / 100 + (INR 100 - INR k) / 100) with 1 in HI by (rewrite (INR_IZR_INZ 100); cbn; lra). rewrite HS in HI by exact Hk. specialize (HI (Rle_refl 1)). discriminate.
  - destruct HI as (j & Hj & -> & HL & HSJ & _). replace (INR k / 100 + INR j / 100) with (INR (k + j) / 100) in * by (rewrite plus_INR; lra). fin. replace (Rleb (INR (k + j) / 100) 1) with true by (symmetry; apply Rleb_true; lra).
    assert (HK : (k + j <= 100)%nat) by (apply INR_le; rewrite (INR_IZR_INZ 100); cbn; lra). destruct (Nat.eq_dec (k + j) 100) as [E|E].
    + exfalso. rewrite E in HSJ. replace (INR 100 / 100) with 1 in HSJ by (rewrite (INR_IZR_INZ 100); cbn; lra). rewrite HS in HSJ by exact Hk. discriminate.
    + destruct (outerLoop tr bm f p (Fin (INR (k + j) / 100) : T RNum)) as [o'| | |] eqn:EO; cbn [bind]; try discriminate. rewrite (IH (k + j)%nat o' ltac:(lia) EO). intros [= <-]. reflexivity.
Qed.
Lemma gives_up fuel c p l : In p (pass1 c) -> (forall n, (n < 100)%nat -> simple tr bm (sec p (INR n / 100) 1) = false) -> reduce tr bm fuel c = Ok l -> l = [].
Proof.
  intros HI HS. unfold reduce. assert (G : forall ps acc, In p ps -> reduceLoop tr bm fuel ps acc = Ok l -> l = []); [|apply G; exact HI]. clear HI. induction ps as [|q ps IH]; intros acc HI; [destruct HI|]. cbn [reduceLoop]. destruct HI as [->|HI].
  - unfold pass2. assert (E0 : @zero RNum = Fin (INR 0 / 100)) by (cbn; f_equal; lra). rewrite E0. destruct (outerLoop tr bm fuel p _) as [o| | |] eqn:EO; cbn [bind]; try discriminate. rewrite (outer_up p fuel HS 0%nat o ltac:(lia) EO). cbn [bind]. intros [= <-]. reflexivity.
  - destruct (pass2 tr bm fuel q) as [[s|]| | |]; cbn [bind]; try discriminate; [apply IH, HI|intros [= <-]; reflexivity].
Qed.
End Runs.

(** *** the first pass *)
Lemma loop_params k b R : 0 < k -> 0 < b < R -> reduceParams (loopc (3 * b * b) k (- R) R) = map Fin [0; 1 / 2 - b / (2 * R); 1 / 2; 1 / 2 + b / (2 * R); 1].
Proof.
  intros Hk HR. assert (HB : 0 < b / (2 * R) < 1 / 2). { split; [apply Rdiv_lt_0_compat; lra|]. apply (Rmult_lt_reg_r (2 * R)); [lra|]. replace (b / (2 * R) * (2 * R)) with b by (field; lra). lra. }
  assert (Ein : forall t, 0 <= t <= 1 -> in01 (Fin t : T RNum) = true) by (intros t Ht; apply in01_true; exact Ht).
  assert (EX : extremaX (loopc (3 * b * b) k (- R) R) = map Fin [1 / 2 + b / (2 * R); 1 / 2 - b / (2 * R); 1 / 2]).
  { transitivity (extrema1 (N := RNum) (Fin (2 * R * (3 * R * R - 3 * b * b)), Fin (2 * R * (- 3 * R * R - 3 * b * b)), Fin (2 * R * (3 * R * R - 3 * b * b))) (Fin (- 24 * R * R * R), Fin (24 * R * R * R))).
    - unfold extremaX, derive2, derive1, dpt, loopc, pnt, three, two, polX, polY. cbn [c_s c_cs c_e c_ce px py]. fin. repeat (f_equal; try field).
    - assert (P3 : 0 < R * R * R) by (repeat apply Rmult_lt_0_compat; lra). unfold extrema1, droots3, droots2, two. fin.
      replace (2 * R * (3 * R * R - 3 * b * b) - 2 * (2 * R * (-3 * R * R - 3 * b * b)) + 2 * R * (3 * R * R - 3 * b * b)) with (24 * (R * R * R)) by ring.
      replace (Reqb (24 * (R * R * R)) 0) with false by (symmetry; apply Reqb_false; lra). cbn [negb].
      assert (EQ : 2 * R * (-3 * R * R - 3 * b * b) * (2 * R * (-3 * R * R - 3 * b * b)) - 2 * R * (3 * R * R - 3 * b * b) * (2 * R * (3 * R * R - 3 * b * b)) = 12 * R * R * b * (12 * R * R * b)) by ring. rewrite EQ.
      assert (P2 : 0 <= 12 * R * R * b) by (repeat apply Rmult_le_pos; lra). rewrite fsqrt by (apply Rmult_le_pos; assumption). rewrite sqrt_square by exact P2. fin. rewrite !(fdiv _ (24 * (R * R * R))) by lra. replace (Reqb (-24 * R * R * R) (24 * R * R * R)) with false by (symmetry; apply Reqb_false; nra). cbn [negb]. rewrite fdiv by nra. cbn [app].
      replace (- (- (12 * R * R * b) + (- (2 * R * (3 * R * R - 3 * b * b)) + 2 * R * (-3 * R * R - 3 * b * b))) / (24 * (R * R * R))) with (1 / 2 + b / (2 * R)) by (field; lra).
      replace (- (- - (12 * R * R * b) + (- (2 * R * (3 * R * R - 3 * b * b)) + 2 * R * (-3 * R * R - 3 * b * b))) / (24 * (R * R * R))) with (1 / 2 - b / (2 * R)) by (field; lra).
      replace (-24 * R * R * R / (-24 * R * R * R - 24 * R * R * R)) with (1 / 2) by (field; lra). cbn [filter]. rewrite !Ein by lra. reflexivity. }
  assert (EY : extremaY (loopc (3 * b * b) k (- R) R) = map Fin [1 / 2]).
  { assert (P2 : 0 < k * R * R) by (repeat apply Rmult_lt_0_compat; lra). transitivity (extrema1 (N := RNum) (Fin (- 4 * k * R * R), Fin 0, Fin (4 * k * R * R)) (Fin (8 * k * R * R), Fin (8 * k * R * R))).
    - unfold extremaY, derive2, derive1, dpt, loopc, pnt, three, two, polX, polY. cbn [c_s c_cs c_e c_ce px py]. fin. repeat (f_equal; try field).
    - unfold extrema1, droots3, droots2, two. fin. replace (-4 * k * R * R - 2 * 0 + 4 * k * R * R) with 0 by ring. replace (Reqb 0 0) with true by (symmetry; apply Reqb_true; reflexivity). replace (Reqb 0 (4 * k * R * R)) with false by (symmetry; apply Reqb_false; lra). cbn [negb andb]. replace (Reqb (8 * k * R * R) (8 * k * R * R)) with true by (symmetry; apply Reqb_true; reflexivity). cbn [negb app].
      rewrite fdiv by lra. replace ((2 * 0 - 4 * k * R * R) / (2 * (0 - 4 * k * R * R))) with (1 / 2) by (field; lra). cbn [filter]. rewrite Ein by lra. reflexivity. }
  unfold reduceParams. rewrite EX, EY. cbn [map app]. set (x := b / (2 * R)) in *. unfold Float64ArrayDeDup. cbn [Float64ArrayDeDup_loop existsb]. fin.
  assert (NE : forall a c, a <> c -> Reqb a c = false) by (intros a c H; apply Reqb_false; exact H). assert (RE : forall a, Reqb a a = true) by (intros a; apply Reqb_true; reflexivity).
  repeat (progress (cbn [Float64ArrayDeDup_loop existsb orb]; fin; rewrite ?RE; repeat match goal with |- context [Reqb ?a ?c] => rewrite (NE a c) by lra end)).
  cbn [sortF insertF fold_right]. fin. assert (LT : forall a c, a < c -> Rltb a c = true) by (intros a c H; apply Rltb_true; exact H). assert (GE : forall a c, c <= a -> Rltb a c = false) by (intros a c H; apply Rltb_false; lra).
  repeat (progress (cbn [insertF]; fin; repeat match goal with |- context [Rltb ?a ?c] => first [rewrite (LT a c) by lra|rewrite (GE a c) by lra] end)). reflexivity.
Qed.
Lemma loop_pass1 k b R : 0 < k -> 0 < b < R -> let e := 3 * b * b in let t := b / (2 * R) in
  pass1 (loopc e k (- R) R) = [mkCseg (loopc e k (- R) (- b)) (Fin 0 : T RNum) (Fin (1 / 2 - t) : T RNum); mkCseg (loopc e k (- b) 0) (Fin (1 / 2 - t) : T RNum) (Fin (1 / 2) : T RNum);
    mkCseg (loopc e k 0 b) (Fin (1 / 2) : T RNum) (Fin (1 / 2 + t) : T RNum); mkCseg (loopc e k b R) (Fin (1 / 2 + t) : T RNum) (Fin 1 : T RNum)].
Proof.
  intros Hk HR e t. assert (HB : 0 < t < 1 / 2). { unfold t. split; [apply Rdiv_lt_0_compat; lra|]. apply (Rmult_lt_reg_r (2 * R)); [lra|]. replace (b / (2 * R) * (2 * R)) with b by (field; lra). lra. }
  unfold pass1, e. rewrite loop_params by assumption. fold t e. cbn [map splitBetween]. rewrite !loop_sec by lra.
  assert (ET : 2 * R * t = b) by (unfold t; field; lra). assert (G : forall s r s' r' (a c : T RNum) l l', s = s' -> r = r' -> l = l' -> mkCseg (loopc e k s r) a c :: l = mkCseg (loopc e k s' r') a c :: l') by (intros ? ? ? ? ? ? ? ? -> -> ->; reflexivity).
  repeat (apply G; [lra|lra|]). reflexivity.
Qed.
