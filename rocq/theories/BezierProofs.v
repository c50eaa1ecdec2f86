(** Exact-arithmetic facts about the Bezier model: evaluation, splitting, extrema, the bounding box. *)
From Coq Require Import List ZArith Bool Reals Lra Psatz Lia.
From Verif Require Import Num RealNum PathModel SegOps Bezier PathSpec GeomSpec.
Import ListNotations.
Local Open Scope R_scope.

(** computing with finite numbers *)
Lemma fadd x y : @add RNum (Fin x) (Fin y) = Fin (x + y). Proof. reflexivity. Qed.
Lemma fsub x y : @sub RNum (Fin x) (Fin y) = Fin (x - y). Proof. reflexivity. Qed.
Lemma fmul x y : @mul RNum (Fin x) (Fin y) = Fin (x * y). Proof. reflexivity. Qed.
Lemma fopp x : @opp RNum (Fin x) = Fin (- x). Proof. reflexivity. Qed.
Lemma fofZ z : @ofZ RNum z = Fin (IZR z). Proof. reflexivity. Qed.
Lemma fzero : @zero RNum = Fin 0. Proof. reflexivity. Qed.
Lemma fone : @one RNum = Fin 1. Proof. reflexivity. Qed.
Lemma fdiv x y : y <> 0 -> @div RNum (Fin x) (Fin y) = Fin (x / y).
Proof. intros H. cbn. unfold er_div. destruct (Reqb_spec y 0); [contradiction|reflexivity]. Qed.
Lemma feqb x y : @eqb RNum (Fin x) (Fin y) = Reqb x y. Proof. reflexivity. Qed.
Lemma fltb x y : @ltb RNum (Fin x) (Fin y) = Rltb x y. Proof. reflexivity. Qed.
Lemma fleb x y : @leb RNum (Fin x) (Fin y) = Rleb x y. Proof. reflexivity. Qed.
Lemma fsqrt x : 0 <= x -> @nsqrt RNum (Fin x) = Fin (sqrt x).
Proof. intros H. cbn. unfold er_sqrt. destruct (Rltb_spec x 0); [lra|reflexivity]. Qed.

Ltac fin := repeat (rewrite ?fadd, ?fsub, ?fmul, ?fopp, ?fofZ, ?fzero, ?fone, ?feqb, ?fltb, ?fleb).

Lemma pnt_eta p : finitePt p -> p = pnt (X p) (Y p). Proof. auto. Qed.
Lemma px_fin p : finitePt p -> px p = Fin (X p). Proof. unfold finitePt. intros H. rewrite H at 1. reflexivity. Qed.
Lemma py_fin p : finitePt p -> py p = Fin (Y p). Proof. unfold finitePt. intros H. rewrite H at 1. reflexivity. Qed.

Definition finiteCrv (c : crv RNum) : Prop :=
  finitePt (c_s c) /\ finitePt (c_cs c) /\ finitePt (c_e c) /\ finitePt (c_ce c).
Definition curveX (c : crv RNum) (t : R) : R := cubic (X (c_s c)) (X (c_cs c)) (X (c_ce c)) (X (c_e c)) t.
Definition curveY (c : crv RNum) (t : R) : R := cubic (Y (c_s c)) (Y (c_cs c)) (Y (c_ce c)) (Y (c_e c)) t.

Lemma FindPoint_spec c t : finiteCrv c -> FindPoint c (Fin t) = pnt (curveX c t) (curveY c t).
Proof.
  intros (H1 & H2 & H3 & H4). unfold FindPoint, bernstein, two, three, curveX, curveY, cubic.
  rewrite fzero, fone, !feqb.
  destruct (Reqb_spec t 0) as [->|H0].
  - transitivity (pnt (X (c_s c)) (Y (c_s c))); [exact H1|]. unfold pnt. f_equal; f_equal; ring.
  - destruct (Reqb_spec t 1) as [->|H0'].
    + transitivity (pnt (X (c_e c)) (Y (c_e c))); [exact H3|]. unfold pnt. f_equal; f_equal; ring.
    + rewrite !(px_fin _ H1), !(px_fin _ H2), !(px_fin _ H3), !(px_fin _ H4),
              !(py_fin _ H1), !(py_fin _ H2), !(py_fin _ H3), !(py_fin _ H4).
      fin. unfold pnt. f_equal; f_equal; ring.
Qed.

Lemma DeCasteljau_spec c t : finiteCrv c -> DeCasteljau c (Fin t) = Ok (pnt (curveX c t) (curveY c t)).
Proof.
  intros (H1 & H2 & H3 & H4). unfold DeCasteljau, curveArray. cbn [deCasteljau casteljauRound].
  cbn [px py]. rewrite !(px_fin _ H1), !(px_fin _ H2), !(px_fin _ H3), !(px_fin _ H4),
              !(py_fin _ H1), !(py_fin _ H2), !(py_fin _ H3), !(py_fin _ H4).
  fin. unfold pnt, curveX, curveY, cubic. do 2 f_equal; f_equal; ring.
Qed.

(** ** the extrema of a cubic *)
Definition dquad (a b c t : R) : R := (1 - t) ^ 2 * a + 2 * (1 - t) * t * b + t ^ 2 * c.
Lemma cubic_derivable a b c d t :
  derivable_pt_lim (cubic a b c d) t (dquad (3 * (b - a)) (3 * (c - b)) (3 * (d - c)) t).
Proof.
  set (p := fun t => a + 3 * (b - a) * t + 3 * (a - 2 * b + c) * t ^ 2 + (d - 3 * c + 3 * b - a) * t ^ 3).
  assert (E : forall z, p z = cubic a b c d z) by (intros; unfold p, cubic; ring).
  assert (D : derivable_pt_lim p t (3 * (b - a) + 3 * (a - 2 * b + c) * (2 * t) + (d - 3 * c + 3 * b - a) * (3 * t ^ 2))).
  { unfold p.
    replace (3 * (b - a) + 3 * (a - 2 * b + c) * (2 * t) + (d - 3 * c + 3 * b - a) * (3 * t ^ 2))
      with (0 + 3 * (b - a) * 1 + 3 * (a - 2 * b + c) * (INR 2 * t ^ 1) + (d - 3 * c + 3 * b - a) * (INR 3 * t ^ 2)).
    2:{ simpl INR. ring. }
    apply (derivable_pt_lim_plus (fun t => a + 3 * (b - a) * t + 3 * (a - 2 * b + c) * t ^ 2)
                                 (fun t => (d - 3 * c + 3 * b - a) * t ^ 3)).
    apply (derivable_pt_lim_plus (fun t => a + 3 * (b - a) * t) (fun t => 3 * (a - 2 * b + c) * t ^ 2)).
    apply (derivable_pt_lim_plus (fun t => a) (fun t => 3 * (b - a) * t)).
    apply derivable_pt_lim_const.
    apply (derivable_pt_lim_scal (fun t => t)). apply derivable_pt_lim_id.
    apply (derivable_pt_lim_scal (fun t => t ^ 2)). apply (derivable_pt_lim_pow t 2).
    apply (derivable_pt_lim_scal (fun t => t ^ 3)). apply (derivable_pt_lim_pow t 3). }
  replace (dquad _ _ _ _) with (3 * (b - a) + 3 * (a - 2 * b + c) * (2 * t) + (d - 3 * c + 3 * b - a) * (3 * t ^ 2)) by (unfold dquad; ring).
  intros eps He. destruct (D eps He) as [del Hd]. exists del. intros h Hh Hlt. rewrite <- !E. apply Hd; auto.
Qed.

Lemma droots3_complete a b c t : dquad a b c t = 0 -> ~ (a = 0 /\ b = 0 /\ c = 0) ->
  In (Fin t) (@droots3 RNum (Fin a) (Fin b) (Fin c)).
Proof.
  intros H Hn. unfold droots3, two. fin. destruct (Reqb_spec (a - 2 * b + c) 0) as [E|E]; cbn [negb].
  - destruct (Reqb_spec b c) as [E'|E']; cbn [negb andb].
    + exfalso. apply Hn. assert (a = c) by lra. subst. assert (dquad c c c t = c) by (unfold dquad; ring). lra.
    + left. rewrite fdiv by lra. f_equal. apply Rmult_eq_reg_r with (2 * (b - c)); [|lra].
      unfold Rdiv. rewrite Rmult_assoc, Rinv_l by lra.
      unfold dquad in H. assert (a = 2 * b - c) by lra. subst a. nra.
  - set (q := b * b - a * c).
    assert (Hq : 0 <= q). { unfold q, dquad in *. 
      assert (((a - 2 * b + c) * t + (b - a)) ^ 2 = b * b - a * c) by nra.
      rewrite <- H0. apply pow2_ge_0. }
    rewrite fsqrt by auto. fin. rewrite !fdiv by auto.
    assert (Hs : sqrt q * sqrt q = q) by (apply sqrt_sqrt; auto).
    assert (Hz : ((a - 2 * b + c) * t + (b - a) - sqrt q) * ((a - 2 * b + c) * t + (b - a) + sqrt q) = 0).
    { replace (((a - 2 * b + c) * t + (b - a) - sqrt q) * ((a - 2 * b + c) * t + (b - a) + sqrt q))
        with (((a - 2 * b + c) * t + (b - a)) ^ 2 - sqrt q * sqrt q) by ring. rewrite Hs.
      unfold q, dquad in *. nra. }
    apply Rmult_integral in Hz. destruct Hz as [Hz|Hz]; [left | right; left]; f_equal;
      (apply Rmult_eq_reg_r with (a - 2 * b + c); [|auto]); unfold Rdiv; rewrite Rmult_assoc, Rinv_l by auto; lra.
Qed.

Lemma in01_fin x : @in01 RNum x = true -> exists t, x = Fin t /\ 0 <= t <= 1.
Proof.
  unfold in01, geb. destruct x as [t|s|]; fin.
  - destruct (Rleb_spec 0 t), (Rleb_spec t 1); cbn; intros; try discriminate. eauto.
  - destruct s; cbn; discriminate.
  - cbn. discriminate.
Qed.
Lemma in01_true t : 0 <= t <= 1 -> @in01 RNum (Fin t) = true.
Proof. intros H. unfold in01, geb. fin. destruct (Rleb_spec 0 t), (Rleb_spec t 1); cbn; auto; lra. Qed.

Lemma InsertIfAbsent_in (l : list ER) x y :
  In y (@Float64ArrayInsertIfAbsent RNum l (Fin x)) <-> In y l \/ y = Fin x.
Proof.
  unfold Float64ArrayInsertIfAbsent, Float64ArrayContains. destruct (existsb _ _) eqn:E.
  - apply existsb_exists in E. destruct E as (z & Hz & E). destruct z as [z|s|]; cbn in E; try discriminate.
    apply Reqb_true in E. subst z. split; [tauto|]. intros [H| ->]; auto.
  - rewrite in_app_iff. simpl. intuition.
Qed.

Lemma withEnds_fin l x : (forall y, In y l -> exists t, y = Fin t /\ 0 <= t <= 1) ->
  In x (@withEnds RNum l) -> exists t, x = Fin t /\ 0 <= t <= 1.
Proof.
  intros H Hx. unfold withEnds in Hx. rewrite fone, fzero in Hx. apply InsertIfAbsent_in in Hx.
  destruct Hx as [Hx| ->]; [|exists 1; split; auto; lra].
  apply InsertIfAbsent_in in Hx. destruct Hx as [Hx| ->]; [|exists 0; split; auto; lra]. auto.
Qed.

Lemma minOf_spec (xs : list R) : (exists x, In x xs /\ x < 2 ^ 63) ->
  exists m, @minOf RNum (map Fin xs) = Fin m /\ In m xs /\ forall x, In x xs -> m <= x.
Proof.
  unfold minOf. rewrite fofZ. intros Hex.
  assert (G : forall l acc, exists m, fold_left (@minStep RNum) (map Fin l) (Fin acc) = Fin m /\
            (m = acc \/ In m l) /\ m <= acc /\ forall x, In x l -> m <= x).
  { induction l as [|y l IH]; intros acc; cbn [map fold_left].
    - exists acc. simpl. repeat split; auto; try lra; tauto.
    - assert (E : @minStep RNum (Fin acc) (Fin y) = Fin (if Rltb y acc then y else acc)).
      { unfold minStep. fin. destruct (Rltb y acc); auto. }
      rewrite E. destruct (IH (if Rltb y acc then y else acc)) as (m & Hm & Hi & Hle & Hall).
      exists m. rewrite Hm. destruct (Rltb_spec y acc); simpl; repeat split; auto.
      + destruct Hi; auto.
      + lra.
      + intros x [->|Hx]; auto; lra.
      + destruct Hi; auto.
      + intros x [->|Hx]; auto. lra. }
  destruct (G xs (IZR (2 ^ 63))) as (m & Hm & Hi & Hle & Hall). exists m. split; [exact Hm|split; [|auto]].
  destruct Hi as [-> |]; auto. destruct Hex as (x & Hx & Hlt). apply Hall in Hx.
  exfalso. change (IZR (2 ^ 63)) with 9223372036854775808 in Hx. lra.
Qed.

Lemma maxOf_spec (xs : list R) : (exists x, In x xs /\ - 2 ^ 63 < x) ->
  exists m, @maxOf RNum (map Fin xs) = Fin m /\ In m xs /\ forall x, In x xs -> x <= m.
Proof.
  unfold maxOf. rewrite fofZ. intros Hex.
  assert (G : forall l acc, exists m, fold_left (@maxStep RNum) (map Fin l) (Fin acc) = Fin m /\
            (m = acc \/ In m l) /\ acc <= m /\ forall x, In x l -> x <= m).
  { induction l as [|y l IH]; intros acc; cbn [map fold_left].
    - exists acc. simpl. repeat split; auto; try lra; tauto.
    - assert (E : @maxStep RNum (Fin acc) (Fin y) = Fin (if Rltb acc y then y else acc)).
      { unfold maxStep, gtb. fin. destruct (Rltb acc y); auto. }
      rewrite E. destruct (IH (if Rltb acc y then y else acc)) as (m & Hm & Hi & Hle & Hall).
      exists m. rewrite Hm. destruct (Rltb_spec acc y); simpl; repeat split; auto.
      + destruct Hi; auto.
      + lra.
      + intros x [->|Hx]; auto; lra.
      + destruct Hi; auto.
      + intros x [->|Hx]; auto. lra. }
  destruct (G xs (IZR (- (2 ^ 63)))) as (m & Hm & Hi & Hle & Hall). exists m. split; [exact Hm|split; [|auto]].
  destruct Hi as [-> |]; auto. destruct Hex as (x & Hx & Hlt). apply Hall in Hx.
  exfalso. change (IZR (- (2 ^ 63))) with (-9223372036854775808) in Hx. lra.
Qed.

Definition cubicSet (a b c d x : R) : Prop := exists t, 0 <= t <= 1 /\ x = cubic a b c d t.

(** a finite set of parameters that contains 0, 1 and all stationary points finds both extremes *)
Lemma extremes_found a b c d (l : list R) :
  (forall t, In t l -> 0 <= t <= 1) -> In 0 l -> In 1 l ->
  (forall t, 0 <= t <= 1 -> dquad (3 * (b - a)) (3 * (c - b)) (3 * (d - c)) t = 0 ->
     ~ (3 * (b - a) = 0 /\ 3 * (c - b) = 0 /\ 3 * (d - c) = 0) -> In t l) ->
  forall lo hi, In lo (map (cubic a b c d) l) -> In hi (map (cubic a b c d) l) ->
    (forall x, In x (map (cubic a b c d) l) -> lo <= x <= hi) ->
  range (cubicSet a b c d) lo hi.
Proof.
  intros Hl H0 H1 Hst lo hi Hlo Hhi Hb.
  assert (Hcont : forall t, continuity_pt (cubic a b c d) t).
  { intros t. apply derivable_continuous_pt. exists (dquad (3 * (b - a)) (3 * (c - b)) (3 * (d - c)) t). apply cubic_derivable. }
  assert (Hext : forall m, 0 <= m <= 1 ->
     (forall t, 0 <= t <= 1 -> cubic a b c d m <= cubic a b c d t) \/ (forall t, 0 <= t <= 1 -> cubic a b c d t <= cubic a b c d m) ->
     In (cubic a b c d m) (map (cubic a b c d) l)).
  { intros m Hm Hx. destruct (Req_dec m 0) as [->|N0]; [apply in_map; auto|]. destruct (Req_dec m 1) as [->|N1]; [apply in_map; auto|].
    assert (D : dquad (3 * (b - a)) (3 * (c - b)) (3 * (d - c)) m = 0).
    { pose proof (cubic_derivable a b c d m) as D.
      pose (pr := exist _ _ D : derivable_pt (cubic a b c d) m).
      destruct Hx as [Hx|Hx].
      - rewrite <- (deriv_minimum (cubic a b c d) 0 1 m pr); auto; try lra; try (intros; apply Hx; lra).
      - rewrite <- (deriv_maximum (cubic a b c d) 0 1 m pr); auto; try lra; try (intros; apply Hx; lra). }
    destruct (Req_dec (3 * (b - a)) 0) as [Ea|Ea]; [|apply in_map, Hst; auto; tauto].
    destruct (Req_dec (3 * (c - b)) 0) as [Eb|Eb]; [|apply in_map, Hst; auto; tauto].
    destruct (Req_dec (3 * (d - c)) 0) as [Ec|Ec]; [|apply in_map, Hst; auto; tauto].
    replace (cubic a b c d m) with (cubic a b c d 0); [apply in_map; auto|].
    assert (b = a) by lra. assert (c = a) by lra. assert (d = a) by lra. subst. unfold cubic. ring. }
  split; [|split].
  - intros x (t & Ht & ->).
    destruct (continuity_ab_min (cubic a b c d) 0 1) as (m & Hm & Hm'); [lra|auto|].
    destruct (continuity_ab_maj (cubic a b c d) 0 1) as (M & HM & HM'); [lra|auto|].
    pose proof (Hb _ (Hext m Hm' (or_introl Hm))). pose proof (Hb _ (Hext M HM' (or_intror HM))).
    pose proof (Hm t Ht). pose proof (HM t Ht). lra.
  - apply in_map_iff in Hlo. destruct Hlo as (t & <- & Ht). exists t. split; auto.
  - apply in_map_iff in Hhi. destruct Hhi as (t & <- & Ht). exists t. split; auto.
Qed.

Lemma fin_list (l : list ER) : (forall y, In y l -> exists t, y = Fin t /\ 0 <= t <= 1) ->
  exists ts, l = map Fin ts /\ forall t, In t ts -> 0 <= t <= 1.
Proof.
  induction l as [|y l IH]; intros H.
  - exists []. split; auto. simpl. tauto.
  - destruct (H y) as (t & -> & Ht); [left; auto|]. destruct IH as (ts & -> & Hts); [intros; apply H; right; auto|].
    exists (t :: ts). split; auto. intros x [<-|Hx]; auto.
Qed.

Lemma In_map_Fin t ts : In (Fin t) (map Fin ts) -> In t ts.
Proof. intros H. apply in_map_iff in H. destruct H as (x & E & Hx). injection E as ->. auto. Qed.

(** the parameters looked at in one dimension *)
Lemma params_spec a b c d q0 q1 :
  exists ts, @withEnds RNum (@extrema1 RNum (Fin (3 * (b - a)), Fin (3 * (c - b)), Fin (3 * (d - c))) (q0, q1)) = map Fin ts /\
    (forall t, In t ts -> 0 <= t <= 1) /\ In 0 ts /\ In 1 ts /\
    (forall t, 0 <= t <= 1 -> dquad (3 * (b - a)) (3 * (c - b)) (3 * (d - c)) t = 0 ->
     ~ (3 * (b - a) = 0 /\ 3 * (c - b) = 0 /\ 3 * (d - c) = 0) -> In t ts).
Proof.
  set (L := @withEnds RNum _).
  assert (HL : forall y, In y L -> exists t, y = Fin t /\ 0 <= t <= 1).
  { intros y Hy. apply (withEnds_fin _ _) in Hy; auto. intros z Hz. unfold extrema1 in Hz.
    apply filter_In in Hz. apply in01_fin. tauto. }
  destruct (fin_list _ HL) as (ts & E & Hts). exists ts. split; [auto|]. split; [auto|].
  assert (HI : forall y, In y L <-> In y (@extrema1 RNum (Fin (3 * (b - a)), Fin (3 * (c - b)), Fin (3 * (d - c))) (q0, q1) : list (T RNum))
                                \/ y = Fin 0 \/ y = Fin 1).
  { intros y. unfold L, withEnds. rewrite fone, fzero, !InsertIfAbsent_in. tauto. }
  rewrite E in HI. split; [|split].
  - apply In_map_Fin, HI. auto.
  - apply In_map_Fin, HI. auto.
  - intros t Ht Hd Hn. apply In_map_Fin, HI. left. unfold extrema1. apply filter_In. split; [|apply in01_true; auto].
    apply in_app_iff. left. apply droots3_complete; auto.
Qed.

Lemma cubic_bounded a b c d t M : Rabs a < M -> Rabs b < M -> Rabs c < M -> Rabs d < M -> 0 <= t <= 1 -> Rabs (cubic a b c d t) < M.
Proof.
  intros Ha Hb Hc Hd Ht. apply Rabs_def2 in Ha, Hb, Hc, Hd.
  assert (W : (1 - t) ^ 3 + 3 * (1 - t) ^ 2 * t + 3 * (1 - t) * t ^ 2 + t ^ 3 = 1) by ring.
  set (w0 := (1 - t) ^ 3) in *. set (w1 := 3 * (1 - t) ^ 2 * t) in *. set (w2 := 3 * (1 - t) * t ^ 2) in *. set (w3 := t ^ 3) in *.
  assert (0 <= w0) by (apply pow_le; lra). assert (0 <= w3) by (apply pow_le; lra).
  assert (0 <= w1) by (unfold w1; pose proof (pow2_ge_0 (1 - t)); nra).
  assert (0 <= w2) by (unfold w2; pose proof (pow2_ge_0 t); nra).
  unfold cubic. fold w0 w1 w2 w3.
  replace (3 * (1 - t) ^ 2 * t) with w1 by reflexivity. replace (3 * (1 - t) * t ^ 2) with w2 by reflexivity.
  assert (w0 > 0 \/ w3 > 0).
  { destruct (Rle_lt_dec t (1/2)); [left|right]; unfold w0, w3; apply pow_lt; lra. }
  apply Rabs_def1; nra.
Qed.

Lemma box1_spec a b c d q0 q1 (f : T RNum -> T RNum) M : M = 2 ^ 63 ->
  Rabs a < M -> Rabs b < M -> Rabs c < M -> Rabs d < M ->
  (forall t, f (Fin t) = Fin (cubic a b c d t)) ->
  let xs := map f (@withEnds RNum (@extrema1 RNum (Fin (3 * (b - a)), Fin (3 * (c - b)), Fin (3 * (d - c))) (q0, q1))) in
  exists lo hi, @minOf RNum xs = Fin lo /\ @maxOf RNum xs = Fin hi /\ range (cubicSet a b c d) lo hi.
Proof.
  intros -> Ha Hb Hc Hd Hf. destruct (params_spec a b c d q0 q1) as (ts & E & Hts & H0 & H1 & Hst). cbv zeta. rewrite E.
  assert (Em : map f (map Fin ts) = map Fin (map (cubic a b c d) ts)).
  { rewrite !map_map. apply map_ext. auto. }
  rewrite Em.
  assert (C0 : Rabs (cubic a b c d 0) < 2 ^ 63) by (apply cubic_bounded; auto; lra). apply Rabs_def2 in C0.
  destruct (minOf_spec (map (cubic a b c d) ts)) as (lo & E1 & I1 & B1).
  { exists (cubic a b c d 0). split; [apply in_map; auto|lra]. }
  destruct (maxOf_spec (map (cubic a b c d) ts)) as (hi & E2 & I2 & B2).
  { exists (cubic a b c d 0). split; [apply in_map; auto|lra]. }
  exists lo, hi. split; [auto|split; [auto|]]. apply (extremes_found a b c d ts); auto.
Qed.

Definition smallCrv (c : crv RNum) : Prop := small (c_s c) /\ small (c_cs c) /\ small (c_e c) /\ small (c_ce c).

Lemma projX_curve c x : projX (onSeg (crvSeg c)) x <-> cubicSet (X (c_s c)) (X (c_cs c)) (X (c_ce c)) (X (c_e c)) x.
Proof. unfold projX, onSeg, cubicSet, crvSeg. split; [intros (y & t & Ht & H & _); eauto | intros (t & Ht & H); eauto 6]. Qed.
Lemma projY_curve c x : projY (onSeg (crvSeg c)) x <-> cubicSet (Y (c_s c)) (Y (c_cs c)) (Y (c_ce c)) (Y (c_e c)) x.
Proof. unfold projY, onSeg, cubicSet, crvSeg. split; [intros (y & t & Ht & _ & H); eauto | intros (t & Ht & H); eauto 6]. Qed.

(** the box of a curve is the smallest rectangle around its points *)
Lemma BoundingBox_tight c : finiteCrv c -> smallCrv c ->
  tightBox (onSeg (crvSeg c)) (fst (BoundingBox c)) (snd (BoundingBox c)).
Proof.
  intros Hf Hs. pose proof Hf as (F1 & F2 & F3 & F4). pose proof Hs as ([S1 S1'] & [S2 S2'] & [S3 S3'] & [S4 S4']).
  assert (EX : exists q0 q1, extremaX c = @extrema1 RNum (Fin (3 * (X (c_cs c) - X (c_s c))), Fin (3 * (X (c_ce c) - X (c_cs c))), Fin (3 * (X (c_e c) - X (c_ce c)))) (q0, q1)).
  { unfold extremaX, derive2, derive1, dpt, three. cbn [px py].
    rewrite !(px_fin _ F1), !(px_fin _ F2), !(px_fin _ F3), !(px_fin _ F4). fin. eauto. }
  assert (EY : exists q0 q1, extremaY c = @extrema1 RNum (Fin (3 * (Y (c_cs c) - Y (c_s c))), Fin (3 * (Y (c_ce c) - Y (c_cs c))), Fin (3 * (Y (c_e c) - Y (c_ce c)))) (q0, q1)).
  { unfold extremaY, derive2, derive1, dpt, three. cbn [px py].
    rewrite !(py_fin _ F1), !(py_fin _ F2), !(py_fin _ F3), !(py_fin _ F4). fin. eauto. }
  destruct EX as (q0 & q1 & EX). destruct EY as (r0 & r1 & EY).
  destruct (box1_spec (X (c_s c)) (X (c_cs c)) (X (c_ce c)) (X (c_e c)) q0 q1 (fun t => px (FindPoint c t)) _ eq_refl) as (l & r & E1 & E2 & R1); auto.
  { intros t. rewrite FindPoint_spec by auto. reflexivity. }
  destruct (box1_spec (Y (c_s c)) (Y (c_cs c)) (Y (c_ce c)) (Y (c_e c)) r0 r1 (fun t => py (FindPoint c t)) _ eq_refl) as (u & d & E3 & E4 & R2); auto.
  { intros t. rewrite FindPoint_spec by auto. reflexivity. }
  unfold BoundingBox. cbv zeta. rewrite EX, EY, E1, E2, E3, E4. cbn [fst snd].
  split; [reflexivity|split; [reflexivity|split]].
  - cbn. apply (range_ext (cubicSet (X (c_s c)) (X (c_cs c)) (X (c_ce c)) (X (c_e c)))); auto. intros x. symmetry. apply projX_curve.
  - cbn. apply (range_ext (cubicSet (Y (c_s c)) (Y (c_cs c)) (Y (c_ce c)) (Y (c_e c)))); auto. intros x. symmetry. apply projY_curve.
Qed.

Lemma norm0_fin x : @norm0 RNum (Fin x) = Fin x.
Proof. unfold norm0. fin. destruct (Reqb_spec x 0); subst; auto. Qed.
Lemma NewPoint_fin x y : @NewPoint RNum (Fin x) (Fin y) = pnt x y.
Proof. unfold NewPoint. rewrite !norm0_fin. reflexivity. Qed.
Lemma bpP_finite p : finitePt p -> bpP p = p.
Proof. intros H. unfold bpP. rewrite (px_fin _ H), (py_fin _ H), NewPoint_fin. symmetry. exact H. Qed.
Lemma clonePt_finite p : finitePt p -> clonePt p = p.
Proof. apply bpP_finite. Qed.

Lemma opBox_tight c : finiteCrv c -> smallCrv c ->
  exists tl br, opBox c = Ok (tl, br) /\ tightBox (onSeg (crvSeg c)) tl br.
Proof.
  intros Hf Hs. pose proof (BoundingBox_tight c Hf Hs) as H. unfold opBox. destruct (BoundingBox c) as [tl br]. cbn [fst snd] in H.
  exists tl, br. destruct H as (H1 & H2 & H3). rewrite !bpP_finite by auto. split; auto. split; auto.
Qed.
